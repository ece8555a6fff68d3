(** A predicate on the values of lines is kept by the operations on lines, whatever the numbers are. *)
From Coq Require Import ZArith List Bool Lia.
From Verif Require Import Num Series Line IndMA FloatSpec LineFacts.
Import ListNotations.
Set Implicit Arguments.

Section Keep.
  Context {V : Type} {N : Num V}.
  Implicit Types P Q T : V -> Prop.

  Lemma Forall_firstn {A} (R : A -> Prop) k l : Forall R l -> Forall R (firstn k l).
  Proof. intro H. revert k. induction H; intros [|k]; cbn; auto. Qed.
  Lemma Forall_skipn {A} (R : A -> Prop) k l : Forall R l -> Forall R (skipn k l).
  Proof. intro H. revert k. induction H; intros [|k]; cbn; auto. Qed.
  Lemma Forall_repeat {A} (R : A -> Prop) a k : R a -> Forall R (repeat a k).
  Proof. intro. induction k; cbn; auto. Qed.
  Lemma Forall_slice_from {A} (R : A -> Prop) l i : Forall R l -> Forall R (slice_from l i).
  Proof. apply Forall_skipn. Qed.
  Lemma Forall_slice {A} (R : A -> Prop) l i j : Forall R l -> Forall R (slice l i j).
  Proof. intro. apply Forall_firstn, Forall_skipn. assumption. Qed.
  Lemma Forall_set_from {A} (R : A -> Prop) l i r : Forall R l -> Forall R r -> Forall R (set_from l i r).
  Proof. intros. unfold set_from. apply Forall_app. split; [now apply Forall_firstn|assumption]. Qed.
  Lemma Forall_map2 {A B C} (R : A -> Prop) (S : B -> Prop) (U : C -> Prop) op l m :
    (forall x y, R x -> S y -> U (op x y)) -> Forall R l -> Forall S m -> Forall U (map2 op l m).
  Proof. intros H Hl. revert m. induction Hl; intros m Hm; cbn; [constructor|]. destruct Hm; constructor; auto. Qed.
  Lemma Forall_True {A} (l : list A) : Forall (fun _ => True) l.
  Proof. induction l; auto. Qed.
  Lemma Forall_map' {A B} (R : A -> Prop) (S : B -> Prop) f l : (forall x, R x -> S (f x)) -> Forall R l -> Forall S (map f l).
  Proof. intros H Hl. induction Hl; cbn; auto. Qed.

  Lemma every_nans P n : P vnan -> Forall P (nans n).
  Proof. apply Forall_repeat. Qed.
  Lemma every_True (a : line V) : every (fun _ => True) a.
  Proof. apply Forall_True. Qed.

  Lemma every_binop P Q T op (a b : line V) :
    T vnan -> (forall x y, P x -> Q y -> T (op x y)) -> every P a -> every Q b -> every T (binop op a b).
  Proof.
    intros HT H Ha Hb. unfold every, binop, clone; cbn [lser]. apply Forall_set_from; [now apply every_nans|].
    apply Forall_map2 with (R := P) (S := Q); auto using Forall_slice_from.
  Qed.
  Lemma every_binop_s P T op (a : line V) c :
    T vnan -> (forall x, P x -> T (op x c)) -> every P a -> every T (binop_s op a c).
  Proof.
    intros HT H Ha. unfold every, binop_s, clone; cbn [lser]. apply Forall_set_from; [now apply every_nans|].
    apply Forall_map' with (R := P); auto using Forall_slice_from.
  Qed.
  Lemma every_rbinop_s P T op (a : line V) c :
    T vnan -> (forall x, P x -> T (op c x)) -> every P a -> every T (rbinop_s op c a).
  Proof.
    intros HT H Ha. unfold every, rbinop_s, clone; cbn [lser]. apply Forall_set_from; [now apply every_nans|].
    apply Forall_map' with (R := P); auto using Forall_slice_from.
  Qed.
  Lemma every_mapop P T f (a : line V) :
    T vnan -> (forall x, P x -> T (f x)) -> every P a -> every T (mapop f a).
  Proof.
    intros HT H Ha. unfold every, mapop, stdop, clone; cbn [lser]. apply Forall_set_from; [now apply every_nans|].
    apply Forall_map' with (R := P); auto using Forall_slice_from.
  Qed.
  Lemma every_clip_lo P T (a : line V) c :
    T vnan -> (forall x, P x -> T (clip_lo c x)) -> every P a -> every T (lclip_lo a c).
  Proof.
    intros HT H Ha. unfold every, lclip_lo, clone; cbn [lser]. apply Forall_set_from; [now apply every_nans|].
    apply Forall_map' with (R := P); auto using Forall_slice_from.
  Qed.
  Lemma every_mul_b P T (a : line V) b :
    T vnan -> (forall x c, P x -> T (vmul x (vofbool c))) -> every P a -> every T (mul_b a b).
  Proof.
    intros HT H Ha. unfold every, mul_b, clone; cbn [lser]. apply Forall_set_from; [now apply every_nans|].
    apply Forall_map2 with (R := P) (S := fun _ => True); auto using Forall_slice_from, Forall_True.
  Qed.
  Lemma prep_keep P x : P vnan -> P x -> P (prep x).
  Proof. intros. unfold prep. now destruct (visinf x). Qed.
  (** a window without missing values and infinities *)
  Definition clean (x : V) : Prop := visnan x = false /\ visinf x = false.
  Lemma every_rolling P T w G (a : line V) :
    T vnan -> visnan vnan = true -> (forall l, Forall (fun x => P x /\ clean x) l -> length l <= w -> T (G l)) ->
    every P a -> every T (rolling w G a).
  Proof.
    intros HT Hn H Ha. unfold every, rolling, clone; cbn [lser]. apply Forall_set_from; [now apply every_nans|].
    unfold ser_rolling. apply Forall_map' with (R := fun _ => True); [|apply Forall_True]. intros i _.
    destruct (S i <? w); [exact HT|]. unfold guard_win.
    destruct (existsb visnan _) eqn:E; [exact HT|]. apply H.
    - set (win := window _ i w) in *. assert (Hw : Forall P win) by (apply Forall_firstn, Forall_skipn, Forall_slice_from, Ha).
      clearbody win. induction Hw as [|x l Hx Hl IH]; cbn in *; [constructor|].
      apply orb_false_iff in E. destruct E as [E1 E2]. constructor; [|now apply IH].
      unfold prep in *. destruct (visinf x) eqn:I; [congruence|]. repeat split; assumption.
    - rewrite map_length. unfold window. rewrite firstn_length. lia.
  Qed.
  Lemma vsum_keep P l : (forall x y, P x -> P y -> P (vadd x y)) -> P v0 -> Forall P l -> P (vsum l).
  Proof.
    intros H H0 Hl. unfold vsum. generalize H0. generalize (v0 : V). induction Hl; cbn; intros; auto.
  Qed.
  Lemma notnan_keep P l : Forall P l -> Forall P (notnan l).
  Proof. intro H. induction H; cbn; [constructor|]. destruct (negb (visnan x)); auto. Qed.

  (** the exponential mean; [W] holds for the weights *)
  Lemma ewma_keep P (W : V -> Prop) alpha adjust :
    P vnan -> W v1 -> W alpha ->
    (forall o, W o -> W (vmul o (vsub v1 alpha))) -> (forall x y, W x -> W y -> W (vadd x y)) ->
    (forall o n x y, W o -> W n -> P x -> P y -> P (vdiv (vadd (vmul o x) (vmul n y)) (vadd o n))) ->
    forall s wa ow, P wa -> W ow -> Forall P s -> Forall P (ewma_from alpha adjust wa ow s).
  Proof.
    intros HN W1 WA Wm Wa HP s. induction s as [|x s IH]; intros wa ow Hwa How Hs; cbn [ewma_from]; [constructor|].
    inversion Hs as [|? ? Hx Hs']; subst.
    destruct (visnan wa).
    - constructor; [now destruct (visnan x)|]. apply IH; auto. now destruct (visnan x).
    - destruct (visnan x); [constructor; auto|].
      assert (Wn : W (if adjust then v1 else alpha)) by now destruct adjust.
      assert (Pn : P (if veqb wa x then wa
        else vdiv (vadd (vmul (vmul ow (vsub v1 alpha)) wa) (vmul (if adjust then v1 else alpha) x))
               (vadd (vmul ow (vsub v1 alpha)) (if adjust then v1 else alpha)))) by (destruct (veqb wa x); auto).
      constructor; [exact Pn|]. apply IH; auto. destruct adjust; auto.
  Qed.
  Lemma ser_ewma_keep P (W : V -> Prop) alpha adjust s :
    P vnan -> W v1 -> W alpha ->
    (forall o, W o -> W (vmul o (vsub v1 alpha))) -> (forall x y, W x -> W y -> W (vadd x y)) ->
    (forall o n x y, W o -> W n -> P x -> P y -> P (vdiv (vadd (vmul o x) (vmul n y)) (vadd o n))) ->
    Forall P s -> Forall P (ser_ewma alpha adjust s).
  Proof.
    intros. unfold ser_ewma. assert (Hp : Forall P (map prep s)) by (apply Forall_map' with (R := P); [intros; now apply (prep_keep P)|assumption]).
    destruct (map prep s); [constructor|]. inversion Hp; subst. constructor; [assumption|]. apply ewma_keep with (W := W); auto.
  Qed.
  Lemma rev_keep P l : Forall P l -> Forall P (rev l).
  Proof. apply Forall_rev. Qed.
  Lemma getitem_keep P s i x : Forall P s -> getitem s i = Ok x -> P x.
  Proof.
    unfold getitem. intros H E. destruct (_ <? 0)%Z; [discriminate|]. destruct (nth_error s _) eqn:G; [|discriminate].
    inversion E; subst. rewrite Forall_forall in H. apply H. eapply nth_error_In; eauto.
  Qed.
  Lemma every_ewm_call P (a y : line V) pval po pe ap sd F :
    P vnan -> P v0 -> (forall l, Forall P l -> P (ser_mean l)) -> (forall l, Forall P l -> P (ser_sum l)) ->
    (forall t r, Forall P t -> F t = Ok r -> Forall P r) ->
    every P a -> ewm_call a pval po pe ap sd F = Ok y -> every P y.
  Proof.
    intros HN H0 Hm Hs HF Ha.
    assert (FIN : forall pre mp pv pi rest, Forall P pre -> Forall P rest ->
              snd (mf_call (mkMfo a mp pv pe ap pi (pre ++ rest)) F) = Ok y -> every P y).
    { intros pre mp pv pi rest Hp Hr E. unfold mf_call, bind in E; cbn in E. destruct (F _) eqn:G; [|discriminate].
      inversion E; subst. clear E. unfold every, clone; cbn [lser]. apply Forall_set_from; [now apply every_nans|].
      eapply HF; [|exact G]. now apply Forall_app. }
    assert (SL : forall prefix v r, Forall P prefix -> P v ->
              match rev prefix with [] => Raise IndexError | _ :: q => Ok (rev (v :: q)) end = Ok r -> Forall P r).
    { intros prefix v r Hp Hv. apply Forall_rev in Hp. destruct (rev prefix) as [|z q]; [discriminate|].
      intro E. injection E as <-. apply (Forall_rev (l := v :: q)). constructor; [assumption|]. now inversion Hp. }
    unfold ewm_call, mf_ewm. cbv zeta.
    set (p2 := (lmp a - 1 + _ - pe)%Z). clearbody p2. set (prefix := map _ _).
    assert (Hp : Forall P prefix) by (apply Forall_map' with (R := fun _ => True); [auto|apply Forall_True]).
    clearbody prefix. intro E.
    assert (Ha' : Forall P (lser a)) by exact Ha.
    destruct sd; cbn [bind] in E.
    - destruct (match rev prefix with [] => _ | _ :: _ => _ end) eqn:G in E; [|discriminate]. cbn [bind] in E.
      eapply FIN; [| |exact E]; [|now apply Forall_slice_from]. eapply SL; [exact Hp| |exact G]. apply Hm. now apply Forall_slice.
    - destruct (getitem _ _) eqn:G in E; [|discriminate]. cbn [bind] in E.
      destruct (match rev prefix with [] => _ | _ :: _ => _ end) eqn:G' in E; [|discriminate]. cbn [bind] in E.
      eapply FIN; [| |exact E]; [|now apply Forall_slice_from]. eapply SL; [exact Hp| |exact G']. eapply getitem_keep with (P := P); [|exact G]. exact Ha.
    - destruct (match rev prefix with [] => _ | _ :: _ => _ end) eqn:G in E; [|discriminate]. cbn [bind] in E.
      eapply FIN; [| |exact E]; [|now apply Forall_slice_from]. eapply SL; [exact Hp| |exact G]. apply Hs. now apply Forall_slice.
    - eapply FIN; [| |exact E]; [exact Hp|now apply Forall_slice_from].
    - destruct (match rev prefix with [] => _ | _ :: _ => _ end) eqn:G in E; [|discriminate]. cbn [bind] in E.
      eapply FIN; [| |exact E]; [|now apply Forall_slice_from]. eapply SL; [exact Hp| |exact G]. exact H0.
    - eapply FIN; [| |exact E]; [|now apply Forall_slice_from]. apply Forall_map' with (R := P); auto.
  Qed.
End Keep.
