(** Facts about the call machinery. *)
From Coq Require Import List String Bool Arith ZArith Lia.
From Verif Require Import Series Py PyFacts Params ParamsFacts Inputs InputsFacts Calls.
Import ListNotations.
Set Implicit Arguments.
Local Open Scope string_scope.
Local Open Scope list_scope.
Local Open Scope nat_scope.

(** ** Specification *)
(** calls that entered their initialisers and were left by an exception *)
Definition raised (o : outcome) : bool := match o with RExc _ => true | _ => false end.
Definition aborted (e : event) : bool := ev_entered e && raised (ev_out e).
Definition count_aborted (l : list event) : nat := List.length (filter aborted l).

Lemma count_app : forall a b, count_aborted (a ++ b) = count_aborted a + count_aborted b.
Proof. intros. unfold count_aborted. now rewrite filter_app, app_length. Qed.

(** ** Induction on calls *)
Section CallInd.
  Variable P : call -> Prop.
  Hypothesis H : forall multi pre kids post, Forall (fun k => P (snd k)) kids -> P (Call multi pre kids post).
  Fixpoint call_ind' (c : call) : P c :=
    match c with
    | Call multi pre kids post =>
        @H multi pre kids post
          ((fix go (ks : list (bool * call)) : Forall (fun k => P (snd k)) ks :=
              match ks with
              | [] => Forall_nil _
              | (b, k) :: ks' => @Forall_cons _ (fun k => P (snd k)) (b, k) ks' (call_ind' k) (go ks')
              end) kids)
    end.
End CallInd.

Definition exec_kids (retdf : bool) (level : nat) (post : option exc) :=
  fix go (ks : list (bool * call)) (d : nat) : list event * option exc * nat :=
    match ks with
    | [] => ([], post, d)
    | (caught, k) :: ks' =>
        let '(ev1, o1, d1) := exec retdf (S level) d k in
        match o1, caught with
        | RExc e, false => (ev1, Some e, d1)
        | _, _ => let '(ev2, o2, d2) := go ks' d1 in (ev1 ++ ev2, o2, d2)
        end
    end.
Lemma exec_eq : forall retdf level depth multi pre kids post,
  exec retdf level depth (Call multi pre kids post) =
  if multi && (0 <? depth) then ([mkEv level false (RExc InputsError)], RExc InputsError, depth)
  else match pre with
  | Some e => ([mkEv level false (RExc e)], RExc e, depth)
  | None =>
      let '(ev, o, d) := exec_kids retdf level post kids (S depth) in
      match o with
      | Some e => (ev ++ [mkEv level true (RExc e)], RExc e, d)
      | None =>
          let d' := pred d in
          let r := if (d' =? 0) && retdf then RFrame else RObj in
          (ev ++ [mkEv level true r], r, d')
      end
  end.
Proof. reflexivity. Qed.

(** the stack grows by the number of aborted calls *)
Lemma exec_depth : forall retdf c level depth ev o d, exec retdf level depth c = (ev, o, d) ->
  d = depth + count_aborted ev.
Proof.
  intros retdf c. induction c as [multi pre kids post IH] using call_ind'. intros level depth ev o d H.
  rewrite exec_eq in H. destruct (multi && (0 <? depth)); [injection H as <- <- <-; cbn; lia|].
  destruct pre as [e|]; [injection H as <- <- <-; cbn; lia|].
  assert (K : forall ks d0 ev1 o1 d1, Forall (fun k => forall level depth ev o d,
       exec retdf level depth (snd k) = (ev, o, d) -> d = depth + count_aborted ev) ks ->
     exec_kids retdf level post ks d0 = (ev1, o1, d1) -> d1 = d0 + count_aborted ev1).
  { clear. induction ks as [|[b k] ks IHk]; intros d0 ev1 o1 d1 F H; cbn in H.
    - injection H as <- <- <-. cbn. lia.
    - inversion F; subst. destruct (exec retdf (S level) d0 k) as [[ev2 o2] d2] eqn:E.
      apply H2 in E. fold (exec_kids retdf level post) in H.
      destruct (exec_kids retdf level post ks d2) as [[ev3 o3] d3] eqn:E3. apply IHk in E3; [|exact H3].
      destruct o2 as [| |e]; [| |destruct b]; injection H as <- <- <-; rewrite ?count_app; lia. }
  destruct (exec_kids retdf level post kids (S depth)) as [[ev1 o1] d1] eqn:E. apply K in E; [|exact IH].
  destruct o1 as [e|].
  - injection H as <- <- <-. rewrite count_app. cbn. lia.
  - injection H as <- <- <-. rewrite count_app. destruct ((pred d1 =? 0) && retdf); cbn; lia.
Qed.

Lemma exec_own_event : forall retdf c level depth ev o d, exec retdf level depth c = (ev, o, d) ->
  exists ev0 b, ev = ev0 ++ [mkEv level b o].
Proof.
  intros retdf [multi pre kids post] level depth ev o d H. rewrite exec_eq in H.
  destruct (multi && (0 <? depth)); [injection H as <- <- <-; exists [], false; reflexivity|].
  destruct pre as [e|]; [injection H as <- <- <-; exists [], false; reflexivity|].
  destruct (exec_kids retdf level post kids (S depth)) as [[ev1 o1] d1].
  destruct o1; injection H as <- <- <-; eauto.
Qed.

(** calls made with a non-empty stack never return a DataFrame *)
Lemma exec_no_frame : forall retdf c level depth ev o d, exec retdf level depth c = (ev, o, d) -> 0 < depth ->
  forall x, In x ev -> ev_out x <> RFrame.
Proof.
  intros retdf c. induction c as [multi pre kids post IH] using call_ind'. intros level depth ev o d H Hd.
  assert (Hdep := exec_depth _ _ _ _ H).
  rewrite exec_eq in H. destruct (multi && (0 <? depth)); [injection H as <- <- <-; intros x [<-|[]]; discriminate|].
  destruct pre as [e|]; [injection H as <- <- <-; intros x [<-|[]]; discriminate|].
  assert (K : forall ks d0 ev1 o1 d1, Forall (fun k => forall level depth ev o d,
       exec retdf level depth (snd k) = (ev, o, d) -> 0 < depth -> forall x, In x ev -> ev_out x <> RFrame) ks ->
     exec_kids retdf level post ks d0 = (ev1, o1, d1) -> 0 < d0 -> forall x, In x ev1 -> ev_out x <> RFrame).
  { clear. induction ks as [|[b k] ks IHk]; intros d0 ev1 o1 d1 F H Hd x Hx; cbn in H.
    - injection H as <- <- <-. destruct Hx.
    - inversion F; subst. destruct (exec retdf (S level) d0 k) as [[ev2 o2] d2] eqn:E.
      assert (D2 := exec_depth _ _ _ _ E). fold (exec_kids retdf level post) in H.
      destruct (exec_kids retdf level post ks d2) as [[ev3 o3] d3] eqn:E3.
      assert (A : forall x, In x ev2 -> ev_out x <> RFrame) by (eapply H2; eauto).
      assert (B : forall x, In x ev3 -> ev_out x <> RFrame) by (eapply IHk; eauto; lia).
      destruct o2 as [| |e]; [| |destruct b]; injection H as <- <- <-;
        try (apply in_app_or in Hx; destruct Hx); auto. }
  destruct (exec_kids retdf level post kids (S depth)) as [[ev1 o1] d1] eqn:E.
  assert (B : forall x, In x ev1 -> ev_out x <> RFrame) by (eapply K; eauto; lia).
  destruct o1 as [e|]; injection H as <- <- <-; intros x Hx; apply in_app_or in Hx;
    destruct Hx as [Hx|[<-|[]]]; auto; [discriminate|]. cbn [ev_out].
  rewrite count_app in Hdep. destruct (Nat.eqb_spec (pred d1) 0) as [E0|E0]; cbn [andb]; [lia|discriminate].
Qed.
(** the stack is not shorter than the number of open calls, so nested calls never return a DataFrame *)
Lemma exec_nested : forall retdf c level depth ev o d, exec retdf level depth c = (ev, o, d) ->
  forall x, In x ev -> level <= ev_level x /\ (level < ev_level x -> ev_out x <> RFrame).
Proof.
  intros retdf c. induction c as [multi pre kids post IH] using call_ind'. intros level depth ev o d H.
  rewrite exec_eq in H.
  destruct (multi && (0 <? depth)); [injection H as <- <- <-; intros x [<-|[]]; cbn; split; [lia|discriminate]|].
  destruct pre as [e|]; [injection H as <- <- <-; intros x [<-|[]]; cbn; split; [lia|discriminate]|].
  assert (K : forall ks d0 ev1 o1 d1, Forall (fun k => forall level depth ev o d,
       exec retdf level depth (snd k) = (ev, o, d) ->
       forall x, In x ev -> level <= ev_level x /\ (level < ev_level x -> ev_out x <> RFrame)) ks ->
     exec_kids retdf level post ks d0 = (ev1, o1, d1) -> 0 < d0 ->
     forall x, In x ev1 -> level < ev_level x /\ ev_out x <> RFrame).
  { clear. induction ks as [|[b k] ks IHk]; intros d0 ev1 o1 d1 F H Hd x Hx; cbn in H.
    - injection H as <- <- <-. destruct Hx.
    - inversion F; subst. destruct (exec retdf (S level) d0 k) as [[ev2 o2] d2] eqn:E.
      assert (D2 := exec_depth _ _ _ _ E). fold (exec_kids retdf level post) in H.
      destruct (exec_kids retdf level post ks d2) as [[ev3 o3] d3] eqn:E3.
      assert (A : forall x, In x ev2 -> level < ev_level x /\ ev_out x <> RFrame).
      { intros y Hy. split; [destruct (H2 _ _ _ _ _ E y Hy); lia|]. eapply exec_no_frame; eauto. }
      assert (B : forall x, In x ev3 -> level < ev_level x /\ ev_out x <> RFrame) by (eapply IHk; eauto; lia).
      destruct o2 as [| |e]; [| |destruct b]; injection H as <- <- <-;
        try (apply in_app_or in Hx; destruct Hx); auto. }
  destruct (exec_kids retdf level post kids (S depth)) as [[ev1 o1] d1] eqn:E.
  assert (B : forall x, In x ev1 -> level < ev_level x /\ ev_out x <> RFrame) by (eapply K; eauto; lia).
  destruct o1 as [e|]; injection H as <- <- <-; intros x Hx; apply in_app_or in Hx;
    (destruct Hx as [Hx|[<-|[]]]; [destruct (B x Hx); split; [lia|auto]|cbn; split; [lia|intro; lia]]).
Qed.

(** C23 *)
Lemma depth_restored : forall retdf c level depth ev o d, exec retdf level depth c = (ev, o, d) ->
  (forall x, In x ev -> raised (ev_out x) = false) -> d = depth.
Proof.
  intros retdf c level depth ev o d H Hr. rewrite (exec_depth _ _ _ _ H).
  unfold count_aborted. replace (filter aborted ev) with (@nil event); [cbn; lia|].
  symmetry. clear H. induction ev as [|x ev IH]; cbn; [reflexivity|]. unfold aborted at 1.
  rewrite (Hr x) by now left. rewrite andb_false_r. apply IH. intros. apply Hr. now right.
Qed.
(** a program, event by event *)
Lemma run_depth : forall l depth rs d, run depth l = (rs, d) ->
  d = depth + count_aborted (List.concat (map fst rs)).
Proof.
  induction l as [|[b c] l IH]; intros depth rs d H; cbn in H.
  - injection H as <- <-. cbn. lia.
  - destruct (exec b 0 depth c) as [[ev o] d1] eqn:E. destruct (run d1 l) as [rs' d'] eqn:E'. injection H as <- <-.
    apply IH in E'. apply exec_depth in E. cbn [map fst List.concat]. rewrite count_app. lia.
Qed.
Lemma count_zero : forall ev, count_aborted ev = 0 <-> forall x, In x ev -> aborted x = false.
Proof.
  intro ev. unfold count_aborted. induction ev as [|x ev IH]; cbn; [split; [intros _ x []|auto]|].
  split.
  - intros H y [<-|Hy]; destruct (aborted x) eqn:E; cbn in H; try discriminate; try reflexivity. now apply IH.
  - intro H. rewrite (H x) by now left. apply IH. intros. apply H. now right.
Qed.
Lemma run_clean : forall l depth rs d, run depth l = (rs, d) ->
  (d = depth <-> forall x, In x (List.concat (map fst rs)) -> aborted x = false).
Proof.
  intros l depth rs d H. rewrite <- count_zero. apply run_depth in H. lia.
Qed.
Lemma run_app : forall l1 l2 depth, run depth (l1 ++ l2) =
  let '(rs1, d1) := run depth l1 in let '(rs2, d2) := run d1 l2 in (rs1 ++ rs2, d2).
Proof.
  induction l1 as [|[b c] l1 IH]; intros l2 depth; cbn.
  - destruct (run depth l2); reflexivity.
  - destruct (exec b 0 depth c) as [[ev o] d]. rewrite IH. destruct (run d l1) as [rs1 d1].
    destruct (run d1 l2). reflexivity.
Qed.
Lemma run_length : forall l depth rs d, run depth l = (rs, d) -> List.length rs = List.length l.
Proof.
  induction l as [|[b c] l IH]; intros depth rs d H; cbn in H; [injection H as <- <-; reflexivity|].
  destruct (exec b 0 depth c) as [[ev o] d1]. destruct (run d1 l) as [rs' d'] eqn:E. injection H as <- <-.
  cbn. f_equal. eauto.
Qed.

(** C24: once a call was aborted every later call sees a non-empty stack *)
Lemma run_stuck : forall l depth rs d, 0 < depth -> run depth l = (rs, d) ->
  forall k b c ev o, nth_error l k = Some (b, c) -> nth_error rs k = Some (ev, o) ->
  o <> RFrame /\ (forall pre kids post, c = Call true pre kids post -> o = RExc InputsError).
Proof.
  induction l as [|[b c] l IH]; intros depth rs d Hd H k b0 c0 ev o Hk Hr; [destruct k; discriminate|].
  cbn in H. destruct (exec b 0 depth c) as [[ev1 o1] d1] eqn:E. destruct (run d1 l) as [rs' d'] eqn:E'.
  injection H as <- <-. destruct k as [|k]; cbn in Hk, Hr.
  - injection Hk as -> ->. injection Hr as -> ->. split.
    + destruct (exec_own_event _ _ _ _ E) as [ev0 [x ->]].
      apply (@exec_no_frame _ _ _ _ _ _ _ E Hd (mkEv 0 x o)). apply in_or_app. right. now left.
    + intros pre kids post ->. rewrite exec_eq in E. assert (L : (0 <? depth) = true) by (apply Nat.ltb_lt; exact Hd).
      rewrite L in E. cbn in E. now injection E.
  - eapply (IH d1); eauto. apply exec_depth in E. lia.
Qed.
Lemma aborted_poisons : forall l1 l2 rs1 rs2 d1 d2 x, run 0 l1 = (rs1, d1) ->
  In x (List.concat (map fst rs1)) -> aborted x = true ->
  run d1 l2 = (rs2, d2) ->
  forall k b c ev o, nth_error l2 k = Some (b, c) -> nth_error rs2 k = Some (ev, o) ->
  o <> RFrame /\ (forall pre kids post, c = Call true pre kids post -> o = RExc InputsError).
Proof.
  intros l1 l2 rs1 rs2 d1 d2 x H Hx Ha H2. apply run_stuck with (2 := H2).
  destruct d1; [|lia]. apply run_clean in H. destruct H as [H _]. rewrite H in Ha; auto. discriminate.
Qed.
Lemma not_aborted_clean : forall l1 rs1 d1, run 0 l1 = (rs1, d1) ->
  (forall x, In x (List.concat (map fst rs1)) -> aborted x = false) ->
  forall l2, run d1 l2 = run 0 l2.
Proof.
  intros l1 rs1 d1 H Ha l2. apply run_clean in H. apply H in Ha. now subst.
Qed.

(** C25 *)
Lemma return_type : forall retdf c ev o d, exec retdf 0 0 c = (ev, o, d) ->
  (forall x, In x ev -> 0 < ev_level x -> ev_out x <> RFrame) /\
  ((forall x, In x ev -> raised (ev_out x) = false) -> o = if retdf then RFrame else RObj) /\
  (o = RFrame <-> retdf = true /\ raised o = false /\ forall x, In x ev -> aborted x = false).
Proof.
  intros retdf c ev o d H. split; [intros x Hx; now apply (exec_nested _ _ _ _ H x Hx)|].
  assert (X : raised o = false -> o = if (d =? 0) && retdf then RFrame else RObj).
  { destruct c as [multi pre kids post]. rewrite exec_eq in H. rewrite andb_false_r in H.
    destruct pre; [injection H as <- <- <-; discriminate|].
    destruct (exec_kids retdf 0 post kids 1) as [[ev1 o1] d1]. destruct o1; injection H as <- <- <-; [discriminate|].
    reflexivity. }
  destruct (exec_own_event _ _ _ _ H) as [ev0 [b Hev]].
  assert (D := exec_depth _ _ _ _ H). split.
  - intro Hr. assert (E := depth_restored _ _ _ _ H Hr). rewrite E in X. apply X. rewrite <- (Hr (mkEv 0 b o)); [reflexivity|].
    rewrite Hev. apply in_or_app. right. now left.
  - rewrite <- count_zero. split.
    + intros ->. specialize (X eq_refl). destruct (Nat.eqb_spec d 0) as [E0|E0]; [|discriminate].
      destruct retdf; [|discriminate]. repeat split; lia.
    + intros [-> [Hr Hc]]. rewrite (X Hr). replace d with 0 by lia. reflexivity.
Qed.

(** ** C22 *)
Lemma fromkeys_mem : forall l x, In x (fromkeys l) <-> In x l.
Proof. intros l x. unfold fromkeys. rewrite fromkeys_in. cbn. tauto. Qed.
Lemma init_nodup : forall ch, NoDup (init_order ch).
Proof. intro ch. unfold init_order. apply NoDup_rev. apply fromkeys_nodup. Qed.
Lemma init_in : forall ch f, In f (init_order ch) <-> In f ch.
Proof. intros ch f. unfold init_order. rewrite <- in_rev. apply fromkeys_mem. Qed.
Lemma fromkeys_acc_order : forall l seen p a b, fromkeys_acc seen l = p ++ [a] ++ b ->
  exists l1 l2, l = l1 ++ a :: l2 /\ ~ In a l1 /\ ~ In a seen /\
    (forall x, In x p -> In x l1) /\ (forall x, In x b -> ~ In x l1 /\ In x l2).
Proof.
  induction l as [|x l IH]; intros seen p a b H; cbn in H; [destruct p; discriminate|].
  destruct (smem x seen) eqn:E.
  - destruct (IH seen p a b H) as [l1 [l2 [-> [H1 [H2 [H3 H4]]]]]].
    apply smem_spec in E. exists (x :: l1), l2. split; [reflexivity|].
    split; [intros [->|?]; contradiction|]. split; [exact H2|]. split; [intros; right; auto|].
    intros y Hy. split; [|now apply H4]. intros [->|Q]; [|now apply (H4 y Hy)].
    assert (In y (fromkeys_acc seen (l1 ++ a :: l2))) as Hi.
    { rewrite H. apply in_or_app. right. now right. }
    clear - Hi E. revert Hi. generalize (l1 ++ a :: l2) as m. revert E. revert seen.
    assert (G : forall m seen, In y seen -> ~ In y (fromkeys_acc seen m)).
    { induction m as [|z m IHm]; intros seen Hs; cbn; [tauto|]. destruct (smem z seen) eqn:Ez; [now apply IHm|].
      intros [->|Q]; [apply smem_false in Ez; contradiction|]. revert Q. apply IHm. now right. }
    intros seen Hs m Hm. exact (G m seen Hs Hm).
  - apply smem_false in E. destruct p as [|y p]; cbn in H.
    + injection H as -> Hb. exists [], l. split; [reflexivity|]. split; [tauto|]. split; [exact E|].
      split; [tauto|]. intros y Hy. split; [tauto|]. rewrite <- Hb in Hy.
      clear - Hy. revert Hy. generalize (a :: seen). induction l as [|z l IHl]; intros s Hy; cbn in Hy; [exact Hy|].
      destruct (smem z s); [right; eauto|]. destruct Hy as [<-|Hy]; [now left|right; eauto].
    + injection H as -> H. destruct (IH _ _ _ _ H) as [l1 [l2 [-> [H1 [H2 [H3 H4]]]]]].
      exists (y :: l1), l2. split; [reflexivity|].
      split; [intros [->|?]; [apply H2; now left|contradiction]|]. split; [intro; apply H2; now right|].
      split; [intros z [->|Hz]; [now left|right; auto]|].
      intros z Hz. split; [|now apply H4]. intros [->|Q]; [|now apply (H4 z Hz)].
      assert (In z (fromkeys_acc (z :: seen) (l1 ++ a :: l2))) as Hi.
      { rewrite H. apply in_or_app. right. now right. }
      assert (G : forall m s, In z s -> ~ In z (fromkeys_acc s m)).
      { induction m as [|u m IHm]; intros s Hs; cbn; [tauto|]. destruct (smem u s) eqn:Ez; [now apply IHm|].
        intros [->|Q]; [apply smem_false in Ez; contradiction|]. revert Q. apply IHm. now right. }
      eapply G; [|exact Hi]. now left.
Qed.
(** [f] runs before [g] exactly if [f]'s nearest class lies further up than [g]'s *)
Definition before (l : list string) (f g : string) : Prop := exists a b c, l = a ++ f :: b ++ g :: c.
Lemma init_before : forall ch f g a c, ch = a ++ g :: c -> ~ In g a -> ~ In f (a ++ [g]) -> In f c ->
  before (init_order ch) f g.
Proof.
  intros ch f g a c E Hg Hf Hc. unfold before, init_order.
  assert (Hin : In g (fromkeys ch)) by (apply fromkeys_mem; rewrite E; apply in_or_app; right; now left).
  apply in_split in Hin. destruct Hin as [p [q Hpq]].
  destruct (@fromkeys_acc_order ch [] p g q Hpq) as [l1 [l2 [E2 [H1 [_ [H3 H4]]]]]].
  assert (l1 = a).
  { assert (U : forall (x y x' y' : list string), x ++ g :: y = x' ++ g :: y' -> ~ In g x -> ~ In g x' -> x = x').
    { clear. induction x as [|u x IH]; intros y x' y' E H H'; destruct x' as [|u' x']; cbn in E.
      - reflexivity.
      - injection E as -> _. exfalso. apply H'. now left.
      - injection E as -> _. exfalso. apply H. now left.
      - injection E as -> E. f_equal. eapply IH; eauto; intro; [apply H|apply H']; now right. }
    eapply U; [|exact H1|exact Hg]. rewrite <- E2. exact E. }
  subst l1.
  assert (Hfin : In f (fromkeys ch)) by (apply fromkeys_mem; rewrite E; apply in_or_app; right; now right).
  rewrite Hpq in Hfin. apply in_app_or in Hfin. destruct Hfin as [Hfin|[->|Hfin]].
  - exfalso. apply Hf. apply in_or_app. left. auto.
  - exfalso. apply Hf. apply in_or_app. right. now left.
  - apply in_split in Hfin. destruct Hfin as [q1 [q2 ->]].
    exists (rev q2), (rev q1), (rev p). rewrite Hpq, rev_app_distr. cbn [rev]. rewrite rev_app_distr. cbn [rev].
    rewrite <- !app_assoc. reflexivity.
Qed.
(** initialisers that are overridden or inherited, never taken from elsewhere: equal ones are adjacent *)
Definition inherited_only (ch : list string) : Prop :=
  forall a f b c, ch = a ++ f :: b ++ f :: c -> forall x, In x b -> x = f.
Lemma init_base_first : forall ch, inherited_only ch -> forall i j f g, i < j ->
  nth_error ch i = Some g -> nth_error ch j = Some f -> f <> g -> before (init_order ch) f g.
Proof.
  intros ch Hc i j f g Hij Hi Hj Hfg.
  assert (Hgin : In g ch) by (eapply nth_error_In; eauto).
  (* first occurrence of g *)
  assert (F : exists a c, ch = a ++ g :: c /\ ~ In g a).
  { clear - Hgin. induction ch as [|x ch IH]; [destruct Hgin|]. destruct (string_dec x g) as [->|Hd].
    - exists [], ch. split; [reflexivity|tauto].
    - destruct IH as [a [c [-> H]]]; [destruct Hgin; [congruence|auto]|]. exists (x :: a), c. split; [reflexivity|].
      intros [Q|Q]; [congruence|auto]. }
  destruct F as [a [c [E Hna]]].
  assert (La : List.length a <= i).
  { destruct (le_lt_dec (List.length a) i); [auto|]. exfalso. apply Hna. rewrite E, nth_error_app1 in Hi by exact l.
    eapply nth_error_In; eauto. }
  apply (@init_before ch f g a c E Hna).
  - intro Q. apply in_app_or in Q. destruct Q as [Q|[Q|[]]]; [|congruence].
    (* f occurs before g and again at j > i: g would be f *)
    apply in_split in Q. destruct Q as [a1 [a2 ->]].
    assert (Hf2 : In f c).
    { rewrite E, nth_error_app2 in Hj by lia. destruct (j - List.length (a1 ++ f :: a2)) eqn:Ej; [lia|]. cbn in Hj.
      eapply nth_error_In; eauto. }
    apply in_split in Hf2. destruct Hf2 as [c1 [c2 ->]].
    apply Hfg. symmetry. apply (Hc a1 f (a2 ++ g :: c1) c2).
    + rewrite E, <- app_assoc. cbn. f_equal. f_equal. rewrite <- app_assoc. reflexivity.
    + apply in_or_app. right. now left.
  - rewrite E, nth_error_app2 in Hj by lia. destruct (j - List.length a) eqn:Ej; [lia|]. cbn in Hj.
    eapply nth_error_In; eauto.
Qed.

(** ** C29 *)
Lemma hook_get : forall body kw k, dget (talib_hook kw body) k =
  match dget kw k with Some v => Some v | None => dget body k end.
Proof.
  unfold talib_hook. induction body as [|[a v] body IH]; intros kw k; cbn [fold_left dget fst snd].
  - destruct (dget kw k); reflexivity.
  - rewrite IH. unfold dsetdefault, dmem. destruct (dget kw a) eqn:Ea.
    + destruct (dget kw k) eqn:Ek; [reflexivity|]. destruct (String.eqb_spec a k) as [->|Hd]; [congruence|reflexivity].
    + destruct (String.eqb_spec a k) as [->|Hd].
      * rewrite dget_app, Ea. cbn. now rewrite String.eqb_refl.
      * rewrite dget_app. cbn. apply String.eqb_neq in Hd. rewrite Hd. destruct (dget kw k); reflexivity.
Qed.
Lemma hooks_get : forall (body : string -> list (string * pyval)) fs kw k, dget (fold_left (fun d f => talib_hook d (body f)) fs kw) k =
  match dget kw k with Some v => Some v | None =>
    match find (fun f => match dget (body f) k with Some _ => true | None => false end) fs with
    | Some f => dget (body f) k
    | None => None
    end end.
Proof.
  intros body. induction fs as [|f fs IH]; intros kw k; cbn [fold_left find].
  - destruct (dget kw k); reflexivity.
  - rewrite IH, hook_get. destruct (dget kw k); [reflexivity|]. destruct (dget (body f) k) eqn:E; [now rewrite E|reflexivity].
Qed.
Lemma dremove_get_other : forall (V : Type) (d : dict V) k k', k <> k' -> dget (dremove d k') k = dget d k.
Proof.
  induction d as [|[a v] d IH]; intros k k' H; cbn; [reflexivity|].
  destruct (String.eqb_spec a k') as [->|Hd].
  - destruct (String.eqb_spec k' k); [congruence|reflexivity].
  - cbn. destruct (String.eqb a k); [reflexivity|auto].
Qed.
Lemma dremove_get_same : forall (V : Type) (d : dict V) k, NoDup (dkeys d) -> dget (dremove d k) k = None.
Proof.
  induction d as [|[a v] d IH]; intros k H; cbn; [reflexivity|]. inversion H; subst.
  destruct (String.eqb_spec a k) as [->|Hd]; [now apply dget_none|]. cbn.
  destruct (String.eqb_spec a k); [contradiction|auto].
Qed.

(** functions listed from the called class upwards; the last one in the list that sets [k] is the base-most *)
Definition sets (body : string -> list (string * pyval)) (k f : string) : bool :=
  match dget (body f) k with Some _ => true | None => false end.
Lemma find_before : forall (p : string -> bool) l x, find p l = Some x ->
  exists a b, l = a ++ x :: b /\ p x = true /\ forall y, In y a -> p y = false.
Proof.
  induction l as [|y l IH]; intros x H; cbn in H; [discriminate|]. destruct (p y) eqn:E.
  - injection H as <-. exists [], l. repeat split; auto. intros z [].
  - destruct (IH x H) as [a [b [-> [H1 H2]]]]. exists (y :: a), b. repeat split; auto.
    intros z [<-|Hz]; auto.
Qed.
Lemma talib_priority : forall c chain body kwargs k, NoDup (dkeys kwargs) -> k <> "_talib" ->
  let kw := talib_kwargs c chain body kwargs in
  (forall v, dget kwargs k = Some v -> dget kw k = Some v) /\
  (talib_flag c kwargs = false -> dget kw k = dget kwargs k) /\
  (talib_flag c kwargs = true -> dget kwargs k = None ->
     (forall f, In f chain -> sets body k f = false) -> dget kw k = None) /\
  (talib_flag c kwargs = true -> dget kwargs k = None -> inherited_only chain ->
     forall i f, nth_error chain i = Some f -> sets body k f = true ->
     (forall j g, i < j -> nth_error chain j = Some g -> g <> f -> sets body k g = false) ->
     dget kw k = dget (body f) k).
Proof.
  intros c chain body kwargs k Hn Hk kw.
  assert (E0 : dget (dremove kwargs "_talib") k = dget kwargs k) by (apply dremove_get_other; exact Hk).
  assert (E : dget kw k = if talib_flag c kwargs then
     match dget kwargs k with Some v => Some v | None =>
       match find (sets body k) (init_order chain) with Some f => dget (body f) k | None => None end end
     else dget kwargs k).
  { unfold kw, talib_kwargs. destruct (talib_flag c kwargs); [|exact E0]. rewrite hooks_get, E0. reflexivity. }
  rewrite E. split; [|split; [|split]].
  - intros v Hv. rewrite Hv. destruct (talib_flag c kwargs); reflexivity.
  - intros ->. reflexivity.
  - intros -> -> Hf. destruct (find (sets body k) (init_order chain)) as [f|] eqn:F; [|reflexivity].
    apply find_some in F. destruct F as [F1 F2]. rewrite init_in in F1. rewrite (Hf f F1) in F2. discriminate.
  - intros -> -> Hinh i f Hi Hs Hb.
    destruct (find (sets body k) (init_order chain)) as [g|] eqn:F.
    + destruct (find_before _ _ F) as [a [b [Eg [Hg Hlt]]]]. destruct (string_dec g f) as [->|Hd]; [reflexivity|]. exfalso.
      assert (Hgin : In g chain) by (apply init_in; rewrite Eg; apply in_or_app; right; now left).
      apply In_nth_error in Hgin. destruct Hgin as [j Hj].
      destruct (lt_eq_lt_dec i j) as [[Hij|Hij]|Hij].
      * rewrite (Hb j g Hij Hj Hd) in Hg. discriminate.
      * subst j. congruence.
      * (* f lies above g, so it runs first *)
        assert (B := @init_base_first chain Hinh j i f g Hij Hj Hi ltac:(congruence)).
        destruct B as [x [y [z B]]].
        assert (Hnd := init_nodup chain). rewrite Eg in B, Hnd.
        assert (U : forall (x y x' y' : list string), NoDup (x ++ g :: y) -> x ++ g :: y = x' ++ g :: y' -> x = x').
        { clear. induction x as [|u x IH]; intros y x' y' N E; destruct x' as [|u' x']; cbn in E, N.
          - reflexivity.
          - injection E as -> E. inversion N; subst. exfalso. apply H1. apply in_or_app. right. now left.
          - injection E as -> E. inversion N; subst. exfalso. apply H1. apply in_or_app. right. now left.
          - injection E as -> E. f_equal. inversion N; subst. eapply IH; eauto. }
        assert (a = x ++ f :: y).
        { eapply U; [exact Hnd|]. rewrite B, <- app_assoc. reflexivity. }
        subst a. rewrite (Hlt f) in Hs; [discriminate|]. apply in_or_app. right. now left.
    + exfalso. assert (Hff : In f (init_order chain)) by (apply init_in; eapply nth_error_In; eauto).
      apply (find_none _ _ F) in Hff. congruence.
Qed.
Lemma talib_removed : forall c chain body kwargs, NoDup (dkeys kwargs) ->
  (forall f, In f chain -> dget (body f) "_talib" = None) ->
  dget (talib_kwargs c chain body kwargs) "_talib" = None.
Proof.
  intros c chain body kwargs Hn Hb. unfold talib_kwargs.
  destruct (talib_flag c kwargs); [|now apply dremove_get_same].
  rewrite hooks_get, dremove_get_same by exact Hn.
  match goal with |- match find ?p ?l with _ => _ end = _ => destruct (find p l) as [f|] eqn:F end; [|reflexivity].
  apply find_some in F. destruct F as [F1 F2]. rewrite <- in_rev, fromkeys_mem in F1. now rewrite (Hb f F1) in F2.
Qed.

(** ** C30 *)
Definition last_some {A : Type} (f : setter -> option A) (l : list setter) (d : A) : A :=
  fold_left (fun acc s => match f s with Some v => v | None => acc end) l d.
Definition set_first (s : setter) : option pyval :=
  match s with SetFirst (Some v) => Some v | SetFirst None => Some (PBool true) | _ => None end.
Definition set_ret (s : setter) : option pyval :=
  match s with SetReturn v => Some v | SetReturnDf => Some (PStr "df") | _ => None end.
Definition set_tl (s : setter) : option pyval :=
  match s with SetTalib (Some v) => Some v | SetTalib None => Some (PBool true) | _ => None end.
Definition set_idx (k : string) (s : setter) : option (option cidx) :=
  match s with SetIndices kw => match dget kw k with Some v => Some (Some v) | None => None end | _ => None end.
Lemma config_last : forall l c,
  (forall kw, In (SetIndices kw) l -> NoDup (dkeys kw)) ->
  cf_first (cf_run c l) = last_some set_first l (cf_first c) /\
  cf_retval (cf_run c l) = last_some set_ret l (cf_retval c) /\
  cf_talib (cf_run c l) = last_some set_tl l (cf_talib c) /\
  (forall k, dget (cf_indices (cf_run c l)) k = last_some (set_idx k) l (dget (cf_indices c) k)).
Proof.
  unfold cf_run, last_some. induction l as [|s l IH]; intros c Hk; cbn [fold_left]; [auto|].
  destruct (IH (cf_step c s) ltac:(intros; apply Hk; now right)) as [H1 [H2 [H3 H4]]]. rewrite H1, H2, H3.
  split; [|split; [|split]].
  - f_equal. destruct s as [[v|]|kw|v| |[v|]]; reflexivity.
  - f_equal. destruct s as [[v|]|kw|v| |[v|]]; reflexivity.
  - f_equal. destruct s as [[v|]|kw|v| |[v|]]; reflexivity.
  - intro k. rewrite H4. f_equal. destruct s as [[v|]|kw|v| |[v|]]; try reflexivity. cbn [cf_step cf_indices set_idx].
    rewrite dget_dupdate, dget_rev by (apply Hk; now left). destruct (dget kw k); reflexivity.
Qed.
Lemma last_some_split : forall (A : Type) (f : setter -> option A) l1 s l2 v d,
  f s = Some v -> (forall x, In x l2 -> f x = None) -> last_some f (l1 ++ s :: l2) d = v.
Proof.
  intros A f l1 s l2 v d Hs Hl. unfold last_some. rewrite fold_left_app. cbn [fold_left]. rewrite Hs.
  clear l1. induction l2 as [|x l2 IH]; cbn; [reflexivity|]. rewrite (Hl x) by now left. apply IH. intros. apply Hl. now right.
Qed.
Lemma last_some_none : forall (A : Type) (f : setter -> option A) l d,
  (forall x, In x l -> f x = None) -> last_some f l d = d.
Proof.
  intros A f l d Hl. unfold last_some. induction l as [|x l IH]; cbn; [reflexivity|]. rewrite (Hl x) by now left.
  apply IH. intros. apply Hl. now right.
Qed.

(** ** C26 *)
Lemma thread_fail : forall main l t retdf c k o, nth_error l k = Some (t, (retdf, c)) -> t <> main ->
  nth_error (run_threads (imported main) l) k = Some o -> o = RExc AttributeError.
Proof.
  intros main l. assert (G : forall l s t retdf c k o, (forall x, x <> main -> s x = None) ->
    nth_error l k = Some (t, (retdf, c)) -> t <> main ->
    nth_error (run_threads s l) k = Some o -> o = RExc AttributeError).
  { clear. induction l as [|[t0 [b0 c0]] l IH]; intros s t retdf c k o Hs Hk Ht Ho; [destruct k; discriminate|].
    cbn in Ho. destruct (exec_thread s t0 b0 c0) as [o0 s0] eqn:E. destruct k as [|k]; cbn in Hk, Ho.
    - injection Hk as -> -> ->. injection Ho as <-. unfold exec_thread in E. rewrite (Hs t Ht) in E. now injection E.
    - eapply (IH s0); eauto. intros x Hx. unfold exec_thread in E. destruct (s t0) as [d|] eqn:Et.
      + destruct (exec b0 0 d c0) as [[ev1 o1] d1]. injection E as <- <-.
        destruct (Nat.eqb_spec x t0) as [->|Hd]; [rewrite (Hs t0 Hx) in Et; discriminate|auto].
      + injection E as <- <-. auto. }
  intros t retdf c k o. apply G. intros x Hx. unfold imported. destruct (Nat.eqb_spec x main); [contradiction|reflexivity].
Qed.
(** the importing thread is not disturbed by the others *)
Lemma thread_main : forall main l s d, s main = Some d -> (forall x, x <> main -> s x = None) ->
  map snd (filter (fun p => fst p =? main) (combine (map fst l) (run_threads s l))) =
  map snd (fst (run d (map snd (filter (fun p => fst p =? main) l)))).
Proof.
  intros main. induction l as [|[t [b c]] l IH]; intros s d Hm Hs; cbn; [reflexivity|].
  destruct (Nat.eqb_spec t main) as [->|Hd].
  - unfold exec_thread. rewrite Hm. cbn. destruct (exec b 0 d c) as [[ev o] d'].
    cbn [filter map]. rewrite Nat.eqb_refl. cbn. destruct (run d' (map snd (filter (fun p => fst p =? main) l))) as [rs dd] eqn:E.
    cbn. f_equal. rewrite (IH (fun x => if x =? main then Some d' else s x) d').
    + rewrite E. reflexivity.
    + now rewrite Nat.eqb_refl.
    + intros x Hx. destruct (Nat.eqb_spec x main); [contradiction|auto].
  - unfold exec_thread. rewrite (Hs t Hd). cbn. destruct (Nat.eqb_spec t main); [contradiction|]. cbn. now apply IH.
Qed.

(** ** C28 *)
Lemma stoch_slots : forall l sl, snd (stochrsi_history sl l) = sl ++ repeat "d" (List.length (filter fst l)).
Proof.
  induction l as [|[t p] l IH]; intro sl; cbn; [now rewrite app_nil_r|].
  unfold stochrsi_call. destruct t; cbn [fst List.length].
  - transitivity (snd (stochrsi_history (sl ++ ["d"]) l)).
    + match goal with |- snd (let '(_, _) := ?h in _) = _ => destruct h as [rs sl2] eqn:E end.
      change (stochrsi_history (sl ++ ["d"]) l) with (stochrsi_history (app (A := string) sl ["d"]) l) in E |- *.
      replace (stochrsi_history (app (A := string) sl ["d"]) l) with (rs, sl2); reflexivity.
    + rewrite IH. now rewrite <- app_assoc.
  - rewrite <- IH. destruct (stochrsi_history sl l). reflexivity.
Qed.
Lemma stoch_state : forall l n, snd (stochrsi_history ["stochrsi"] l) = "stochrsi" :: repeat "d" n ->
  n = List.length (filter fst l).
Proof.
  intros l n H. rewrite stoch_slots in H. cbn in H. injection H as H. apply (f_equal (@List.length string)) in H.
  now rewrite !repeat_length in H.
Qed.
Lemma stoch_last : forall h talib,
  fst (stochrsi_call (snd (stochrsi_history ["stochrsi"] h)) talib false) =
  let n := List.length (filter fst h) in
  if talib then Ok ("stochrsi" :: repeat "d" (S n))
  else if n =? 0 then Ok ["stochrsi"] else Raise AttributeError.
Proof.
  intros h talib. rewrite stoch_slots. cbn zeta. set (n := List.length (filter fst h)).
  assert (D : forall m, forallb (fun s => smem s ["stochrsi"; "d"]) (repeat "d" m) = true) by (induction m; auto).
  destruct talib; unfold stochrsi_call; cbn [fst orb].
  - replace ((["stochrsi"] ++ repeat "d" n) ++ ["d"]) with ("stochrsi" :: repeat "d" (S n)).
    + cbn [forallb]. rewrite D. reflexivity.
    + cbn. f_equal. clear. induction n; [reflexivity|]. cbn. f_equal. exact IHn.
  - destruct n as [|m]; reflexivity.
Qed.

(** ** C27 *)
Lemma arg_dec : forall a b : arg, {a = b} + {a <> b}.
Proof. decide equality; try apply Nat.eq_dec. apply list_eq_dec, string_dec. Qed.
Definition HL : list string := ["high"; "low"].
Lemma hl_step : forall cfg sl args, sl = HL \/ sl = ["high"] ->
  (args = [ALine] -> snd (bind_inputs cfg 0 HL 1 sl args) = ["high"]) /\
  (args <> [ALine] -> snd (bind_inputs cfg 0 HL 1 sl args) = sl).
Proof.
  intros cfg sl args Hs. unfold bind_inputs. split.
  - intros ->. destruct Hs as [->| ->]; reflexivity.
  - intro Ha. destruct args as [|a0 [|a1 args]]; [reflexivity| |].
    + unfold from_args. cbn [List.length HL]. change (2 <=? 1) with false. cbn iota.
      destruct a0 as [cols|no ba|]; [| |congruence].
      * destruct (from_dataframe cfg 0 cols HL); reflexivity.
      * destruct (from_linesholder no ba HL); reflexivity.
    + unfold from_args. cbn [List.length HL]. change (2 <=? S (S (List.length args))) with true. cbn iota.
      match goal with |- context [make_inputs ?a ?b ?c ?d] => destruct (make_inputs a b c d) end; reflexivity.
Qed.
Lemma hl_history : forall cfg h sl, sl = HL \/ sl = ["high"] ->
  (In [ALine] h -> snd (input_history cfg HL 1 sl h) = ["high"]) /\
  (~ In [ALine] h -> snd (input_history cfg HL 1 sl h) = sl).
Proof.
  intros cfg. induction h as [|args h IH]; intros sl Hs; cbn [input_history]; [split; [intros []|auto]|].
  destruct (@hl_step cfg sl args Hs) as [S1 S2].
  destruct (bind_inputs cfg 0 HL 1 sl args) as [r sl'] eqn:E. cbn [snd] in S1, S2.
  destruct (list_eq_dec arg_dec args [ALine]) as [Ea|Ea].
  - rewrite (S1 Ea). destruct (IH ["high"] ltac:(now right)) as [I1 I2].
    destruct (input_history cfg HL 1 ["high"] h) as [rs sl''] eqn:E2. cbn [snd] in *. split.
    + intros _. destruct (in_dec (list_eq_dec arg_dec) [ALine] h); auto.
    + intro Q. exfalso. apply Q. now left.
  - rewrite (S2 Ea). destruct (IH sl Hs) as [I1 I2].
    destruct (input_history cfg HL 1 sl h) as [rs sl''] eqn:E2. cbn [snd] in *. split.
    + intros [Q|Q]; [congruence|auto].
    + intro Q. apply I2. intro. apply Q. now right.
Qed.
Lemma hl_after : forall cfg h a b x y, make_input cfg 0 a "high" = Ok x -> make_input cfg 1 b "low" = Ok y ->
  (In [ALine] h ->
   fst (bind_inputs cfg 0 HL 1 (snd (input_history cfg HL 1 HL h)) [a; b]) = Ok [("high", x)]) /\
  (~ In [ALine] h ->
   fst (bind_inputs cfg 0 HL 1 (snd (input_history cfg HL 1 HL h)) [a; b]) = Ok [("high", x); ("low", y)]).
Proof.
  intros cfg h a b x y Hx Hy. destruct (@hl_history cfg h HL ltac:(now left)) as [H1 H2].
  split; intro Hi; [rewrite (H1 Hi)|rewrite (H2 Hi)];
    unfold bind_inputs, from_args, HL; cbn [List.length]; change (2 <=? 2) with true; cbn iota;
    cbn [firstn make_inputs]; rewrite Hx; cbn [bind]; rewrite Hy; reflexivity.
Qed.

(** a check of [inherited_only] *)
Fixpoint adjacent (ch : list string) : bool :=
  match ch with
  | [] => true
  | x :: l => (negb (smem x l) || match l with y :: _ => String.eqb x y | [] => true end) && adjacent l
  end.
Lemma adjacent_ok : forall ch, adjacent ch = true -> inherited_only ch.
Proof.
  induction ch as [|x l IH]; intros H a f b c E y Hy; [destruct a; discriminate|].
  cbn [adjacent] in H. apply andb_true_iff in H. destruct H as [H1 H2]. specialize (IH H2).
  destruct a as [|a0 a]; cbn in E; [|injection E as _ E; eapply IH; eauto].
  injection E as -> E. apply orb_true_iff in H1. destruct H1 as [H1|H1].
  - exfalso. apply negb_true_iff, smem_false in H1. apply H1. rewrite E. apply in_or_app. right. now left.
  - destruct b as [|z b]; [destruct Hy|]. subst l. cbn in H1. apply String.eqb_eq in H1. subst z.
    destruct Hy as [->|Hy]; [reflexivity|]. apply (IH [] f b c eq_refl y Hy).
Qed.

(** ** When the ta-lib mode is on *)
Lemma truthy_iff : forall v, truthy v = true <-> ~ In v [PNone; PBool false; PInt 0; PStr ""; PTuple []].
Proof.
  intro v. split.
  - intros H Hi. cbn in Hi. destruct Hi as [<-|[<-|[<-|[<-|[<-|[]]]]]]; discriminate.
  - intro H. destruct v as [|b|z|s|l|a b|o]; cbn; try reflexivity.
    + exfalso. apply H. now left.
    + destruct b; [reflexivity|]. exfalso. apply H. cbn. auto.
    + destruct (Z.eqb_spec z 0) as [->|]; [|reflexivity]. exfalso. apply H. cbn. auto.
    + destruct (String.eqb_spec s "") as [->|]; [|reflexivity]. exfalso. apply H. cbn. auto.
    + destruct l; [|reflexivity]. exfalso. apply H. cbn. auto 6.
Qed.
Lemma talib_mode : forall c kwargs, talib_flag c kwargs = true <->
  (exists v, dget kwargs "_talib" = Some v /\ ~ In v [PNone; PBool false; PInt 0; PStr ""; PTuple []]) \/
  ~ In (cf_talib c) [PNone; PBool false; PInt 0; PStr ""; PTuple []].
Proof.
  intros c kwargs. unfold talib_flag, py_or. rewrite <- (truthy_iff (cf_talib c)).
  destruct (dget kwargs "_talib") as [v|] eqn:E.
  - destruct (truthy v) eqn:T.
    + split; [|auto]. intros _. left. exists v. split; [reflexivity|]. now apply truthy_iff.
    + split; [auto|]. intros [[w [Q1 Q2]]|H]; [|exact H]. injection Q1 as <-. apply truthy_iff in Q2. congruence.
  - cbn. split; [auto|]. intros [[w [Q _]]|H]; [discriminate|exact H].
Qed.
