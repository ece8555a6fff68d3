(** Lemmas used to close the theorems of Prop_Lines.v. *)
From Coq Require Import ZArith List Bool Lia Arith Reals Lra.
From Verif Require Import Num Series Line Spec RSpec LineFacts ScanFacts RFacts Expr
  CausalFacts WarmFacts OpFacts.
Import ListNotations.
Set Implicit Arguments.

(** every line with a positive minimum period feeds its own values *)
Lemma every_line_feeds {V} (N : Num V) (l : line V) :
  (1 <= lmp l)%Z ->
  feeds l (length (lser l)) (Z.to_nat (lmp l - 1)) (fun i => nth i (lser l) vnan).
Proof.
  intro H. repeat split; [lia|]. intros i Hi. apply nth_error_nth'. lia.
Qed.

Lemma raw_fin_feeds (l : list R) :
  feeds (raw (map Fin l)) (length l) 0 (fin (fun i => nth i l 0%R)).
Proof.
  repeat split; cbn [raw lser]; [now rewrite map_length|].
  intros i Hi. unfold fin. rewrite nth_error_map.
  rewrite (nth_error_nth' l 0%R) by lia. reflexivity.
Qed.

Section G.
  Context {V : Type} {N : Num V}.

  Lemma existsb_nan_usable (l : list V) :
    (forall v, In v l -> usable v) -> existsb visnan (map prep l) = false /\ map prep l = l.
  Proof.
    induction l as [|x l IH]; intro H; auto.
    destruct IH as [I1 I2]; [intros v Hv; apply H; now right|].
    destruct (H x (or_introl eq_refl)) as [H1 H2].
    cbn [map existsb]. rewrite I2 in *. unfold prep. rewrite H2, H1, I1. auto.
  Qed.

  Lemma existsb_nan_unusable (l : list V) v :
    visnan (vnan : V) = true -> In v l -> ~ usable v -> existsb visnan (map prep l) = true.
  Proof.
    intros Hn Hv Hu. apply existsb_exists. exists (prep v). split; [now apply in_map|].
    unfold prep. destruct (visinf v) eqn:Ei; auto.
    destruct (visnan v) eqn:En; auto. exfalso. apply Hu. split; auto.
  Qed.

  Lemma rolling_full w G (a : line V) n k f h :
    visnan (vnan : V) = true ->
    1 <= w -> feeds a n k f ->
    (forall i, k + w - 1 <= i < n -> (forall v, In v (win f i w) -> usable v) -> h i = G (win f i w)) ->
    (forall i, k + w - 1 <= i < n -> (exists v, In v (win f i w) /\ ~ usable v) -> h i = vnan) ->
    delivers (rolling w G a) n (k + w - 1) h.
  Proof.
    intros Hnn Hw Ha H1 H2. eapply delivers_ext; [|apply rolling_delivers; eauto].
    intros i Hi. cbv beta. unfold guard_win.
    assert (Hdec : (forall v, In v (win f i w) -> usable v) \/ (exists v, In v (win f i w) /\ ~ usable v)).
    { generalize (win f i w) as l. induction l as [|x l IH]; [left; intros v []|].
      assert (Hx : usable x \/ ~ usable x).
      { unfold usable. destruct (visnan x), (visinf x); auto; right; intros [? ?]; discriminate. }
      destruct Hx as [Hx|Hx].
      - destruct IH as [IH|[v [Hv Hu]]].
        + left. intros v [<-|Hv]; auto.
        + right. exists v. split; auto. now right.
      - right. exists x. split; auto. now left. }
    destruct Hdec as [Hd|Hd].
    - rewrite H1 by auto. destruct (existsb_nan_usable _ Hd) as [E1 E2]. now rewrite E1, E2.
    - rewrite H2 by auto. destruct Hd as (v & Hv & Hu).
      now erewrite existsb_nan_unusable by eauto.
  Qed.

  Lemma no_repaint (env env' : list (line V)) n n' e l :
    n <= n' ->
    Forall2 (fun x x' => (1 <= lmp x)%Z /\ length (lser x) = n /\ length (lser x') = n' /\
                         extends x x') env env' ->
    eval env e = Ok l -> exists l', eval env' e = Ok l' /\ extends l l'.
  Proof.
    intros Hn HE He.
    destruct (@eval_extends V N n n' Hn env env') as [H _].
    - clear -HE. induction HE as [|x y xs ys (A & B & C & D & E)]; constructor; auto.
      repeat split; auto.
    - destruct (H _ _ He) as (l' & H1 & (A & B & C & D & E)). exists l'. split; auto. split; auto.
  Qed.

  Lemma minperiod_exact (env : list (line V)) n (mps : nat -> Z) e l :
    nan_laws N ->
    (forall v x, nth_error env v = Some x ->
       lmp x = mps v /\ (1 <= lmp x)%Z /\ length (lser x) = n) ->
    eval env e = Ok l ->
    lmp l = look mps e /\ length (lser l) = n /\
    (proper e = true -> forall i, (Z.of_nat i < lmp l - 1)%Z -> i < n ->
        nth_error (lser l) i = Some vnan).
  Proof.
    intros HN Henv He.
    destruct (eval_warm HN env mps Henv) as [H _].
    destruct (H _ _ He) as (A & B & C & D). rewrite A. auto.
  Qed.

  Lemma unseeded_ewm_early (x : V) s p adj :
    lmp (ewm_mean (S p) adj (raw (x :: s))) = Z.of_nat (S p) /\
    nth_error (lser (ewm_mean (S p) adj (raw (x :: s)))) 0 = Some (prep x).
  Proof.
    unfold ewm_mean, raw. cbn [lmp lser]. rewrite clone_pos by lia. split; [cbn [lmp]; lia|].
    cbn [lser]. change (1 - 1)%Z with (Z.of_nat 0). rewrite slice_from_nat.
    unfold nans. rewrite set_from_nat by lia. reflexivity.
  Qed.

  Lemma reuse_values w G H (a : line V) n k f :
    1 <= w -> feeds a n k f ->
    let o := mf_plain a (Some (Z.of_nat w)) in
    let c1 := mf_call o (fun t => Ok (ser_rolling w G t)) in
    let c2 := mf_call (fst c1) (fun t => Ok (ser_rolling w H t)) in
    snd c1 = Ok (rolling w G a) /\
    exists l2, snd c2 = Ok l2 /\ lser l2 = lser (rolling w H a) /\
               lmp l2 = (lmp (rolling w H a) + (Z.of_nat w - 1))%Z.
  Proof.
    intros Hw Ha. cbv zeta. split; [apply mf_first|]. eexists. split; [eapply mf_second; eauto|].
    split; auto. cbn [lmp]. pose proof (rolling_delivers H Hw Ha) as [(E & _) _]. rewrite E. lia.
  Qed.

  Lemma positional w G (a : line V) n k f p :
    2 <= w -> feeds a n k f ->
    stdop_p ser_diff a (Some p) None = Raise TypeError /\
    stdop_p ser_shift a (Some p) None = Raise TypeError /\
    stdop_p ser_diff a None (Some p) = Ok (diff a p) /\
    exists l, snd (mf_call (mf_plain a None) (fun t => Ok (ser_rolling w G t))) = Ok l /\
              lser l = lser (rolling w G a) /\ lmp l = lmp a /\
              lmp (rolling w G a) = (lmp a + (Z.of_nat w - 1))%Z.
  Proof.
    intros Hw Ha. repeat (split; [reflexivity|]).
    eexists. split; [eapply mf_positional; eauto; lia|]. split; auto.
    rewrite (feeds_mp Ha). split; auto.
    destruct (@rolling_delivers V N w G a n k f ltac:(lia) Ha) as [(E & _) _]. rewrite E. lia.
  Qed.
End G.
