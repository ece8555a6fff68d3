(** Averages keep the range of their inputs, missing values included. *)
From Coq Require Import ZArith List Bool Lia Arith Reals Lra Psatz.
From Verif Require Import Num Series Line Spec RSpec BoundSpec LineFacts ScanFacts RFacts OpFacts IndMA MAFacts
  RLineFacts IndBasic BasicFacts.
Import ListNotations.
Set Implicit Arguments.
Local Open Scope R_scope.

Lemma num_in_fin lo hi r : num_in lo hi (Fin r) <-> lo <= r <= hi.
Proof.
  split.
  - intros [H|(r' & H & ?)]; [discriminate|]. now injection H as ->.
  - intro H. right. eauto.
Qed.
Lemma num_in_nan lo hi : num_in lo hi NaN.
Proof. now left. Qed.
Lemma num_in_prep lo hi v : num_in lo hi v -> prep v = v.
Proof. intros [->|(r & -> & _)]; reflexivity. Qed.

(** a list of such values: its usable part *)
Lemma num_in_notnan lo hi l :
  (forall v, In v l -> num_in lo hi v) ->
  exists m, notnan l = map Fin m /\ forall r, In r m -> lo <= r <= hi.
Proof.
  induction l as [|v l IH]; intro H.
  - exists []. split; [reflexivity|]. intros r [].
  - destruct IH as (m & Hm & Hb); [intros; apply H; now right|].
    destruct (H v (or_introl eq_refl)) as [->|(r & -> & Hr)].
    + exists m. split; [exact Hm|exact Hb].
    + exists (r :: m). split.
      * change (notnan (Fin r :: l)) with (Fin r :: notnan l). now rewrite Hm.
      * intros s [<-|Hs]; auto.
Qed.

Lemma ser_mean_num lo hi l :
  (forall v, In v l -> num_in lo hi v) -> num_in lo hi (ser_mean l).
Proof.
  intro H. destruct (@num_in_notnan lo hi l H) as (m & Hm & Hb). destruct m as [|r m].
  - left. unfold ser_mean. now rewrite Hm.
  - right. exists (Rmean (r :: m)).
    assert (E : ser_mean l = ser_mean (map Fin (r :: m))).
    { unfold ser_mean. rewrite notnan_fin, Hm. reflexivity. }
    rewrite E, ser_mean_fin by discriminate. split; [reflexivity|].
    apply Rmean_bounds; [discriminate|exact Hb].
Qed.

Lemma guard_mean_num lo hi l :
  l <> [] -> (forall v, In v l -> num_in lo hi v) -> num_in lo hi (guard_win win_mean l).
Proof.
  intros Hl H. unfold guard_win. destruct (existsb visnan (map prep l)) eqn:E; [now left|].
  assert (exists m, map prep l = map Fin m /\ forall r, In r m -> lo <= r <= hi) as (m & Hm & Hb).
  { clear Hl. induction l as [|v l IH]; [exists []; split; [reflexivity|intros r []]|].
    simpl in E. apply orb_false_iff in E. destruct E as [E1 E2].
    destruct (IH (fun v Hv => H v (or_intror Hv)) E2) as (m & Hm & Hb).
    destruct (H v (or_introl eq_refl)) as [->|(r & -> & Hr)]; [discriminate|].
    exists (r :: m). split; [simpl; now rewrite Hm|]. intros s [<-|Hs]; auto. }
  rewrite Hm. destruct m as [|r m].
  - destruct l; [contradiction|discriminate].
  - rewrite win_mean_fin by discriminate. apply num_in_fin. apply Rmean_bounds; [discriminate|exact Hb].
Qed.

Lemma in_win_range {A} (f : nat -> A) k n i w v :
  (k + w <= S i)%nat -> (i < n)%nat -> In v (win f i w) -> exists j, (k <= j < n)%nat /\ v = f j.
Proof. intros H1 H2 H. apply in_win in H. destruct H as (j & Hj & ->). exists j. split; [lia|reflexivity]. Qed.

Lemma keeps_sma : keeps_range sma_.
Proof.
  intros p a n k f lo hi Ha Hp Hn H. exists (sma p a). split; [reflexivity|].
  exists (fun i => guard_win win_mean (win f i p)). split; [now apply rolling_delivers|].
  intros i Hi. apply guard_mean_num; [now apply win_nonnil|].
  intros v Hv. destruct (@in_win_range _ f k n i p v ltac:(lia) ltac:(lia) Hv) as (j & Hj & ->). auto.
Qed.

(** the state of the exponential mean *)
Definition est_ok (lo hi : R) (st : ext R * ext R) : Prop :=
  num_in lo hi (fst st) /\ exists o, snd st = Fin o /\ 0 <= o.

Lemma ewma_step_num lo hi al st cur :
  0 < al <= 1 -> est_ok lo hi st -> num_in lo hi cur ->
  est_ok lo hi (fst (ewma_step (Fin al) false st cur)) /\
  num_in lo hi (snd (ewma_step (Fin al) false st cur)).
Proof.
  intros Hal [Hw (o & Ho & Hpos)] Hc. destruct st as [wa ow]. simpl in Hw, Ho. subst ow.
  unfold ewma_step. destruct Hw as [->|(w & -> & Hw)].
  - simpl (visnan NaN). cbv iota. destruct Hc as [->|(c & -> & Hc)]; simpl.
    + split; [split; [now left|now exists o]|now left].
    + split; [split; [apply num_in_fin; assumption|now exists o]|apply num_in_fin; assumption].
  - rewrite visnan_fin. destruct Hc as [->|(c & -> & Hc)].
    + simpl (visnan NaN). cbv iota. rewrite v1_fin, vsub_fin, vmul_fin. simpl.
      split; [split; [apply num_in_fin; assumption|]|apply num_in_fin; assumption]. exists (o * (1 - al)). split; [reflexivity|nra].
    + rewrite visnan_fin, v1_fin, vsub_fin, vmul_fin, veqb_fin. simpl.
      destruct (beqb_spec w c) as [->|Hne].
      * split; [split; [apply num_in_fin; assumption|exists 1; split; [reflexivity|lra]]|apply num_in_fin; assumption].
      * assert (0 <= o * (1 - al)) by nra.
        assert (D : 0 < o * (1 - al) + al) by lra.
        rewrite ?vmul_fin, ?vadd_fin.
        assert (B : lo <= (o * (1 - al) * w + al * c) / (o * (1 - al) + al) <= hi).
        { split; [apply Rmult_le_reg_r with (o * (1 - al) + al)|apply Rmult_le_reg_r with (o * (1 - al) + al)];
            auto; unfold Rdiv; rewrite Rmult_assoc, Rinv_l, Rmult_1_r by lra; nra. }
        assert (E : ediv (eadd (Fin (o * (1 - al) * w)) (Fin (al * c))) (Fin (o * (1 - al) + al)) =
                    Fin ((o * (1 - al) * w + al * c) / (o * (1 - al) + al))).
        { change ediv with (@vdiv (ext R) _). change eadd with (@vadd (ext R) _). rewrite vadd_fin. apply vdiv_fin. lra. }
        split; [split; [|exists 1; split; [reflexivity|lra]]|]; simpl; right; eexists; (split; [|exact B]).
        -- exact E.
        -- exact E.
Qed.

Lemma ewma_st_num lo hi al wa f j d :
  0 < al <= 1 -> num_in lo hi wa ->
  (forall i, (j < i < S j + d)%nat -> num_in lo hi (f i)) ->
  est_ok lo hi (scan_st (ewma_step (Fin al) false) (fun i => prep (f i)) (S j) (wa, v1) d).
Proof.
  intros Hal Hw. induction d as [|d IH]; intro H; simpl.
  - split; [exact Hw|]. exists 1. split; [reflexivity|lra].
  - apply ewma_step_num; auto.
    + apply IH. intros. apply H. lia.
    + assert (Hf := H (S (j + d)) ltac:(lia)). now rewrite (num_in_prep Hf).
Qed.

Lemma ewma_val_num lo hi al wa f j d :
  0 < al <= 1 -> num_in lo hi wa ->
  (forall i, (j < i <= j + d)%nat -> num_in lo hi (f i)) ->
  num_in lo hi (ewma_val (Fin al) false wa f j d).
Proof.
  intros Hal Hw H. destruct d as [|d]; [exact Hw|]. unfold ewma_val.
  apply ewma_step_num; auto.
  - apply ewma_st_num; auto. intros. apply H. lia.
  - assert (Hf := H (j + S d)%nat ltac:(lia)). now rewrite (num_in_prep Hf).
Qed.

Lemma al_span p : (1 <= p)%nat -> 0 < 2 / (INR p + 1) <= 1.
Proof.
  intro Hp. assert (1 <= INR p) by (apply (le_INR 1); lia). split.
  - apply Rdiv_lt_0_compat; lra.
  - apply Rmult_le_reg_r with (INR p + 1); [lra|]. unfold Rdiv. rewrite Rmult_assoc, Rinv_l; lra.
Qed.
Lemma al_com p : (1 <= p)%nat -> 0 < 1 / INR p <= 1.
Proof.
  intro Hp. assert (1 <= INR p) by (apply (le_INR 1); lia). split.
  - apply Rdiv_lt_0_compat; lra.
  - apply Rmult_le_reg_r with (INR p); [lra|]. unfold Rdiv. rewrite Rmult_assoc, Rinv_l; lra.
Qed.

Lemma keeps_ewm lo hi al f n k p :
  0 < al <= 1 -> (1 <= p)%nat -> (k + p <= n)%nat ->
  (forall i, (k <= i < n)%nat -> num_in lo hi (f i)) ->
  forall i, (k + p - 1 <= i < n)%nat ->
    num_in lo hi (ewma_val (Fin al) false (prep (ser_mean (win f (k + p - 1) p))) f (k + p - 1)
                    (i - (k + p - 1))).
Proof.
  intros Hal Hp Hn H i Hi. apply ewma_val_num; auto.
  - assert (M : num_in lo hi (ser_mean (win f (k + p - 1) p))).
    { apply ser_mean_num. intros v Hv.
      destruct (@in_win_range _ f k n (k + p - 1) p v ltac:(lia) ltac:(lia) Hv) as (j & Hj & ->). auto. }
    now rewrite (num_in_prep M).
  - intros j Hj. apply H. lia.
Qed.

Lemma keeps_ema : keeps_range ema.
Proof.
  intros p a n k f lo hi Ha Hp Hn H.
  destruct (@ewm_span_delivers _ _ a n k f p Ha Hp Hn) as (y & E & D).
  exists y. split; [exact E|]. eexists. split; [exact D|]. rewrite alpha_span_fin by lia.
  apply keeps_ewm; auto. now apply al_span.
Qed.
Lemma keeps_smma : keeps_range smma.
Proof.
  intros p a n k f lo hi Ha Hp Hn H.
  destruct (@ewm_com_delivers _ _ a n k f p Ha Hp Hn) as (y & E & D).
  exists y. split; [exact E|]. eexists. split; [exact D|]. rewrite alpha_com_fin by lia.
  apply keeps_ewm; auto. now apply al_com.
Qed.
