(** Property theorem C141: momentum and rates of change show the direction of the price.
    Model: IndBasic.v in float64; vocabulary: Spec.v, FloatSpec.v, RocSpec.v. *)
From Coq Require Import ZArith QArith Reals List Bool Lia Lra.
From Flocq Require Import Core IEEE754.BinarySingleNaN.
From Verif Require Import Num Series Line Spec LineFacts IndMA IndBasic Float64 FloatSpec FloatFacts RocSpec RocFloat.
Import ListNotations.
Local Open Scope R_scope.

(** ** Momentum of any finite prices *)
Theorem C141_momentum :
  forall p (a : line float) n k f,
    feeds a n k f -> (forall i, (k <= i < n)%nat -> finite (f i)) ->
    exists g, delivers (mom p a) n (k + p) g /\
      forall i, (k + p <= i < n)%nat -> compares_as (g i) v0 (f i) (f (i - p)%nat).
Proof. exact mom_cmp. Qed.
Print Assumptions C141_momentum.

(** ** Rates of change of positive prices, however close two prices are *)
Theorem C141_rates :
  forall p (a : line float) n k f,
    (1 <= p)%nat -> feeds a n k f -> (forall i, (k <= i < n)%nat -> finite (f i) /\ 0 < val (f i)) ->
    exists r d t u,
      delivers (rocr p a) n (k + p) r /\ delivers (rocp p a) n (k + p) d /\
      delivers (roc p a) n (k + p) t /\ delivers (rocr100 p a) n (k + p) u /\
      forall i, (k + p <= i < n)%nat ->
        compares_as (r i) (vofZ 1) (f i) (f (i - p)%nat) /\ compares_as (d i) v0 (f i) (f (i - p)%nat) /\
        compares_as (t i) v0 (f i) (f (i - p)%nat) /\ compares_as (u i) (vofZ 100) (f i) (f (i - p)%nat).
Proof. exact roc_cmp. Qed.
Print Assumptions C141_rates.

(** ** apo, macd and ppo: above 0 exactly when the fast average is above the slow one *)
Theorem C141_oscillators :
  forall (ma masig : ma_fun float) pf ps psig (a y1 y2 : line float) n k1 k2 f s,
    ma pf a = Ok y1 -> ma ps a = Ok y2 -> feeds y1 n k1 f -> feeds y2 n k2 s ->
    (forall i, (Nat.max k1 k2 <= i < n)%nat -> finite (f i) /\ 0 < val (f i) /\ finite (s i) /\ 0 < val (s i)) ->
    exists d o,
      (exists y, apo ma pf ps a = Ok y /\ delivers y n (Nat.max k1 k2) d) /\
      (forall m sg h, macd ma masig pf ps psig a = Ok (m, sg, h) -> delivers m n (Nat.max k1 k2) d) /\
      (forall m sg h, ppo ma masig pf ps psig a = Ok (m, sg, h) -> delivers m n (Nat.max k1 k2) o) /\
      forall i, (Nat.max k1 k2 <= i < n)%nat ->
        compares_as (d i) v0 (f i) (s i) /\ compares_as (o i) v0 (f i) (s i).
Proof. exact osc_cmp. Qed.
Print Assumptions C141_oscillators.

(** two neighbouring doubles, a price that does not move and a fall *)
Definition steps : list float := [vofZ 1; hi1; hi1; lo1].
Example C141_met :
  let f := fun i => nth i steps vnan in
  feeds (raw steps) 4 0 f /\ (forall i, (0 <= i < 4)%nat -> finite (f i) /\ 0 < val (f i)).
Proof.
  intro f. split; [exact (raw_feeds steps vnan)|]. intros i Hi. destruct val1 as [F1 V1]. destruct hi1_val as [Fh Vh]. destruct lo1_val as [Fl Vl].
  pose proof (bpow_gt_0 radix2 (-52)). assert (bpow radix2 (-53) < 1) by (change 1 with (bpow radix2 0); apply bpow_lt; lia).
  destruct i as [|[|[|[|i]]]]; unfold f, steps; cbn [nth]; (split; [assumption|lra]) || lia.
Qed.
Example C141_run :
  map (fun x => (vltb v0 x, vltb x v0)) (lser (roc 1 (raw steps))) = [(false, false); (true, false); (false, false); (false, true)] /\
  map (fun x => (vltb (vofZ 100) x, vltb x (vofZ 100))) (lser (rocr100 1 (raw steps)))
    = [(false, false); (true, false); (false, false); (false, true)].
Proof. split; vm_compute; reflexivity. Qed.
Example C141_oscillators_met :
  let f := fun i => guard_win win_mean (win (fun i => nth i steps vnan) i 1) in
  let s := fun i => guard_win win_mean (win (fun i => nth i steps vnan) i 2) in
  sma_ 1%nat (raw steps) = Ok (sma 1 (raw steps)) /\ sma_ 2%nat (raw steps) = Ok (sma 2 (raw steps)) /\
  feeds (sma 1 (raw steps)) 4 0 f /\ feeds (sma 2 (raw steps)) 4 1 s /\
  (forall i, (Nat.max 0 1 <= i < 4)%nat -> finite (f i) /\ 0 < val (f i) /\ finite (s i) /\ 0 < val (s i)).
Proof.
  intros f s. split; [reflexivity|]. split; [reflexivity|].
  split; [exact (delivers_feeds (rolling_delivers (w := 1%nat) win_mean ltac:(lia) (raw_feeds steps vnan)))|].
  split; [exact (delivers_feeds (rolling_delivers (w := 2%nat) win_mean ltac:(lia) (raw_feeds steps vnan)))|].
  assert (P : forall x : float, is_finite x && vltb v0 x = true -> finite x /\ 0 < val x).
  { intros x H. apply andb_prop in H. destruct H as [F L]. split; [exact F|]. apply ltb_iff in L; [exact L|reflexivity|exact F]. }
  intros i Hi. assert (A : is_finite (f i) && vltb v0 (f i) = true /\ is_finite (s i) && vltb v0 (s i) = true).
  { destruct i as [|[|[|[|i]]]]; try lia; split; vm_compute; reflexivity. }
  destruct A as [A B]. apply P in A, B. tauto.
Qed.
