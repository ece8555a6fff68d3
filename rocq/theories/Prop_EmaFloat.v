(** Property theorems C114 and C115: exponential averages in float64.
    Models: IndMA.v instantiated with Float64.v; vocabulary: RSpec.v ([is_ema], [is_smma]), EwmaFacts.v ([is_ewm]),
    FloatSpec.v, RunSpec.v ([ulp1] is 2^-53).  [sized M x]: [x] is finite and at most [M] in size. *)
From Coq Require Import ZArith Reals List Bool Lia Lra.
From Flocq Require Import Core IEEE754.BinarySingleNaN.
From Verif Require Import Num Series Line Spec RSpec LineFacts IndMA EwmaFacts Float64 FloatSpec FloatFacts RunSpec RunFloat EmaFloat EmaFloatAdj.
Import ListNotations.
Local Open Scope R_scope.

(** ** C114: the rounding errors do not add up over the bars: the bound does not mention the bar *)
Theorem C114_ema :
  forall M p (a : line float) n k f e,
    bpow radix2 (-1000) <= M <= bpow radix2 900 -> (1 <= p)%nat -> (Z.of_nat p <= 2 ^ 46)%Z ->
    feeds a n k f -> (forall i, (k <= i < n)%nat -> sized M (f i)) -> (k + p <= n)%nat ->
    is_ema p k (fun i => val (f i)) e ->
    exists y g, ema p a = Ok y /\ delivers y n (k + p - 1) g /\
    forall i, (k + p - 1 <= i < n)%nat -> finite (g i) /\ Rabs (val (g i) - e i) <= 17 * (INR p + 1) * ulp1 * M.
Proof. exact (fun M p a n k f e HM Hp Hp46 Ha Hf => @ema_close M p HM Hp Hp46 a n k f Ha Hf e). Qed.
Print Assumptions C114_ema.
Theorem C114_smma :
  forall M p (a : line float) n k f e,
    bpow radix2 (-1000) <= M <= bpow radix2 900 -> (1 <= p)%nat -> (Z.of_nat p <= 2 ^ 46)%Z ->
    feeds a n k f -> (forall i, (k <= i < n)%nat -> sized M (f i)) -> (k + p <= n)%nat ->
    is_smma p k (fun i => val (f i)) e ->
    exists y g, smma p a = Ok y /\ delivers y n (k + p - 1) g /\
    forall i, (k + p - 1 <= i < n)%nat -> finite (g i) /\ Rabs (val (g i) - e i) <= 33 * INR p * ulp1 * M.
Proof. exact (fun M p a n k f e HM Hp Hp46 Ha Hf => @smma_close M p HM Hp Hp46 a n k f Ha Hf e). Qed.
Print Assumptions C114_smma.
Theorem C114_ewma :
  forall M p (a : line float) n k f e,
    bpow radix2 (-1000) <= M <= bpow radix2 900 -> (1 <= p)%nat -> (Z.of_nat p <= 2 ^ 46)%Z ->
    feeds a n k f -> (forall i, (k <= i < n)%nat -> sized M (f i)) ->
    is_ewm p k (fun i => val (f i)) e ->
    lmp (ewma p false a) = Z.of_nat (k + p) /\ length (lser (ewma p false a)) = n /\
    forall i, (k <= i < n)%nat -> exists v, nth_error (lser (ewma p false a)) i = Some v /\
      finite v /\ Rabs (val v - e i) <= 17 * (INR p + 1) * ulp1 * M.
Proof. exact (fun M p a n k f e HM Hp Hp46 Ha Hf => @ewma_close M p HM Hp Hp46 a n k f Ha Hf e). Qed.
Print Assumptions C114_ewma.
(** with adjusted weights: the mean of all values so far, the weights falling with the age *)
Theorem C114_ewma_adjusted :
  forall M p (a : line float) n k f e,
    bpow radix2 (-1000) <= M <= bpow radix2 900 -> (1 <= p)%nat -> (Z.of_nat p <= 2 ^ 46)%Z ->
    feeds a n k f -> (forall i, (k <= i < n)%nat -> sized M (f i)) ->
    is_weighted_history p k (fun i => val (f i)) e ->
    lmp (ewma p true a) = Z.of_nat (k + p) /\ length (lser (ewma p true a)) = n /\
    forall i, (k <= i < n)%nat -> exists v, nth_error (lser (ewma p true a)) i = Some v /\
      finite v /\ Rabs (val v - e i) <= 45 * (INR p + 1) * ulp1 * M.
Proof. exact ewma_adj_close. Qed.
Print Assumptions C114_ewma_adjusted.
Example C114_met :
  let s := [vofZ 10; vofZ 12; vofZ 11] : list float in
  let f := fun i => nth i s vnan in
  bpow radix2 (-1000) <= 12 <= bpow radix2 900 /\ (Z.of_nat 2 <= 2 ^ 46)%Z /\
  feeds (raw s) 3 0 f /\ (forall i, (0 <= i < 3)%nat -> sized 12 (f i)) /\
  (exists e, is_ema 2 0 (fun i => val (f i)) e) /\ (exists e, is_ewm 2 0 (fun i => val (f i)) e) /\
  (exists e, is_weighted_history 2 0 (fun i => val (f i)) e).
Proof.
  intros s f. split.
  { split; [apply Rle_trans with 1; [change 1 with (bpow radix2 0); apply bpow_le; lia|lra]|].
    apply Rle_trans with 16; [lra|]. change 16 with (bpow radix2 4). apply bpow_le. lia. }
  split; [vm_compute; discriminate|]. split; [exact (raw_feeds s vnan)|].
  split.
  { assert (V : forall z, (0 <= z <= 12)%Z -> sized 12 (vofZ z)).
    { intros z Hz. destruct (fofZ_exact z) as [F E]; [assert (12 < 2 ^ 53)%Z by reflexivity; lia|].
      split; [exact F|]. rewrite E, Rabs_right; [apply IZR_le|apply Rle_ge, IZR_le]; lia. }
    intros i Hi. destruct i as [|[|[|i]]]; try lia; apply V; lia. }
  set (x := fun i => val (f i)). split; [|split; [|eexists; intros i Hi; reflexivity]].
  - exists (fix e i := match i with O => Rmean (lastp x (0 + 2 - 1) 2) | S O => Rmean (lastp x (0 + 2 - 1) 2)
                  | S (S _ as i') => (1 - 2 / (INR 2 + 1)) * e i' + 2 / (INR 2 + 1) * x i end).
    split; [reflexivity|]. intros i Hi. destruct i as [|i]; [lia|]. reflexivity.
  - exists (fix e i := match i with O => x O | S i' => (1 - 2 / (INR 2 + 1)) * e i' + 2 / (INR 2 + 1) * x i end).
    split; [reflexivity|]. intros i Hi. destruct i; reflexivity.
Qed.

(** ** C115: an average of equal prices *)
(** ewma gives exactly that price *)
Theorem C115_ewma_constant :
  forall p adjust (a : line float) n k f c,
    (1 <= p)%nat -> feeds a n k f -> finite c -> (forall i, (k <= i < n)%nat -> f i = c) ->
    forall i, (k <= i < n)%nat -> nth_error (lser (ewma p adjust a)) i = Some c.
Proof. exact ewma_const_exact. Qed.
Print Assumptions C115_ewma_constant.
Example C115_met : feeds (raw (repeat (vofZ 3 : float) 5)) 5 0 (fun _ => vofZ 3) /\ finite (vofZ 3).
Proof. split; [apply raw_const|reflexivity]. Qed.
(** ema does not: for a price of 0.11 it lies above the price at every bar, for ever, because it starts from a rounded
    mean and one step of the recursion rounds back to the same number *)
Theorem C115_ema_refuted :
  forall n, (5 <= n)%nat ->
    let c : float := vofQ (QArith_base.Qmake 11 100) in
    exists y g, ema 5%nat (raw (repeat c n)) = Ok y /\ delivers y n 4 g /\
    forall i, (4 <= i < n)%nat -> finite (g i) /\ val c < val (g i).
Proof. exact ema_const_off. Qed.
Print Assumptions C115_ema_refuted.
Example C115_refuted_met : (5 <= 100)%nat. Proof. lia. Qed.
(** but it stays close *)
Theorem C115_ema_close :
  forall M p (a : line float) n k c,
    bpow radix2 (-1000) <= M <= bpow radix2 900 -> (1 <= p)%nat -> (Z.of_nat p <= 2 ^ 46)%Z ->
    feeds a n k (fun _ => c) -> sized M c -> (k + p <= n)%nat ->
    exists y g, ema p a = Ok y /\ delivers y n (k + p - 1) g /\
    forall i, (k + p - 1 <= i < n)%nat -> finite (g i) /\ Rabs (val (g i) - val c) <= 17 * (INR p + 1) * ulp1 * M.
Proof. exact ema_const_close. Qed.
Print Assumptions C115_ema_close.
