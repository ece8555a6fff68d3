(** Property theorem C113: rolling sums and means depend on their window only.
    Model: Running.v (the running totals of pandas 1.0); vocabulary: Spec.v, FloatSpec.v, RunSpec.v. *)
From Coq Require Import ZArith Reals List Bool Lia Lra.
From Flocq Require Import Core IEEE754.BinarySingleNaN.
From Verif Require Import Num Series Line Spec LineFacts RFacts IndMA IndOsc Float64 FloatSpec FloatFacts FloatAvg PropFloatFacts
  Running RunSpec RunFacts RunFloat RunMean.
Import ListNotations.
Local Open Scope R_scope.

(** ** With exact numbers the running totals are the totals of the windows *)
Theorem C113_exact :
  forall p (a : line (ext R)), (1 <= p)%nat -> sumn_run p a = sumn p a /\ sma_run p a = sma p a.
Proof. exact (fun p a H => conj (@sumn_run_exact p a H) (@sma_run_exact p a H)). Qed.
Print Assumptions C113_exact.
Theorem C113_exact_mfi :
  forall p (high low close volume : line (ext R)), (1 <= p)%nat ->
    mfi_run p high low close volume = mfi p high low close volume.
Proof. exact mfi_run_exact. Qed.
Print Assumptions C113_exact_mfi.
Example C113_exact_met :
  nth_error (lser (sma_run 2 (raw [Fin 2; Fin 4; Fin 8 : ext R]))) 2 = Some (Fin 6).
Proof.
  destruct (@C113_exact 2 (raw [Fin 2; Fin 4; Fin 8]) ltac:(lia)) as [_ ->].
  change (Some (vdiv (Fin (0 + 4 + 8)) (Fin 2) : ext R) = Some (Fin 6)). rewrite vdiv_fin by lra. do 2 f_equal. lra.
Qed.

(** ** In double precision they are not: what has left the window still shows *)
(** an average of ones that is 0, as long after the outlier as one likes *)
Theorem C113_mean_refuted :
  forall i, (2 <= i)%nat ->
    let s : list float := vofZ 10000000000000000 :: repeat (vofZ 1) i in
    nth_error (lser (sma_run 2 (raw s))) i = Some v0 /\
    nth_error (lser (sma 2 (raw s))) i = Some (vofZ 1).
Proof. exact (fun i H => conj (@sma_run_stuck i H) (@sma_fresh_one i H)). Qed.
Print Assumptions C113_mean_refuted.
(** a sum of zeros that is -1, and so a negative sum of numbers none of which is negative *)
Theorem C113_sum_refuted :
  forall i, (3 <= i)%nat ->
    nth_error (lser (sumn_run 2 (raw (vofZ 10000000000000000 :: vofZ 1 :: repeat v0 (i - 1))))) i
      = Some (vofZ (-1) : float).
Proof. exact sumn_run_stuck. Qed.
Print Assumptions C113_sum_refuted.
Example C113_refuted_met : (2 <= 1000)%nat /\ (3 <= 1000)%nat. Proof. lia. Qed.

(** ** How far they can drift: in proportion to the number and the size of all the values so far *)
Theorem C113_sum_drift :
  forall p (a : line float) n k f,
    (1 <= p)%nat -> feeds a n k f -> (forall i, (k <= i < n)%nat -> finite (f i)) ->
    fabs (map f (seq k (n - k))) <= bpow radix2 1000 -> INR (2 * (n - k)) * ulp1 <= / 2 ->
    exists g, delivers (sumn_run p a) n (k + p - 1) g /\
    forall i, (k + p - 1 <= i < n)%nat ->
      finite (g i) /\
      Rabs (val (g i) - fsum (win f i p)) <= gamma (2 * (i - k + 1)) * (2 * fabs (map f (seq k (i - k + 1)))).
Proof. exact sumn_run_err. Qed.
Print Assumptions C113_sum_drift.
Theorem C113_mean_drift :
  forall p (a : line float) n k f,
    (1 <= p)%nat -> feeds a n k f -> (forall i, (k <= i < n)%nat -> finite (f i)) ->
    fabs (map f (seq k (n - k))) <= bpow radix2 1000 -> INR (2 * (n - k)) * ulp1 <= / 2 ->
    exists g, delivers (sma_run p a) n (k + p - 1) g /\
    forall i, (k + p - 1 <= i < n)%nat ->
      finite (g i) /\
      Rabs (val (g i) - fsum (win f i p) / INR p)
        <= gamma (2 * (i - k + 1) + 1) * (2 * fabs (map f (seq k (i - k + 1)))) / INR p + bpow radix2 (-1075).
Proof. exact sma_run_err. Qed.
Print Assumptions C113_mean_drift.
(** ** sums and means taken afresh: in proportion to the window only *)
Theorem C113_fresh_sum :
  forall p (a : line float) n k f,
    (1 <= p)%nat -> feeds a n k f -> (forall i, (k <= i < n)%nat -> finite (f i)) ->
    (forall i, (k + p - 1 <= i < n)%nat -> fabs (win f i p) <= bpow radix2 1000) -> INR p * ulp1 <= / 2 ->
    exists g, delivers (sumn p a) n (k + p - 1) g /\
    forall i, (k + p - 1 <= i < n)%nat ->
      finite (g i) /\ Rabs (val (g i) - fsum (win f i p)) <= gamma p * fabs (win f i p).
Proof. exact sumn_err. Qed.
Print Assumptions C113_fresh_sum.
Theorem C113_fresh_mean :
  forall p (a : line float) n k f,
    (1 <= p)%nat -> feeds a n k f -> (forall i, (k <= i < n)%nat -> finite (f i)) ->
    (forall i, (k + p - 1 <= i < n)%nat -> fabs (win f i p) <= bpow radix2 1000) -> INR p * ulp1 <= / 2 ->
    exists g, delivers (sma p a) n (k + p - 1) g /\
    forall i, (k + p - 1 <= i < n)%nat ->
      finite (g i) /\
      Rabs (val (g i) - fsum (win f i p) / INR p) <= gamma (p + 1) * fabs (win f i p) / INR p + bpow radix2 (-1075).
Proof. exact sma_err. Qed.
Print Assumptions C113_fresh_mean.
Example C113_drift_met :
  let s := [vofZ 10; vofZ 12; vofZ 11] : list float in
  let f := fun i => nth i s vnan in
  feeds (raw s) 3 0 f /\ (forall i, (0 <= i < 3)%nat -> finite (f i)) /\
  fabs (map f (seq 0 (3 - 0))) <= bpow radix2 1000 /\ INR (2 * (3 - 0)) * ulp1 <= / 2 /\
  (forall i, (0 + 2 - 1 <= i < 3)%nat -> fabs (win f i 2) <= bpow radix2 1000) /\ INR 2 * ulp1 <= / 2.
Proof.
  intros s f. assert (P10 : 64 <= bpow radix2 1000) by (change 64 with (bpow radix2 6); apply bpow_le; lia).
  assert (U : ulp1 <= / 64) by (change (/ 64) with (bpow radix2 (-6)); apply bpow_le; lia). pose proof ulp1_pos as U0.
  assert (V : forall z, (0 <= z <= 12)%Z -> Rabs (val (vofZ z)) <= 12).
  { intros z Hz. destruct (fofZ_exact z) as [_ ->]; [|rewrite Rabs_right; [apply IZR_le|apply Rle_ge, IZR_le]; lia].
    assert (12 < 2 ^ 53)%Z by reflexivity. lia. }
  split; [exact (raw_feeds s vnan)|].
  split. { intros i Hi. destruct i as [|[|[|i]]]; try lia; apply fofZ_exact; vm_compute; discriminate. }
  split. { cbn [Nat.sub seq map fabs f s nth]. pose proof (V 10%Z). pose proof (V 12%Z). pose proof (V 11%Z).
    specialize (H ltac:(lia)). specialize (H0 ltac:(lia)). specialize (H1 ltac:(lia)). lra. }
  split. { change (INR (2 * (3 - 0))) with (INR 6). replace (INR 6) with 6 by (cbn; lra). lra. }
  split. { intros i Hi. destruct i as [|[|[|i]]]; try lia; unfold win; cbn [Nat.sub seq map fabs f s nth];
    pose proof (V 10%Z); pose proof (V 12%Z); pose proof (V 11%Z);
    specialize (H ltac:(lia)); specialize (H0 ltac:(lia)); specialize (H1 ltac:(lia)); lra. }
  replace (INR 2) with 2 by (cbn; lra). lra.
Qed.

(** ** Sign: the means keep it, the sums do not *)
Theorem C113_mean_nonneg : keeps_nonneg (fun p a => Ok (sma_run p a)).
Proof. exact sma_run_nonneg. Qed.
Print Assumptions C113_mean_nonneg.
Example C113_nonneg_met : every nonneg (raw [vofZ 10; vofZ 12; vofZ 11]).
Proof. repeat constructor. Qed.
(** so an rsi over these means stays in range *)
Theorem C113_rsi :
  forall p lookback (a y : line float), (1 <= p)%nat ->
    rsi (fun q b => Ok (sma_run q b)) p lookback a = Ok y -> every (nan_or_within 0 100) y.
Proof. exact (fun p lb a y H E => @rsi_in _ p lb a y sma_run_nonneg H E). Qed.
Print Assumptions C113_rsi.
Example C113_rsi_met : exists y : line float,
  rsi (fun q b => Ok (sma_run q b)) 2 1 (raw [vofZ 10; vofZ 12; vofZ 11; vofZ 10]) = Ok y.
Proof. eexists. reflexivity. Qed.
(** ** but the money flow index does not: positive prices and volumes give 133 or less than 0 *)
Theorem C107_mfi_refuted :
  (exists (s v : list float) i y,
     Forall (fun x => finite x /\ 0 < val x <= 3) s /\ Forall (fun x => finite x /\ 0 < val x <= 5) v /\
     nth_error (lser (mfi_run 2 (raw s) (raw s) (raw s) (raw v))) i = Some y /\ finite y /\ 133 < val y) /\
  (exists (s v : list float) i y,
     Forall (fun x => finite x /\ 0 < val x <= 3) s /\ Forall (fun x => finite x /\ 0 < val x <= 5) v /\
     nth_error (lser (mfi_run 2 (raw s) (raw s) (raw s) (raw v))) i = Some y /\ finite y /\ val y < 0).
Proof. exact mfi_run_out. Qed.
Print Assumptions C107_mfi_refuted.
