(** Property theorem C134: in double precision the directional indicators and cmo stay in range,
    but for one rounding step.  Model: IndRange.v, IndOsc.v over Float64.v, Running.v;
    vocabulary: Spec.v, FloatSpec.v. *)
From Coq Require Import ZArith Reals List Bool Lia Lra.
From Flocq Require Import Core IEEE754.BinarySingleNaN.
From Verif Require Import Num Series Line Spec LineFacts IndMA IndRange IndOsc Float64 FloatSpec FloatFacts FloatAvg PropFloatFacts Running RunMean
  DirFloat DirFloat2 DirFloat3 DirFloat4.
Import ListNotations.
Local Open Scope R_scope.

(** ** +DI, -DI, DX and ADX *)
(** With the default accumulation, with or without the early start: for bars whose close lies between
    low and high, +DI and -DI are both missing (no range at all) or both in 0..100+2^-46, DX is
    missing or in that range, and ADX is never negative.  100+2^-46 is the double after 100. *)
Theorem C134_directional_partial :
  forall (high low close : line float) n k lb p xh xl xc (early : bool),
    feeds high n k xh -> feeds low n k xl -> feeds close n k xc ->
    (1 <= lb)%nat -> (1 <= p)%nat -> (Z.of_nat p <= 2 ^ 40)%Z ->
    let first := if early then (k + lb + p - 1)%nat else (k + lb + p)%nat in
    (first <= n)%nat ->
    (forall i, (k <= i < n)%nat ->
       within (- bpow radix2 899) (bpow radix2 899) (xh i) /\ within (- bpow radix2 899) (bpow radix2 899) (xl i) /\
       within (- bpow radix2 899) (bpow radix2 899) (xc i)) ->
    (forall i, (k <= i < n)%nat -> val (xl i) <= val (xc i) <= val (xh i)) ->
    let bound := 100 + bpow radix2 (-46) in
    let sm := smacc p early SEED_SUM : line float -> res (line float) in
    exists pd md x pf mf f,
      plus_di sm lb high low close = Ok pd /\ minus_di sm lb high low close = Ok md /\
      di sm lb high low close = Ok (pd, md) /\ dx sm lb high low close = Ok x /\
      delivers pd n first pf /\ delivers md n first mf /\ delivers x n first f /\
      (forall i, (first <= i < n)%nat ->
         ((missing (pf i) /\ missing (mf i)) \/ (within 0 bound (pf i) /\ within 0 bound (mf i))) /\
         nan_or_within 0 bound (f i)) /\
      (forall ma w y, keeps_nonneg ma -> (1 <= w)%nat -> adx ma w sm lb high low close = Ok y -> every nonneg y).
Proof. exact di_range_float. Qed.
Print Assumptions C134_directional_partial.
Example C134_directional_met :
  let f := fun i => nth i rising vnan in
  feeds (raw rising) 17 0 f /\ (0 + 1 + 14 <= 17)%nat /\
  (forall i, (0 <= i < 17)%nat -> within (- bpow radix2 899) (bpow radix2 899) (f i)) /\
  (forall i, (0 <= i < 17)%nat -> val (f i) <= val (f i) <= val (f i)).
Proof.
  intro f. split; [exact (raw_feeds rising vnan)|]. split; [lia|]. split; [|intros; lra].
  intros i Hi. pose proof rising_usual as U. rewrite Forall_forall in U.
  destruct (U (f i)) as [F V]; [apply nth_In; cbn; lia|]. split; [exact F|].
  pose proof (bpow_le radix2 5 899 ltac:(lia)) as B. change (bpow radix2 5) with 32 in B. lra.
Qed.
(** the upper bound of ADX with its default average, when no DX is missing (a DX is missing after p bars without any
    movement): rounding errors of the smoothing add up to at most 33 w / 2^53 of it *)
Theorem C134_adx_partial :
  forall (high low close : line float) n k lb p w xh xl xc (early : bool),
    feeds high n k xh -> feeds low n k xl -> feeds close n k xc ->
    (1 <= lb)%nat -> (1 <= p)%nat -> (Z.of_nat p <= 2 ^ 40)%Z -> (1 <= w)%nat -> (Z.of_nat w <= 2 ^ 46)%Z ->
    let first := if early then (k + lb + p - 1)%nat else (k + lb + p)%nat in
    (first + w <= n)%nat ->
    (forall i, (k <= i < n)%nat ->
       within (- bpow radix2 899) (bpow radix2 899) (xh i) /\ within (- bpow radix2 899) (bpow radix2 899) (xl i) /\
       within (- bpow radix2 899) (bpow radix2 899) (xc i)) ->
    (forall i, (k <= i < n)%nat -> val (xl i) <= val (xc i) <= val (xh i)) ->
    let sm := smacc p early SEED_SUM : line float -> res (line float) in
    (forall x i v, dx sm lb high low close = Ok x -> (first <= i)%nat -> nth_error (lser x) i = Some v -> ~ missing v) ->
    exists y g, adx smma w sm lb high low close = Ok y /\ delivers y n (first + w - 1) g /\
      forall i, (first + w - 1 <= i < n)%nat -> within 0 ((100 + bpow radix2 (-46)) * (1 + 33 * INR w * bpow radix2 (-53))) (g i).
Proof. exact adx_below. Qed.
Print Assumptions C134_adx_partial.
Example C134_adx_met : (0 + 1 + 14 + 2 <= 17)%nat /\
  forall x i v, dx (smacc 14 false SEED_SUM) 1 (raw rising) (raw rising) (raw rising) = Ok x -> (0 + 1 + 14 <= i)%nat ->
    nth_error (lser x) i = Some v -> ~ missing v.
Proof. split; [lia|exact rising_dx]. Qed.
(** 100 itself is passed, with the default period and ordinary prices *)
Theorem C134_directional_refuted :
  exists (s : list float) y v,
    Forall (fun x => finite x /\ 0 < val x <= 30) s /\
    plus_di (smacc 14 false SEED_SUM) 1 (raw s) (raw s) (raw s) = Ok y /\ nth_error (lser y) 15 = Some v /\ finite v /\ 100 < val v.
Proof. exact di_out. Qed.
Print Assumptions C134_directional_refuted.

(** ** cmo, with sums (the default) and with smma (_talib) *)
Theorem C134_cmo_partial :
  forall (a : line float) n k p x,
    feeds a n k x -> (1 <= p)%nat -> (Z.of_nat p <= 2 ^ 40)%Z -> (k + 1 + p <= n)%nat ->
    (forall i, (k <= i < n)%nat -> within (- bpow radix2 899) (bpow radix2 899) (x i)) ->
    let bound := 100 + bpow radix2 (-46) in
    forall sm, sm = sumn_ \/ sm = smma ->
    exists y f, cmo sm p a = Ok y /\ delivers y n (k + p) f /\
      forall i, (k + p <= i < n)%nat -> nan_or_within (- bound) bound (f i).
Proof. exact cmo_range_float. Qed.
Print Assumptions C134_cmo_partial.
Example C134_cmo_met : exists y f, cmo smma 14 (raw rising) = Ok y /\ delivers y 17 14 f /\
  forall i, (14 <= i < 17)%nat -> nan_or_within (- (100 + bpow radix2 (-46))) (100 + bpow radix2 (-46)) (f i).
Proof.
  destruct C134_directional_met as (F & _ & W & _).
  exact (@C134_cmo_partial (raw rising) 17 0 14 _ F ltac:(lia) ltac:(lia) ltac:(lia) W smma (or_intror eq_refl)).
Qed.
(** 100 itself is passed *)
Theorem C134_cmo_refuted :
  exists (s : list float) y v,
    Forall (fun x => finite x /\ 0 < val x <= 6) s /\
    cmo sumn_ 2 (raw s) = Ok y /\ nth_error (lser y) 2 = Some v /\ finite v /\ 100 < val v.
Proof. exact cmo_out. Qed.
Print Assumptions C134_cmo_refuted.
(** and with the running totals of pandas 1.0 cmo reaches 300 and -300 on prices of at most 3 *)
Theorem C134_running_refuted :
  let sums : ma_fun float := fun p a => Ok (sumn_run p a) in
  (exists (s : list float) y v, Forall (fun x => finite x /\ 0 < val x <= 3) s /\
     cmo sums 2 (raw s) = Ok y /\ nth_error (lser y) 6 = Some v /\ finite v /\ val v = 300) /\
  (exists (s : list float) y v, Forall (fun x => finite x /\ 0 < val x <= 3) s /\
     cmo sums 3 (raw s) = Ok y /\ nth_error (lser y) 7 = Some v /\ finite v /\ val v = -300).
Proof. exact cmo_run_out. Qed.
Print Assumptions C134_running_refuted.
