(** Property theorem C137: the ultimate oscillator stays between 0 and 100 in double precision.
    Model: IndOsc.v and RunUlt.v (the running totals of pandas 1.0) over Float64.v; vocabulary: Spec.v, FloatSpec.v. *)
From Coq Require Import ZArith Reals List Bool Lia Lra.
From Flocq Require Import Core IEEE754.BinarySingleNaN.
From Verif Require Import Num Series Line Spec LineFacts IndMA IndRange IndOsc Running Float64 FloatSpec FloatFacts RunUlt UltFloat.
Import ListNotations.
Local Open Scope R_scope.

(** ** With exact numbers running totals are the sums of the windows *)
Theorem C137_exact :
  forall p1 p2 p3 f1 f2 f3 (h l c : line (ext R)), (1 <= p1)%nat -> (1 <= p2)%nat -> (1 <= p3)%nat ->
    ultosc_run p1 p2 p3 f1 f2 f3 h l c = ultosc p1 p2 p3 f1 f2 f3 h l c.
Proof. exact ultosc_run_exact. Qed.
Print Assumptions C137_exact.
Example C137_exact_met := C137_exact 7 14 28 (Fin 4) (Fin 2) (Fin 1) (raw [Fin 3; Fin 4]) (raw [Fin 1; Fin 2]) (raw [Fin 2; NaN]) ltac:(lia) ltac:(lia) ltac:(lia).

(** ** Windows summed afresh *)
(** for bars whose close lies between low and high every value is missing or between 0 and what the three weights add up
    to, which would be 100 without rounding *)
Theorem C137_weights :
  forall (h l c : line float) n k xh xl xc, feeds h n k xh -> feeds l n k xl -> feeds c n k xc ->
  let M := bpow radix2 899 in
  (forall i, (k <= i < n)%nat -> within (- M) M (xh i) /\ within (- M) M (xl i) /\ within (- M) M (xc i)) ->
  (forall i, (k <= i < n)%nat -> val (xl i) <= val (xc i) <= val (xh i)) ->
  forall p1 p2 p3 (f1 f2 f3 : float), (1 <= p1)%nat -> (1 <= p2)%nat -> (1 <= p3)%nat ->
    (Z.of_nat p1 <= 2 ^ 40)%Z -> (Z.of_nat p2 <= 2 ^ 40)%Z -> (Z.of_nat p3 <= 2 ^ 40)%Z ->
    let total : float := vadd (vadd f1 f2) f3 in
    let w f : float := vmul f (vdiv (vofZ 100) total) in
    let weight x := within 0 (bpow radix2 900) x in
    veqb total v0 = false -> weight (w f1) -> weight (w f2) -> weight (w f3) ->
    exists y g, ultosc p1 p2 p3 f1 f2 f3 h l c = Ok y /\ delivers y n (k + Nat.max (Nat.max p1 p2) p3) g /\
      forall i, (k + Nat.max (Nat.max p1 p2) p3 <= i < n)%nat -> nan_or_within 0 (val (vadd (vadd (w f1) (w f2)) (w f3))) (g i).
Proof. exact ultosc_in. Qed.
Print Assumptions C137_weights.
(** the default factors are among them *)
Example C137_weights_met : let w f : float := vmul f (vdiv (vofZ 100) (vadd (vadd (vofZ 4) (vofZ 2)) (vofZ 1))) in
  within 0 (bpow radix2 900) (w (vofZ 4)) /\ within 0 (bpow radix2 900) (w (vofZ 2)) /\ within 0 (bpow radix2 900) (w (vofZ 1)) /\
  veqb (vadd (vadd (vofZ 4) (vofZ 2)) (vofZ 1)) (v0 : float) = false.
Proof. exact uow_in. Qed.
(** with the default factors: at most one step above 100 *)
Theorem C137_default_partial :
  forall (h l c : line float) n k xh xl xc p1 p2 p3, feeds h n k xh -> feeds l n k xl -> feeds c n k xc ->
  let M := bpow radix2 899 in
  (forall i, (k <= i < n)%nat -> within (- M) M (xh i) /\ within (- M) M (xl i) /\ within (- M) M (xc i) /\ val (xl i) <= val (xc i) <= val (xh i)) ->
  (1 <= p1)%nat -> (1 <= p2)%nat -> (1 <= p3)%nat ->
  (Z.of_nat p1 <= 2 ^ 40)%Z -> (Z.of_nat p2 <= 2 ^ 40)%Z -> (Z.of_nat p3 <= 2 ^ 40)%Z ->
  exists y g, ultosc p1 p2 p3 (vofZ 4) (vofZ 2) (vofZ 1) h l c = Ok y /\ delivers y n (k + Nat.max (Nat.max p1 p2) p3) g /\
    forall i, (k + Nat.max (Nat.max p1 p2) p3 <= i < n)%nat -> nan_or_within 0 (100 + bpow radix2 (-46)) (g i).
Proof. exact ultosc_default. Qed.
Print Assumptions C137_default_partial.
(** the bars 1, 2, ..., 29 *)
Definition rising (n : nat) : line float := raw (map (fun i => vofZ (Z.of_nat i)) (seq 1 n)).
Example C137_default_met : exists y g, ultosc 7 14 28 (vofZ 4) (vofZ 2) (vofZ 1) (rising 29) (rising 29) (rising 29) = Ok y /\ delivers y 29 28 g /\
  nan_or_within 0 (100 + bpow radix2 (-46)) (g 28%nat).
Proof.
  pose proof (raw_feeds (map (fun i => vofZ (Z.of_nat i) : float) (seq 1 29)) v0) as F. rewrite map_length, seq_length in F.
  assert (P40 : (28 <= 2 ^ 40)%Z) by (vm_compute; discriminate).
  destruct (@C137_default_partial _ _ _ 29%nat 0%nat _ _ _ 7 14 28 F F F) as (y & g & E & D & W); try lia.
  - intros i Hi. assert (N : nth i (map (fun i => vofZ (Z.of_nat i) : float) (seq 1 29)) v0 = vofZ (Z.of_nat (S i))).
    { set (g := fun i => vofZ (Z.of_nat i) : float). change (nth i (map g (seq 1 29)) (g 0%nat) = g (S i)). rewrite map_nth, seq_nth by lia. reflexivity. }
    rewrite N. assert (P53 : (29 < 2 ^ 53)%Z) by (vm_compute; reflexivity). destruct (@fofZ_exact (Z.of_nat (S i))) as [Fi Vi]; [lia|].
    assert (B : within (- bpow radix2 899) (bpow radix2 899) (vofZ (Z.of_nat (S i)))).
    { split; [exact Fi|]. rewrite Vi. pose proof (bpow_le radix2 5 899 ltac:(lia)) as L. change (bpow radix2 5) with 32 in L.
      assert (0 <= IZR (Z.of_nat (S i)) <= 29) by (split; apply IZR_le; lia). lra. }
    repeat split; try apply B; lra.
  - exists y, g. split; [exact E|]. split; [exact D|]. apply W. cbn. lia.
Qed.
(** and that step is taken: bars that close at their high, each one higher than the bar before *)
Theorem C137_default_refuted :
  exists y v, ultosc 7 14 28 (vofZ 4) (vofZ 2) (vofZ 1) (rising 29) (rising 29) (rising 29) = Ok y /\
    nth_error (lser y) 28 = Some v /\ finite v /\ val v = 100 + bpow radix2 (-46).
Proof. exact (match ultosc_above with ex_intro _ y (conj E H) => ex_intro _ y (ex_intro _ uo_top (conj E (conj H uo_top_val))) end). Qed.
Print Assumptions C137_default_refuted.

(** ** Running totals *)
(** after four bars that moved and on prices that stand still: below -242 *)
Theorem C137_running_refuted :
  let tenths := map (fun z => vofQ (QArith_base.Qmake z 10) : float) in
  let high := tenths [32; 48; 28; 28; 23; 23; 23; 23]%Z in
  let low := tenths [10; 24; 14; 18; 23; 23; 23; 23]%Z in
  let close := tenths [14; 45; 26; 23; 23; 23; 23; 23]%Z in
  exists y v, ultosc_run 1 2 3 (vofZ 4) (vofZ 2) (vofZ 1) (raw high) (raw low) (raw close) = Ok y /\
    nth_error (lser y) 7 = Some v /\ finite v /\ val v < -242.
Proof. exact ultosc_run_below. Qed.
Print Assumptions C137_running_refuted.
