(** Property theorem C142: which side of the middle rsi and cmo show in float64.
    Model: IndOsc.v in float64; vocabulary: Spec.v, FloatSpec.v, RocSpec.v. *)
From Coq Require Import ZArith QArith Reals List Bool Lia Lra.
From Flocq Require Import Core IEEE754.BinarySingleNaN.
From Verif Require Import Num Series Line Spec LineFacts IndMA IndBasic IndOsc Float64 FloatSpec FloatFacts RocSpec RocFloat SideFloat.
Import ListNotations.
Local Open Scope R_scope.

(** ** cmo: [u] and [d] are the totals of the rises and of the falls *)
Theorem C142_cmo :
  forall (sm : ma_fun float) p (a y1 y2 y : line float) n k1 k2 u d,
    sm p (updays 1 a) = Ok y1 -> sm p (downdays 1 a) = Ok y2 -> feeds y1 n k1 u -> feeds y2 n k2 d ->
    (forall i, (Nat.max k1 k2 <= i < n)%nat ->
       finite (u i) /\ 0 <= val (u i) <= bpow radix2 1000 /\ finite (d i) /\ 0 <= val (d i) <= bpow radix2 1000 /\
       0 < val (u i) + val (d i)) ->
    cmo sm p a = Ok y ->
    exists g, delivers y n (Nat.max k1 k2) g /\
      forall i, (Nat.max k1 k2 <= i < n)%nat -> compares_as (g i) v0 (u i) (d i).
Proof. exact cmo_side. Qed.
Print Assumptions C142_cmo.

(** ** rsi: never on the wrong side of 50 (it may be exactly 50, see below) *)
Theorem C142_rsi_partial :
  forall (ma : ma_fun float) p lookback (a y1 y2 y : line float) n k1 k2 u d,
    ma p (updays lookback a) = Ok y1 -> ma p (downdays lookback a) = Ok y2 -> feeds y1 n k1 u -> feeds y2 n k2 d ->
    (forall i, (Nat.max k1 k2 <= i < n)%nat -> 
       finite (u i) /\ 0 <= val (u i) /\ finite (d i) /\ 0 <= val (d i) /\ 0 < val (u i) + val (d i)) ->
    rsi ma p lookback a = Ok y ->
    exists g, delivers y n (Nat.max k1 k2) g /\
      forall i, (Nat.max k1 k2 <= i < n)%nat ->
        finite (g i) /\ (val (d i) <= val (u i) -> 50 <= val (g i)) /\ (val (u i) <= val (d i) -> val (g i) <= 50).
Proof. exact rsi_side. Qed.
Print Assumptions C142_rsi_partial.

(** ** It can be exactly 50 although the price rose by more than it fell: up one step of
    the format more than down, over two bars *)
Definition zig : list float := [vofZ 0; hi1; vsub hi1 (vofZ 1)].
Theorem C142_rsi_refuted :
  exists y u d : line float,
    rsi sma_ 2 1 (raw zig) = Ok y /\ sma_ 2%nat (updays 1 (raw zig)) = Ok u /\ sma_ 2%nat (downdays 1 (raw zig)) = Ok d /\
    vltb (nth 2 (lser d) vnan) (nth 2 (lser u) vnan) = true /\ B2SF (nth 2 (lser y) vnan) = B2SF (vofZ 50).
Proof.
  exists (strength (ldiv (sma 2 (updays 1 (raw zig))) (sma 2 (downdays 1 (raw zig))))), (sma 2 (updays 1 (raw zig))), (sma 2 (downdays 1 (raw zig))).
  split; [reflexivity|]. split; [reflexivity|]. split; [reflexivity|]. split; vm_compute; reflexivity.
Qed.
Print Assumptions C142_rsi_refuted.

(** prices with a rise and a fall in every window of two changes *)
Definition zag : list float := [vofZ 5; vofZ 8; vofZ 6; vofZ 9; vofZ 3].
Definition ups (a : list float) i := nth i (lser (sma 2 (updays 1 (raw a)))) vnan.
Definition downs (a : list float) i := nth i (lser (sma 2 (downdays 1 (raw a)))) vnan.
Example C142_met :
  sma_ 2%nat (updays 1 (raw zag)) = Ok (sma 2 (updays 1 (raw zag))) /\
  sma_ 2%nat (downdays 1 (raw zag)) = Ok (sma 2 (downdays 1 (raw zag))) /\
  feeds (sma 2 (updays 1 (raw zag))) 5 2 (ups zag) /\ feeds (sma 2 (downdays 1 (raw zag))) 5 2 (downs zag) /\
  forall i, (Nat.max 2 2 <= i < 5)%nat ->
    finite (ups zag i) /\ 0 < val (ups zag i) <= bpow radix2 1000 /\ finite (downs zag i) /\ 0 < val (downs zag i) <= bpow radix2 1000.
Proof.
  split; [reflexivity|]. split; [reflexivity|].
  assert (W : forall (l : line float) k, lmp l = Z.of_nat (S k) -> length (lser l) = 5%nat -> feeds l 5 k (fun i => nth i (lser l) vnan)).
  { intros l k M L. split; [exact M|]. split; [exact L|]. intros i Hi. apply nth_error_nth'. lia. }
  split; [apply W; vm_compute; reflexivity|]. split; [apply W; vm_compute; reflexivity|].
  assert (P : forall x : float, is_finite x && vltb v0 x && vleb x (vofZ 9) = true -> finite x /\ 0 < val x <= bpow radix2 1000).
  { intros x H. apply andb_prop in H. destruct H as [H L2]. apply andb_prop in H. destruct H as [F L].
    destruct (fofZ_exact 9) as [F9 V9]; [vm_compute; discriminate|].
    split; [exact F|]. apply ltb_iff in L; [|reflexivity|exact F]. apply leb_iff in L2; [|exact F|exact F9].
    split; [exact L|]. rewrite V9 in L2. apply Rle_trans with (bpow radix2 4); [change (bpow radix2 4) with 16; lra|apply bpow_le; lia]. }
  intros i Hi. assert (A : is_finite (ups zag i) && vltb v0 (ups zag i) && vleb (ups zag i) (vofZ 9) = true /\
     is_finite (downs zag i) && vltb v0 (downs zag i) && vleb (downs zag i) (vofZ 9) = true).
  { destruct i as [|[|[|[|[|i]]]]]; cbn in Hi; try lia; split; vm_compute; reflexivity. }
  destruct A as [A B]. apply P in A, B. tauto.
Qed.
Example C142_run :
  let u := sma 2 (updays 1 (raw zag)) in let d := sma 2 (downdays 1 (raw zag)) in
  let y := strength (ldiv u d) in let z := ldiv (rbinop_s vmul (vofZ 100) (lsub u d)) (ladd u d) in
  rsi sma_ 2 1 (raw zag) = Ok y /\ cmo sma_ 2 (raw zag) = Ok z /\
  map (fun x => vltb (vofZ 50) x) (lser y) = [false; false; true; true; false] /\
  map (fun x => vltb v0 x) (lser z) = [false; false; true; true; false].
Proof. intros u d y z. split; [reflexivity|]. split; [reflexivity|]. split; vm_compute; reflexivity. Qed.
(** prices that only rise: the average fall is 0 and the quotient infinite *)
Example C142_rising :
  let a := [vofZ 1; vofZ 2; vofZ 4; vofZ 7] in
  B2SF (ups a 3) = B2SF (vofQ (5 # 2)) /\ B2SF (downs a 3) = B2SF (vofZ 0) /\
  map B2SF (lser (strength (ldiv (sma 2 (updays 1 (raw a))) (sma 2 (downdays 1 (raw a)))))) = map B2SF [vnan; vnan; vofZ 100; vofZ 100].
Proof. intro a. split; [vm_compute; reflexivity|]. split; vm_compute; reflexivity. Qed.
