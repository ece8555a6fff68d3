(** Property theorem C143: the parabolic stop and reverse in float64.
    Model: IndSar.v in float64; vocabulary: Spec.v, FloatSpec.v. *)
From Coq Require Import ZArith QArith Reals List Bool Lia Lra.
From Flocq Require Import Core IEEE754.BinarySingleNaN.
From Verif Require Import Num Series Line Spec LineFacts IndSar Float64 FloatSpec FloatFacts SarFloat SarFloat2.
Import ListNotations.
Local Open Scope R_scope.

(** Every value is finite, lies between the lowest low and the highest high so far, and is
    below the low of its bar, above the high of its bar, or (at a reversal) exactly a high
    or low seen so far. *)
Theorem C143_sar :
  forall (AF AX : float) (hl ll : line float) n kh kl h l,
    feeds hl n kh h -> feeds ll n kl l ->
    let k := Nat.max kh kl in
    (forall i, (k <= i < n)%nat ->
       finite (h i) /\ finite (l i) /\ val (l i) <= val (h i) /\ - bpow radix2 1000 <= val (l i) /\ val (h i) <= bpow radix2 1000) ->
    finite AF -> 0 <= val AF <= 1 -> finite AX -> 0 <= val AX <= 1 -> (k + 2 <= n)%nat ->
    exists y s, sar AF AX hl ll = Ok y /\ delivers y n (S k) s /\
      forall i, (S k <= i < n)%nat ->
        finite (s i) /\
        (forall L H, (forall j, (k <= j <= i)%nat -> L <= val (l j) /\ val (h j) <= H) -> L <= val (s i) <= H) /\
        (val (s i) < val (l i) \/ val (h i) < val (s i) \/ exists j, (k <= j <= i)%nat /\ (s i = h j \/ s i = l j)).
Proof. exact sar_float. Qed.
Print Assumptions C143_sar.

(** [sarext] with the factors of [sar], no start value and no offset, on positive prices:
    the same numbers, with a minus sign while the value is above the market. *)
Theorem C143_sarext :
  forall (AF AX : float) (hl ll : line float) n kh kl h l,
    feeds hl n kh h -> feeds ll n kl l ->
    let k := Nat.max kh kl in
    (forall i, (k <= i < n)%nat -> finite (h i) /\ finite (l i) /\ 0 < val (l i) <= val (h i) /\ val (h i) <= bpow radix2 1000) ->
    finite AF -> 0 <= val AF <= 1 -> finite AX -> 0 <= val AX <= 1 -> (k + 2 <= n)%nat ->
    exists y z s t, sar AF AX hl ll = Ok y /\ delivers y n (S k) s /\
      sarext v0 (mkSarPar AF AX AF AX v0) hl ll = Ok z /\ delivers z n (S k) t /\
      forall i, (S k <= i < n)%nat ->
        finite (t i) /\ Rabs (val (t i)) = val (s i) /\
        (val (s i) < val (l i) -> t i = s i) /\ (val (h i) < val (s i) -> val (t i) = - val (s i)).
Proof. exact sarext_float. Qed.
Print Assumptions C143_sarext.

(** a rise, a fall and a rise *)
Definition fh : list float := map vofZ [10; 12; 14; 16; 12; 10; 9; 14; 16]%Z.
Definition fl : list float := map vofZ [8; 10; 12; 14; 7; 6; 6; 10; 13]%Z.
Example C143_met :
  let h := fun i => nth i fh vnan in let l := fun i => nth i fl vnan in
  feeds (raw fh) 9 0 h /\ feeds (raw fl) 9 0 l /\
  (forall i, (0 <= i < 9)%nat ->
     finite (h i) /\ finite (l i) /\ val (l i) <= val (h i) /\ - bpow radix2 1000 <= val (l i) /\ val (h i) <= bpow radix2 1000) /\
  (let AF : float := vofQ (2 # 100) in finite AF /\ 0 <= val AF <= 1) /\
  (let AX : float := vofQ (2 # 10) in finite AX /\ 0 <= val AX <= 1).
Proof.
  intros h l. split; [exact (raw_feeds fh vnan)|]. split; [exact (raw_feeds fl vnan)|].
  assert (Z0 : finite v0) by (vm_compute; reflexivity). destruct val1 as [F1 V1].
  assert (U : forall x : float, is_finite x && vleb v0 x && vleb x (vofZ 1) = true -> finite x /\ 0 <= val x <= 1).
  { intros x H. apply andb_prop in H. destruct H as [H B]. apply andb_prop in H. destruct H as [F A]. split; [exact F|].
    apply leb_iff in A; [|exact Z0|exact F]. apply leb_iff in B; [|exact F|exact F1]. rewrite V1 in B. split; [exact A|exact B]. }
  split; [|split; [intro AF; apply U; vm_compute; reflexivity|intro AX; apply U; vm_compute; reflexivity]].
  assert (P : forall a b, (0 <= a <= b)%Z -> (b <= 16)%Z -> finite (vofZ b) /\ finite (vofZ a) /\ val (vofZ a) <= val (vofZ b) /\ - bpow radix2 1000 <= val (vofZ a) /\ val (vofZ b) <= bpow radix2 1000).
  { intros a b A B. destruct (fofZ_exact a) as [Fa Va]; [lia|]. destruct (fofZ_exact b) as [Fb Vb]; [lia|].
    pose proof (bpow_gt_0 radix2 1000). assert (16 <= bpow radix2 1000) by (change 16 with (bpow radix2 4); apply bpow_le; lia).
    assert (0 <= IZR a <= IZR b) by (split; apply IZR_le; lia). assert (IZR b <= 16) by (apply IZR_le; lia).
    rewrite Va, Vb. split; [exact Fb|]. split; [exact Fa|]. lra. }
  intros i Hi. do 9 (destruct i as [|i]; [apply P; lia|]). lia.
Qed.
(** below the market, a reversal to the highest high, above it, a reversal to the lowest low *)
Example C143_run :
  match sar (vofQ (2 # 100)) (vofQ (2 # 10)) (raw fh) (raw fl) with
  | Ok y => map (fun '(x, (h, l)) => (vltb x l, vltb h x)) (combine (tl (lser y)) (combine (tl fh) (tl fl)))
      = [(true, false); (true, false); (true, false); (false, true); (false, true); (false, true); (false, true); (true, false)]
  | Raise _ => False
  end.
Proof. vm_compute. reflexivity. Qed.
Example C143_sarext_met : forall i, (0 <= i < 9)%nat -> 0 < val (nth i fl vnan).
Proof.
  assert (P : forall a, (0 < a)%Z -> (a <= 16)%Z -> 0 < val (vofZ a)).
  { intros a A B. destruct (fofZ_exact a) as [Fa Va]; [lia|]. rewrite Va. now apply IZR_lt. }
  intros i Hi. do 9 (destruct i as [|i]; [apply P; lia|]). lia.
Qed.
Example C143_sarext_run :
  match sar (vofQ (2 # 100)) (vofQ (2 # 10)) (raw fh) (raw fl),
        sarext v0 (mkSarPar (vofQ (2 # 100)) (vofQ (2 # 10)) (vofQ (2 # 100)) (vofQ (2 # 10)) v0) (raw fh) (raw fl) with
  | Ok y, Ok z => map (fun '(a, b) => (veqb a b, veqb (vabs b) a)) (combine (tl (lser y)) (tl (lser z)))
      = [(true, true); (true, true); (true, true); (false, true); (false, true); (false, true); (false, true); (true, true)]
  | _, _ => False
  end.
Proof. vm_compute. reflexivity. Qed.
