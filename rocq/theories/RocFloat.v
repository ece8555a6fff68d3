(** Momentum and rates of change have the direction of the price in float64. *)
From Coq Require Import ZArith QArith Reals List Bool Lia Lra.
From Flocq Require Import Core IEEE754.BinarySingleNaN.
From Verif Require Import Num Series Line Spec LineFacts IndMA IndBasic OpFacts Float64 FloatSpec FloatFacts FlatFloat WholeFloat RocSpec.
Import ListNotations.
Set Implicit Arguments.
Local Open Scope R_scope.

Lemma sf_val (x : float) m ex : B2SF x = SpecFloat.S754_finite false m ex -> finite x /\ val x = IZR (Zpos m) * bpow radix2 ex.
Proof.
  intro F. split; [unfold finite; rewrite <- is_finite_SF_B2SF, F; reflexivity|].
  unfold val. rewrite <- SF2R_B2SF, F. reflexivity.
Qed.
(** the neighbours of 1 *)
Definition hi1 : float := vofQ (4503599627370497 # 4503599627370496).
Definition lo1 : float := vofQ (9007199254740991 # 9007199254740992).
Lemma hi1_val : finite hi1 /\ val hi1 = 1 + bpow radix2 (-52).
Proof.
  assert (S : B2SF hi1 = SpecFloat.S754_finite false 4503599627370497 (-52)) by (vm_compute; reflexivity).
  apply sf_val in S. destruct S as [F V]. split; [exact F|]. rewrite V.
  replace 4503599627370497%Z with (2 ^ 52 + 1)%Z by reflexivity. rewrite plus_IZR.
  change (IZR (2 ^ 52)) with (bpow radix2 52). rewrite Rmult_plus_distr_r, <- bpow_plus, Rmult_1_l. reflexivity.
Qed.
Lemma lo1_val : finite lo1 /\ val lo1 = 1 - bpow radix2 (-53).
Proof.
  assert (S : B2SF lo1 = SpecFloat.S754_finite false 9007199254740991 (-53)) by (vm_compute; reflexivity).
  apply sf_val in S. destruct S as [F V]. split; [exact F|]. rewrite V.
  replace 9007199254740991%Z with (2 ^ 53 - 1)%Z by reflexivity. rewrite minus_IZR.
  change (IZR (2 ^ 53)) with (bpow radix2 53). rewrite Rmult_minus_distr_r, <- bpow_plus, Rmult_1_l. reflexivity.
Qed.
Lemma fmt1 : generic_format radix2 fexp64 1.
Proof. destruct val1 as [_ <-]. apply fmt_val. Qed.
Lemma succ1 : succ radix2 fexp64 1 = val hi1.
Proof.
  destruct hi1_val as [_ ->]. rewrite succ_eq_pos by lra. change 1 with (bpow radix2 0) at 2. rewrite ulp_bpow. reflexivity.
Qed.
Lemma pred1 : pred radix2 fexp64 1 = val lo1.
Proof.
  destruct lo1_val as [_ ->]. change 1 with (bpow radix2 0) at 1. rewrite pred_bpow. reflexivity.
Qed.
Lemma rn_above z : 1 + bpow radix2 (-53) < z -> val hi1 <= rn z.
Proof.
  intro H. pose proof valid64. apply round_N_ge_midp; [exact valid64|apply fmt_val|]. rewrite <- succ1, pred_succ by (exact valid64 || exact fmt1).
  rewrite succ1. destruct hi1_val as [_ ->]. assert (E : bpow radix2 (-52) = 2 * bpow radix2 (-53)).
  { change 2 with (bpow radix2 1). rewrite <- bpow_plus. reflexivity. }
  rewrite E. lra.
Qed.
Lemma rn_below z : z < 1 - bpow radix2 (-54) -> rn z <= val lo1.
Proof.
  intro H. pose proof valid64. apply round_N_le_midp; [exact valid64|apply fmt_val|]. rewrite <- pred1, succ_pred by (exact valid64 || exact fmt1).
  rewrite pred1. destruct lo1_val as [_ ->]. assert (E : bpow radix2 (-53) = 2 * bpow radix2 (-54)).
  { change 2 with (bpow radix2 1). rewrite <- bpow_plus. reflexivity. }
  rewrite E. lra.
Qed.
(** two different doubles differ by more than 2^-53 of the smaller one *)
Lemma apart (x y : float) : 0 < val x < val y -> val x * (1 + bpow radix2 (-53)) < val y.
Proof.
  intros [P L]. pose proof valid64. pose proof (@succ_le_lt radix2 fexp64 valid64 (val x) (val y) (fmt_val x) (fmt_val y) L) as S.
  rewrite succ_eq_pos in S by lra. pose proof (@ulp_FLT_gt radix2 emin prec ltac:(reflexivity) (val x)) as G. rewrite Rabs_right in G by lra.
  change (ulp radix2 (FLT_exp emin prec) (val x)) with (ulp radix2 fexp64 (val x)) in G. change (- prec)%Z with (-53)%Z in G. lra.
Qed.

Lemma pos_sign (x : float) : finite x -> 0 < val x -> Bsign x = false.
Proof.
  intros F P. destruct x as [s|s| |s m ee H]; try discriminate F; [cbn in P; lra|]. destruct s; [exfalso|reflexivity].
  assert (X : F2R (Float radix2 (Zneg m) ee) < 0) by (apply F2R_lt_0; reflexivity).
  change (val (B754_finite true m ee H)) with (F2R (Float radix2 (Zneg m) ee)) in P. lra.
Qed.
Lemma ratio_up x y : finite x -> finite y -> 0 < val y < val x ->
  vdiv x y = B754_infinity false \/ finite (vdiv x y) /\ val hi1 <= val (vdiv x y).
Proof.
  intros Fx Fy L. assert (NZ : val y <> 0) by lra. pose proof (Bdiv_correct prec emax _ _ mode_NE x y NZ) as C. cbv zeta in C.
  fold (val x) (val y) in C. change (round radix2 fexp64 (round_mode mode_NE)) with rn in C. change (Bdiv mode_NE x y) with (vdiv x y) in C.
  assert (Q : 1 + bpow radix2 (-53) < val x / val y).
  { apply Rmult_lt_reg_r with (val y); [lra|]. unfold Rdiv. rewrite Rmult_assoc, Rinv_l, Rmult_1_r by lra. rewrite Rmult_comm. now apply apart. }
  destruct (Rlt_bool_spec (Rabs (rn (val x / val y))) (bpow radix2 emax)) as [B|B].
  - right. destruct C as (E & F & _). rewrite Fx in F. split; [exact F|]. change (val (vdiv x y)) with (B2R (vdiv x y)). rewrite E. now apply rn_above.
  - left. apply overflow_inf in C. rewrite C. f_equal.
    assert (Sx : Bsign x = false) by (apply pos_sign; [exact Fx|lra]). assert (Sy : Bsign y = false) by (apply pos_sign; [exact Fy|lra]).
    rewrite Sx, Sy. reflexivity.
Qed.
Lemma ratio_down x y : finite x -> finite y -> 0 < val x < val y ->
  finite (vdiv x y) /\ 0 <= val (vdiv x y) <= val lo1.
Proof.
  intros Fx Fy L. destruct val1 as [_ V1].
  assert (P : 0 <= val x / val y) by (apply Rmult_le_pos; [lra|apply Rlt_le, Rinv_0_lt_compat; lra]).
  pose proof (@apart x y L) as A.
  assert (B54 : bpow radix2 (-53) = 2 * bpow radix2 (-54)) by (change 2 with (bpow radix2 1); rewrite <- bpow_plus; reflexivity).
  pose proof (bpow_gt_0 radix2 (-54)) as B0. assert (B1 : bpow radix2 (-54) < / 4) by (change (/ 4) with (bpow radix2 (-2)); apply bpow_lt; lia).
  assert (Q : val x / val y < 1 - bpow radix2 (-54)).
  { apply Rmult_lt_reg_r with (val y); [lra|]. unfold Rdiv. rewrite Rmult_assoc, Rinv_l, Rmult_1_r by lra. rewrite B54 in A.
    set (b := bpow radix2 (-54)) in *. apply Rlt_trans with ((1 - b) * (val x * (1 + 2 * b))); [|apply Rmult_lt_compat_l; lra].
    assert (0 < b * (1 - 2 * b)) by (apply Rmult_lt_0_compat; lra).
    replace ((1 - b) * (val x * (1 + 2 * b))) with (val x + val x * (b * (1 - 2 * b))) by ring.
    assert (0 < val x * (b * (1 - 2 * b))) by (apply Rmult_lt_0_compat; lra). lra. }
  destruct (@div_in v0 (vofZ 1) x y) as (E & F & _); [exact Fx|lra|rewrite V1; change (val v0) with 0; lra|].
  split; [exact F|]. rewrite E. split; [now apply rn_nonneg|now apply rn_below].
Qed.
Lemma ratio_same x y : finite x -> finite y -> 0 < val x -> val x = val y -> vdiv x y = v1.
Proof.
  intros Fx Fy P E. assert (x = y) as <-; [|apply div_self; auto; lra].
  destruct x as [| | |sx mx ex Hx]; try discriminate Fx; try (cbn in P; lra).
  destruct y as [| | |sy my ey Hy]; try discriminate Fy; try (rewrite E in P; cbn in P; lra).
  apply (B2R_inj _ _ _ _); [reflexivity|reflexivity|exact E].
Qed.

Lemma cmp_up (r m x y : float) : finite x -> finite y -> val y < val x -> (vltb m r = true /\ vltb r m = false /\ veqb r m = false) -> compares_as r m x y.
Proof.
  intros Fx Fy L (A & B & C). unfold compares_as. rewrite A, B, C. symmetry in A. repeat split; symmetry.
  - now apply ltb_iff.
  - destruct (vltb x y) eqn:E; [apply ltb_iff in E; auto; lra|reflexivity].
  - destruct (veqb x y) eqn:E; [apply eqb_iff in E; auto; lra|reflexivity].
Qed.
Lemma cmp_fin (r m x y : float) : finite x -> finite y -> finite r -> finite m ->
  (val y < val x -> val m < val r) -> (val x < val y -> val r < val m) -> (val x = val y -> val r = val m) -> compares_as r m x y.
Proof.
  intros Fx Fy Fr Fm A B C. assert (I : forall b (P : Prop), (b = true <-> P) -> forall c (Q : Prop), (c = true <-> Q) -> (P <-> Q) -> b = c).
  { intros b P HP c Q HQ PQ. destruct b, c; auto; exfalso; intuition congruence. }
  destruct (Rtotal_order (val x) (val y)) as [T|[T|T]]; repeat split;
    (eapply I; [first [apply ltb_iff|apply eqb_iff]; assumption|first [apply ltb_iff|apply eqb_iff]; assumption|]);
    first [specialize (A T)|specialize (B T)|specialize (C T)]; split; intro; lra.
Qed.
Lemma inf_above (m : float) : finite m -> vltb m (B754_infinity false) = true /\ vltb (B754_infinity false) m = false /\ veqb (B754_infinity false) m = false.
Proof. intro F. destruct m as [[]|[]| |[]]; try discriminate F; repeat split; reflexivity. Qed.

Lemma fin1 : finite (vofZ 1) . Proof. exact (proj1 val1). Qed.
Lemma ratio_cmp x y : finite x -> finite y -> 0 < val x -> 0 < val y -> compares_as (vdiv x y) (vofZ 1) x y.
Proof.
  intros Fx Fy Px Py. destruct val1 as [F1 V1]. destruct hi1_val as [_ Hh]. destruct lo1_val as [_ Hl].
  pose proof (bpow_gt_0 radix2 (-52)). pose proof (bpow_gt_0 radix2 (-53)).
  destruct (Rtotal_order (val x) (val y)) as [T|[T|T]].
  - destruct (ratio_down Fx Fy (conj Px T)) as (F & _ & B). apply cmp_fin; auto; rewrite V1; lra.
  - rewrite (ratio_same Fx Fy Px T). apply cmp_fin; auto; intros; change (val (vofZ 1)) with (val v1); lra.
  - destruct (ratio_up Fx Fy (conj Py T)) as [->|[F B]]; [apply cmp_up; auto; now apply inf_above|].
    apply cmp_fin; auto; rewrite V1; lra.
Qed.
Lemma less_cmp r x y : compares_as r (vofZ 1) x y -> r = B754_infinity false \/ finite r -> compares_as (vsub r (vofZ 1)) v0 x y.
Proof.
  intros (A & B & C) [->|F].
  - rewrite <- ?A, <- ?B, <- ?C. unfold compares_as. rewrite <- A, <- B, <- C. vm_compute. auto.
  - destruct (sub_sign F fin1) as (X & Y & Z). unfold compares_as. rewrite X, Y, Z. auto.
Qed.
Lemma ratio_kind x y : finite x -> finite y -> 0 < val x -> 0 < val y -> vdiv x y = B754_infinity false \/ finite (vdiv x y).
Proof.
  intros Fx Fy Px Py. destruct (Rtotal_order (val x) (val y)) as [T|[T|T]].
  - right. exact (proj1 (ratio_down Fx Fy (conj Px T))).
  - right. rewrite (ratio_same Fx Fy Px T). exact fin1.
  - destruct (ratio_up Fx Fy (conj Py T)) as [->|[F _]]; auto.
Qed.
Lemma less_kind r : r = B754_infinity false \/ finite r /\ 0 <= val r -> vsub r (vofZ 1) = B754_infinity false \/ finite (vsub r (vofZ 1)).
Proof.
  intros [->|[F P]]; [left; reflexivity|]. destruct val1 as [F1 V1]. right.
  pose proof (Rle_or_lt (val r) 1) as [L|L].
  - destruct (@sub_in (opp (vofZ 1)) (vofZ 1) r (vofZ 1) F F1) as (_ & X & _); [rewrite val_opp, V1; lra|exact X].
  - destruct (@sub_in v0 r r (vofZ 1) F F1) as (_ & X & _); [change (val v0) with 0; rewrite V1; lra|exact X].
Qed.
Lemma ratio_nonneg x y : finite x -> finite y -> 0 < val x -> 0 < val y -> vdiv x y = B754_infinity false \/ finite (vdiv x y) /\ 0 <= val (vdiv x y).
Proof.
  intros Fx Fy Px Py. destruct val1 as [F1 V1]. destruct (Rtotal_order (val x) (val y)) as [T|[T|T]].
  - right. destruct (ratio_down Fx Fy (conj Px T)) as (F & B & _). auto.
  - right. rewrite (ratio_same Fx Fy Px T). change (val v1) with (val (vofZ 1)). rewrite V1. split; [exact F1|lra].
  - destruct (ratio_up Fx Fy (conj Py T)) as [->|[F B]]; auto. right. split; [exact F|]. destruct hi1_val as [_ Hh]. pose proof (bpow_gt_0 radix2 (-52)). lra.
Qed.
(** a hundred times a number *)
Lemma times100 (d : float) : finite d ->
  (vmul (vofZ 100) d = B754_infinity (Bsign d) /\ val d <> 0) \/ finite (vmul (vofZ 100) d) /\ val (vmul (vofZ 100) d) = rn (100 * val d).
Proof.
  intro F. destruct val100 as [F1 V1]. pose proof (Bmult_correct prec emax _ _ mode_NE (vofZ 100) d) as C. cbv zeta in C.
  fold (val d) in C. change (B2R (vofZ 100 : float)) with (val (vofZ 100)) in C. rewrite V1 in C.
  change (round radix2 fexp64 (round_mode mode_NE)) with rn in C. change (Bmult mode_NE (vofZ 100) d) with (vmul (vofZ 100) d) in C.
  destruct (Rlt_bool_spec (Rabs (rn (100 * val d))) (bpow radix2 emax)) as [B|B].
  - right. destruct C as (E & X & _). split; [|exact E]. unfold finite in *. rewrite X, F. reflexivity.
  - left. apply overflow_inf in C. split; [rewrite C; f_equal; destruct (Bsign d); reflexivity|].
    intro Z. rewrite Z, Rmult_0_r, rn_0, Rabs_R0 in B. pose proof (bpow_gt_0 radix2 emax). lra.
Qed.
Lemma rn_val (d : float) : rn (val d) = val d.
Proof. apply round_generic; [apply valid_rnd_N|apply fmt_val]. Qed.
Lemma pct_cmp d x y : finite x -> finite y -> compares_as d v0 x y -> d = B754_infinity false \/ finite d -> compares_as (vmul (vofZ 100) d) v0 x y.
Proof.
  intros Fx Fy (A & B & C) [->|F].
  - unfold compares_as. rewrite <- A, <- B, <- C. vm_compute. auto.
  - assert (F0 : finite v0) by reflexivity. assert (V0 : val v0 = 0) by reflexivity.
    assert (Dp : val y < val x <-> 0 < val d) by (rewrite <- V0, <- (ltb_iff F0 F), A; symmetry; now apply ltb_iff).
    assert (Dn : val x < val y <-> val d < 0) by (rewrite <- V0, <- (ltb_iff F F0), B; symmetry; now apply ltb_iff).
    destruct (times100 F) as [[E Z]|[Fm Vm]].
    + destruct (Rtotal_order (val d) 0) as [T|[T|T]]; [|contradiction|].
      * assert (S : Bsign d = true).
        { pose proof (@pos_sign (opp d)) as P. rewrite val_opp in P. unfold opp in P. rewrite Bsign_Bopp in P by (destruct d; try discriminate F; reflexivity).
          unfold finite in P. rewrite is_finite_Bopp in P. specialize (P F ltac:(lra)). now destruct (Bsign d). }
        rewrite E, S. unfold compares_as. rewrite <- A, <- B, <- C.
        assert (vltb v0 d = false) as -> by (destruct (vltb v0 d) eqn:Q; [apply ltb_iff in Q; auto; lra|reflexivity]).
        assert (vltb d v0 = true) as -> by (apply ltb_iff; auto; lra).
        assert (veqb d v0 = false) as -> by (destruct (veqb d v0) eqn:Q; [apply eqb_iff in Q; auto; lra|reflexivity]).
        vm_compute. auto.
      * rewrite E, (pos_sign F T). apply cmp_up; [exact Fx|exact Fy|now apply Dp|vm_compute; auto].
    + apply cmp_fin; auto; rewrite Vm, V0; intro H.
      * apply Dp in H. apply Rlt_le_trans with (val d); [exact H|]. rewrite <- (rn_val d) at 1. apply rn_le. lra.
      * apply Dn in H. apply Rle_lt_trans with (val d); [|exact H]. rewrite <- (rn_val d) at 2. apply rn_le. lra.
      * assert (val d = 0) as -> by (destruct (Rtotal_order (val d) 0) as [T|[T|T]]; auto; [apply Dn in T|apply Dp in T]; lra).
        rewrite Rmult_0_r. apply rn_0.
Qed.
Lemma ratio100_cmp x y : finite x -> finite y -> 0 < val x -> 0 < val y -> compares_as (vmul (vofZ 100) (vdiv x y)) (vofZ 100) x y.
Proof.
  intros Fx Fy Px Py. destruct val100 as [F1 V1]. destruct hi1_val as [Fh Hh]. destruct lo1_val as [Fl Hl].
  pose proof (bpow_gt_0 radix2 (-52)) as B52.
  destruct (Rtotal_order (val x) (val y)) as [T|[T|T]].
  - destruct (ratio_down Fx Fy (conj Px T)) as (F & B0 & B).
    assert (K : vltb (vmul (vofZ 100) lo1) (vofZ 100) = true) by (vm_compute; reflexivity).
    assert (Fk : finite (vmul (vofZ 100) lo1)) by (vm_compute; reflexivity).
    destruct (times100 Fl) as [[E _]|[_ Vk]]; [rewrite E in Fk; discriminate Fk|].
    apply ltb_iff in K; auto.
    destruct (@mul_in v0 (vofZ 100) (vofZ 100) (vdiv x y) F1 F) as (V & Fm & _).
    { change (val v0) with 0. rewrite V1. pose proof (bpow_gt_0 radix2 (-53)). split; [apply Rmult_le_pos; lra|]. nra. }
    apply cmp_fin; auto; try (intro; lra). intros _. eapply Rle_lt_trans; [|exact K]. rewrite V, Vk, V1. apply rn_le. lra.
  - rewrite (ratio_same Fx Fy Px T). rewrite mul_1 by exact F1. apply cmp_fin; auto; intro; lra.
  - destruct (ratio_up Fx Fy (conj Py T)) as [->|[F B]]; [apply cmp_up; auto; vm_compute; auto|].
    assert (K : vltb (vofZ 100) (vmul (vofZ 100) hi1) = true) by (vm_compute; reflexivity).
    assert (Fk : finite (vmul (vofZ 100) hi1)) by (vm_compute; reflexivity).
    destruct (times100 Fh) as [[E _]|[_ Vk]]; [rewrite E in Fk; discriminate Fk|]. apply ltb_iff in K; auto.
    destruct (times100 F) as [[E _]|[Fm Vm]].
    + rewrite E, (pos_sign F) by lra. apply cmp_up; [exact Fx|exact Fy|exact T|now apply inf_above].
    + apply cmp_fin; auto; try (intro; lra). intros _. eapply Rlt_le_trans; [exact K|]. rewrite Vm, Vk. apply rn_le. lra.
Qed.

(** ** lines *)
Lemma mom_cmp p (a : line float) n k f : feeds a n k f -> (forall i, (k <= i < n)%nat -> finite (f i)) ->
  exists g, delivers (mom p a) n (k + p) g /\ forall i, (k + p <= i < n)%nat -> compares_as (g i) v0 (f i) (f (i - p)%nat).
Proof.
  intros Ha Hf. eexists. split; [apply diff_delivers; [exact nan_sub|exact Ha]|]. intros i Hi. cbv beta.
  destruct (@sub_sign (f i) (f (i - p)%nat)) as (A & B & C); [apply Hf; lia|apply Hf; lia|]. repeat split; auto.
Qed.
Lemma roc_cmp p (a : line float) n k f : (1 <= p)%nat -> feeds a n k f -> (forall i, (k <= i < n)%nat -> finite (f i) /\ 0 < val (f i)) ->
  exists r d t u, delivers (rocr p a) n (k + p) r /\ delivers (rocp p a) n (k + p) d /\
    delivers (roc p a) n (k + p) t /\ delivers (rocr100 p a) n (k + p) u /\
    forall i, (k + p <= i < n)%nat ->
      compares_as (r i) (vofZ 1) (f i) (f (i - p)%nat) /\ compares_as (d i) v0 (f i) (f (i - p)%nat) /\
      compares_as (t i) v0 (f i) (f (i - p)%nat) /\ compares_as (u i) (vofZ 100) (f i) (f (i - p)%nat).
Proof.
  intros Hp Ha Hf. pose proof (binop_delivers vdiv Ha (delivers_feeds (at_ago_delivers Ha Hp))) as D.
  replace (Nat.max k (k + p)) with (k + p)%nat in D by lia. change (binop vdiv a (at_ago a (- Z.of_nat p))) with (rocbase p a) in D.
  pose proof (binop_s_delivers vsub (vofZ 1) (delivers_feeds D)) as D1.
  eexists _, _, _, _. split; [exact D|]. split; [exact D1|].
  split; [exact (rbinop_s_delivers vmul (vofZ 100) (delivers_feeds D1))|].
  split; [exact (rbinop_s_delivers vmul (vofZ 100) (delivers_feeds D))|].
  intros i Hi. cbv beta. destruct (Hf i ltac:(lia)) as [Fx Px]. destruct (Hf (i - p)%nat ltac:(lia)) as [Fy Py].
  pose proof (ratio_cmp Fx Fy Px Py) as R. pose proof (ratio_kind Fx Fy Px Py) as K. pose proof (less_cmp R K) as L.
  split; [exact R|]. split; [exact L|]. split; [|now apply ratio100_cmp].
  apply pct_cmp; auto. apply less_kind. now apply ratio_nonneg.
Qed.
Lemma osc_cmp (ma masig : ma_fun float) pf ps psig (a y1 y2 : line float) n k1 k2 f s :
  ma pf a = Ok y1 -> ma ps a = Ok y2 -> feeds y1 n k1 f -> feeds y2 n k2 s ->
  (forall i, (Nat.max k1 k2 <= i < n)%nat -> finite (f i) /\ 0 < val (f i) /\ finite (s i) /\ 0 < val (s i)) ->
  exists d o, (exists y, apo ma pf ps a = Ok y /\ delivers y n (Nat.max k1 k2) d) /\
    (forall m sg h, macd ma masig pf ps psig a = Ok (m, sg, h) -> delivers m n (Nat.max k1 k2) d) /\
    (forall m sg h, ppo ma masig pf ps psig a = Ok (m, sg, h) -> delivers m n (Nat.max k1 k2) o) /\
    forall i, (Nat.max k1 k2 <= i < n)%nat -> compares_as (d i) v0 (f i) (s i) /\ compares_as (o i) v0 (f i) (s i).
Proof.
  intros E1 E2 H1 H2 Hf. pose proof (binop_delivers vsub H1 H2) as D. pose proof (binop_delivers vdiv H1 H2) as Q.
  pose proof (rbinop_s_delivers vmul (vofZ 100) (delivers_feeds (binop_s_delivers vsub (vofZ 1) (delivers_feeds Q)))) as P.
  eexists _, _. split; [exists (lsub y1 y2); split; [unfold apo, posc; rewrite E1, E2; reflexivity|exact D]|].
  split.
  { intros m sg h E. unfold macd, macd_from in E. rewrite E1, E2 in E. cbn [bind] in E. destruct (masig psig (lsub y1 y2)); [|discriminate E].
    cbn [bind] in E. apply ok_eq in E. assert (m = lsub y1 y2) as -> by congruence. exact D. }
  split.
  { intros m sg h E. unfold ppo, ppo_from, posc in E. rewrite E1, E2 in E. cbn [bind fst snd] in E.
    match type of E with (bind (masig psig ?o) _ = _) => destruct (masig psig o); [|discriminate E]; cbn [bind] in E; apply ok_eq in E; assert (m = o) as -> by congruence end.
    exact P. }
  intros i Hi. cbv beta. destruct (Hf i Hi) as (Fx & Px & Fy & Py). split.
  - destruct (sub_sign Fx Fy) as (A & B & C). repeat split; auto.
  - apply pct_cmp; auto; [apply less_cmp; [now apply ratio_cmp|now apply ratio_kind]|apply less_kind; now apply ratio_nonneg].
Qed.
