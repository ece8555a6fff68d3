(** Which side of the middle rsi and cmo show in float64. *)
From Coq Require Import ZArith QArith Reals List Bool Lia Lra.
From Flocq Require Import Core IEEE754.BinarySingleNaN.
From Verif Require Import Num Series Line Spec LineFacts IndMA IndBasic IndOsc OpFacts Float64 FloatSpec FloatFacts PropFloatFacts FlatFloat RunSpec RunFloat WholeFloat
  RocSpec RocFloat.
Import ListNotations.
Set Implicit Arguments.
Local Open Scope R_scope.

(** 100 - 100 / (1 + rs) *)
Definition str (rs : float) : float := vsub (vofZ 100) (vdiv (vofZ 100) (vadd v1 rs)).
Lemma c50 : finite (vofZ 50) /\ val (vofZ 50) = 50. Proof. apply fofZ_exact. vm_compute. discriminate. Qed.
Lemma c2 : finite (vofZ 2) /\ val (vofZ 2) = 2. Proof. apply fofZ_exact. vm_compute. discriminate. Qed.
Lemma str_inf : finite (str (B754_infinity false)) /\ 50 <= val (str (B754_infinity false)).
Proof.
  assert (F : finite (str (B754_infinity false))) by (vm_compute; reflexivity). split; [exact F|].
  assert (B : vleb (vofZ 50) (str (B754_infinity false)) = true) by (vm_compute; reflexivity).
  destruct c50 as [F5 V5]. apply leb_iff in B; auto. now rewrite V5 in B.
Qed.
Lemma add1 (rs : float) : finite rs -> 0 <= val rs -> vadd v1 rs = B754_infinity false \/ finite (vadd v1 rs) /\ val (vadd v1 rs) = rn (1 + val rs).
Proof.
  intros F P. destruct val1 as [F1 V1]. pose proof (Bplus_correct prec emax _ _ mode_NE v1 rs F1 F) as C.
  fold (val rs) in C. change (B2R (v1 : float)) with (val (vofZ 1)) in C. rewrite V1 in C.
  change (round radix2 fexp64 (round_mode mode_NE)) with rn in C. change (Bplus mode_NE v1 rs) with (vadd v1 rs) in C.
  destruct (Rlt_bool_spec (Rabs (rn (1 + val rs))) (bpow radix2 emax)) as [B|B].
  - right. destruct C as (E & X & _). auto.
  - left. destruct C as (C & _). apply overflow_inf in C. rewrite C. reflexivity.
Qed.
Lemma str_inf' (rs : float) : vadd v1 rs = B754_infinity false -> finite (str rs) /\ 50 <= val (str rs).
Proof. intro E. unfold str. rewrite E. exact str_inf. Qed.
Lemma str_up (rs : float) : finite rs -> 1 <= val rs -> finite (str rs) /\ 50 <= val (str rs).
Proof.
  intros F P. destruct (@add1 rs F ltac:(lra)) as [E|[Fs Vs]]; [now apply str_inf'|].
  destruct val100 as [F1 V1]. destruct c50 as [F5 V5]. destruct c2 as [F2 V2].
  assert (S2 : 2 <= val (vadd v1 rs)) by (rewrite Vs, <- V2, <- (rn_val (vofZ 2)), V2; apply rn_le; lra).
  set (s := vadd v1 rs) in *. unfold str. fold s.
  assert (Q : 0 <= 100 / val s <= 50).
  { split; [apply Rmult_le_pos; [lra|apply Rlt_le, Rinv_0_lt_compat; lra]|]. apply Rmult_le_reg_r with (val s); [lra|]. unfold Rdiv. rewrite Rmult_assoc, Rinv_l by lra. lra. }
  destruct (@div_in v0 (vofZ 50) (vofZ 100) s F1) as (_ & Fq & Bq); [lra|rewrite V1, V5; exact Q|].
  change (val v0) with 0 in Bq. rewrite V5 in Bq.
  destruct (@sub_in (vofZ 50) (vofZ 100) (vofZ 100) (vdiv (vofZ 100) s) F1 Fq) as (_ & Ft & Bt); [rewrite V1, V5; lra|].
  rewrite V5 in Bt. split; [exact Ft|lra].
Qed.
Lemma str_down (rs : float) : finite rs -> 0 <= val rs <= 1 -> finite (str rs) /\ val (str rs) <= 50.
Proof.
  intros F P. destruct val100 as [F1 V1]. destruct c50 as [F5 V5]. destruct c2 as [F2 V2]. destruct val1 as [Fo Vo].
  destruct (@add_in (vofZ 1) (vofZ 2) v1 rs Fo F) as (_ & Fs & Bs); [change (val v1) with (val (vofZ 1)); rewrite Vo, V2; lra|].
  rewrite Vo, V2 in Bs. set (s := vadd v1 rs) in *. unfold str. fold s.
  assert (Q : 50 <= 100 / val s <= 100).
  { split; apply Rmult_le_reg_r with (val s); try lra; unfold Rdiv; rewrite Rmult_assoc, Rinv_l by lra; lra. }
  destruct (@div_in (vofZ 50) (vofZ 100) (vofZ 100) s F1) as (_ & Fq & Bq); [lra|rewrite V1, V5; exact Q|].
  rewrite V5, V1 in Bq.
  destruct (@sub_in v0 (vofZ 50) (vofZ 100) (vdiv (vofZ 100) s) F1 Fq) as (_ & Ft & Bt); [change (val v0) with 0; rewrite V1, V5; lra|].
  rewrite V5 in Bt. split; [exact Ft|lra].
Qed.
Lemma side_rsi (u v : float) : finite u -> finite v -> 0 <= val u -> 0 < val v ->
  finite (str (vdiv u v)) /\ (val v <= val u -> 50 <= val (str (vdiv u v))) /\ (val u <= val v -> val (str (vdiv u v)) <= 50).
Proof.
  intros Fu Fv Pu Pv. destruct val1 as [Fo Vo].
  destruct (Rle_or_lt (val u) (val v)) as [L|L].
  - assert (Q : 0 <= val u / val v <= 1).
    { split; [apply Rmult_le_pos; [lra|apply Rlt_le, Rinv_0_lt_compat; lra]|]. apply Rmult_le_reg_r with (val v); [lra|]. unfold Rdiv. rewrite Rmult_assoc, Rinv_l by lra. lra. }
    destruct (@div_in v0 (vofZ 1) u v Fu) as (_ & Fq & Bq); [lra|rewrite Vo; exact Q|]. change (val v0) with 0 in Bq. rewrite Vo in Bq.
    destruct (@str_down (vdiv u v) Fq Bq) as [F B]. split; [exact F|]. split; [|auto]. intro G.
    rewrite (@ratio_same u v Fu Fv ltac:(lra) ltac:(lra)). apply str_up; [exact Fo|]. change (val v1) with (val (vofZ 1)). lra.
  - destruct (ratio_up Fu Fv (conj Pv L)) as [->|[F B]].
    + destruct str_inf as [X Y]. split; [exact X|]. split; [auto|lra].
    + destruct hi1_val as [_ Hh]. pose proof (bpow_gt_0 radix2 (-52)). destruct (@str_up (vdiv u v) F ltac:(lra)) as [X Y]. split; [exact X|]. split; [auto|lra].
Qed.
Lemma side_rsi0 (u v : float) : finite u -> finite v -> 0 < val u -> val v = 0 -> finite (str (vdiv u v)) /\ 50 <= val (str (vdiv u v)).
Proof.
  intros Fu Fv Pu Zv.
  destruct v as [sv| | |sv mv ev Hv]; try discriminate Fv.
  2: { exfalso. unfold val in Zv. cbn [B2R] in Zv. apply eq_0_F2R in Zv. destruct sv; discriminate Zv. }
  destruct u as [su| | |su mu eu Hu]; try discriminate Fu; [cbn in Pu; lra|].
  assert (E : exists s, vdiv (B754_finite su mu eu Hu : float) (B754_zero sv : float) = B754_infinity s) by (eexists; reflexivity).
  destruct E as [s E0].
  assert (E : str (vdiv (B754_finite su mu eu Hu : float) (B754_zero sv : float)) = str (B754_infinity false)) by (rewrite E0; destruct s; reflexivity).
  rewrite E. exact str_inf.
Qed.
Lemma side_rsi' (u v : float) : finite u -> finite v -> 0 <= val u -> 0 <= val v -> 0 < val u + val v ->
  finite (str (vdiv u v)) /\ (val v <= val u -> 50 <= val (str (vdiv u v))) /\ (val u <= val v -> val (str (vdiv u v)) <= 50).
Proof.
  intros Fu Fv Pu Pv S. destruct (Req_dec (val v) 0) as [Z|Z].
  - destruct (@side_rsi0 u v Fu Fv ltac:(lra) Z) as [F B]. split; [exact F|]. split; [auto|lra].
  - apply side_rsi; [exact Fu|exact Fv|exact Pu|lra].
Qed.
Lemma rsi_side (ma : ma_fun float) p lb (a y1 y2 y : line float) n k1 k2 u d :
  ma p (updays lb a) = Ok y1 -> ma p (downdays lb a) = Ok y2 -> feeds y1 n k1 u -> feeds y2 n k2 d ->
  (forall i, (Nat.max k1 k2 <= i < n)%nat -> finite (u i) /\ 0 <= val (u i) /\ finite (d i) /\ 0 <= val (d i) /\ 0 < val (u i) + val (d i)) ->
  rsi ma p lb a = Ok y ->
  exists g, delivers y n (Nat.max k1 k2) g /\
  forall i, (Nat.max k1 k2 <= i < n)%nat ->
    finite (g i) /\ (val (d i) <= val (u i) -> 50 <= val (g i)) /\ (val (u i) <= val (d i) -> val (g i) <= 50).
Proof.
  intros E1 E2 H1 H2 Hf E. unfold rsi in E. rewrite E1, E2 in E. cbn [bind] in E. apply ok_eq in E. subst y. unfold strength.
  pose proof (binop_delivers vdiv H1 H2) as Q.
  eexists. split; [exact (rbinop_s_delivers vsub (vofZ 100) (delivers_feeds (rbinop_s_delivers vdiv (vofZ 100) (delivers_feeds (rbinop_s_delivers vadd v1 (delivers_feeds Q))))))|].
  intros i Hi. cbv beta. destruct (Hf i Hi) as (Fu & Pu & Fd & Pd & S). exact (side_rsi' Fu Fd Pu Pd S).
Qed.

(** ** cmo: 100 (u - d) / (u + d) *)
Lemma rn_minus (x y : float) : Rabs (rn (val x - val y) - (val x - val y)) <= ulp1 * Rabs (val x - val y).
Proof. pose proof (rn_plus x (opp y)) as H. rewrite val_opp in H. exact H. Qed.
Definition cmov (u d : float) : float := vdiv (vmul (vofZ 100) (vsub u d)) (vadd u d).
Lemma cmov_up (u d : float) : finite u -> finite d -> 0 <= val d < val u -> val u <= bpow radix2 1000 ->
  (finite (cmov u d) /\ 0 < val (cmov u d)) /\
  0 <= val u - val d <= val u /\ val u <= val u + val d <= limit /\ 0 < rn (val u + val d) /\
  0 <= 100 * rn (val u - val d) <= limit /\ 0 <= rn (100 * rn (val u - val d)) / rn (val u + val d) <= limit /\
  0 < rn (rn (100 * rn (val u - val d)) / rn (val u + val d)).
Proof.
  intros Fu Fd L M. destruct val100 as [F1 V1].
  assert (B1000 : 4 * bpow radix2 1000 = bpow radix2 1002) by (change 4 with (bpow radix2 2); rewrite <- bpow_plus; reflexivity).
  assert (L1000 : 128 * bpow radix2 1002 <= limit) by (unfold limit; change 128 with (bpow radix2 7); rewrite <- bpow_plus; apply bpow_le; lia).
  pose proof (bpow_gt_0 radix2 1000) as P1000.
  assert (u4 : 0 < ulp1 <= / 4) by (split; [apply bpow_gt_0|change (/ 4) with (bpow radix2 (-2)); apply bpow_le; lia]).
  (* the difference *)
  destruct (@sub_in v0 u u d Fu Fd) as (Vd & Fs & Bd); [change (val v0) with 0; lra|]. change (val v0) with 0 in Bd.
  set (t := vsub u d) in *. pose proof (rn_minus u d) as R. rewrite <- Vd in R. rewrite (Rabs_right (val u - val d)) in R by lra. apply Rabs_le_inv in R.
  assert (T : 3 / 4 * (val u - val d) <= val t) by nra.
  (* times 100 *)
  destruct (@mul_in v0 (big 1010) (vofZ 100) t F1 Fs) as (Vm & Fm & Bm).
  { destruct big1010 as [_ ->]. change (val v0) with 0. rewrite V1. unfold limit in L1000. nra. }
  set (m := vmul (vofZ 100) t) in *. rewrite V1 in Vm.
  assert (Tm : val t <= val m) by (rewrite Vm, <- (rn_val t) at 1; apply rn_le; lra).
  (* the sum *)
  destruct (@add_in u (big 1010) u d Fu Fd) as (Va & Fa & Ba); [destruct big1010 as [_ ->]; unfold limit in L1000; lra|].
  set (s := vadd u d) in *. pose proof (rn_plus u d) as R2. rewrite <- Va in R2. rewrite (Rabs_right (val u + val d)) in R2 by lra. apply Rabs_le_inv in R2.
  assert (A : val s <= 5 / 4 * (val u + val d)) by nra.
  (* how small the quotient can be *)
  assert (G : val d * bpow radix2 (-53) <= val u - val d).
  { destruct (Req_dec (val d) 0) as [Z|Z]; [rewrite Z; lra|]. pose proof (@apart d u ltac:(lra)). lra. }
  fold ulp1 in G.
  assert (S0 : 0 < val s) by lra.
  assert (Q : bpow radix2 (-60) <= val m / val s).
  { apply Rmult_le_reg_r with (val s); [lra|]. unfold Rdiv. rewrite Rmult_assoc, Rinv_l by lra. rewrite Rmult_1_r.
    assert (X : val u + val d <= (val u - val d) * (1 + 2 * bpow radix2 53)).
    { assert (I : ulp1 * bpow radix2 53 = 1) by (unfold ulp1; rewrite <- bpow_plus; reflexivity).
      assert (val d <= (val u - val d) * bpow radix2 53).
      { replace (val d) with (val d * ulp1 * bpow radix2 53) at 1 by (rewrite Rmult_assoc, I; ring). apply Rmult_le_compat_r; [apply bpow_ge_0|exact G]. }
      lra. }
    assert (Y : bpow radix2 (-60) * (1 + 2 * bpow radix2 53) <= / 4).
    { rewrite Rmult_plus_distr_l, Rmult_1_r. replace (bpow radix2 (-60) * (2 * bpow radix2 53)) with (2 * (bpow radix2 (-60) * bpow radix2 53)) by ring.
      rewrite <- bpow_plus. assert (bpow radix2 (-60) <= / 16) by (change (/ 16) with (bpow radix2 (-4)); apply bpow_le; lia).
      assert (bpow radix2 (-60 + 53) <= / 16) by (change (/ 16) with (bpow radix2 (-4)); apply bpow_le; lia). lra. }
    pose proof (bpow_gt_0 radix2 (-60)). pose proof (bpow_gt_0 radix2 53).
    apply Rle_trans with (bpow radix2 (-60) * (5 / 4 * ((val u - val d) * (1 + 2 * bpow radix2 53)))); [apply Rmult_le_compat_l; lra|].
    replace (bpow radix2 (-60) * (5 / 4 * ((val u - val d) * (1 + 2 * bpow radix2 53)))) with (5 / 4 * (val u - val d) * (bpow radix2 (-60) * (1 + 2 * bpow radix2 53))) by ring.
    apply Rle_trans with (5 / 4 * (val u - val d) * / 4); [apply Rmult_le_compat_l; lra|lra]. }
  assert (Q2 : val m / val s <= limit).
  { apply Rmult_le_reg_r with (val s); [lra|]. unfold Rdiv. rewrite Rmult_assoc, Rinv_l, Rmult_1_r by lra.
    assert (Hm : val m <= 200 * val s).
    { rewrite Vm. pose proof (@rn_le (100 * val t) (128 * val u) ltac:(lra)) as X.
      assert (Z : rn (128 * val u) <= 200 * val u).
      { pose proof (rn_times 128 u) as W. assert (0 <= 128 * val u) by lra. rewrite (Rabs_right (IZR 128 * val u)) in W by (apply Rle_ge; exact H). apply Rabs_le_inv in W.
        fold ulp1 in W. nra. }
      lra. }
    assert (200 <= limit) by (apply Rle_trans with (bpow radix2 8); [change (bpow radix2 8) with 256; lra|apply bpow_le; lia]). nra. }
  destruct (@div_in v0 (big 1010) m s Fm) as (V & F & _); [lra|destruct big1010 as [_ ->]; change (val v0) with 0; pose proof (bpow_gt_0 radix2 (-60)); fold limit; lra|].
  assert (P0 : 0 < rn (val m / val s)).
  { pose proof (bpow_gt_0 radix2 (-60)) as P60. apply Rlt_le_trans with (bpow radix2 (-60)); [exact P60|].
    assert (E60 : rn (bpow radix2 (-60)) = bpow radix2 (-60)).
    { apply round_generic; [apply valid_rnd_N|]. apply generic_format_bpow. vm_compute. discriminate. }
    rewrite <- E60. now apply rn_le. }
  unfold cmov. fold t m s. rewrite <- Vd, <- Va, <- Vm. pose proof (bpow_gt_0 radix2 (-60)).
  split; [split; [exact F|now rewrite V]|]. repeat split; try lra.
Qed.
Lemma cmov_down (u d : float) : finite u -> finite d -> 0 <= val u < val d -> val d <= bpow radix2 1000 ->
  finite (cmov u d) /\ val (cmov u d) < 0.
Proof.
  intros Fu Fd L M. destruct (cmov_up Fd Fu L M) as (_ & B1 & B2 & S0 & B3 & B4 & P0). destruct val100 as [F1 V1].
  destruct big1010 as [_ VB]. fold limit in VB.
  destruct (@sub_in (opp d) v0 u d Fu Fd) as (Vd & Fs & _); [rewrite val_opp; change (val v0) with 0; lra|].
  replace (val u - val d) with (- (val d - val u)) in Vd by ring. rewrite rn_opp in Vd.
  destruct (@mul_in (opp (big 1010)) v0 (vofZ 100) (vsub u d) F1 Fs) as (Vm & Fm & _); [rewrite val_opp, VB, V1, Vd; change (val v0) with 0; lra|].
  rewrite V1, Vd in Vm. replace (100 * - rn (val d - val u)) with (- (100 * rn (val d - val u))) in Vm by ring. rewrite rn_opp in Vm.
  destruct (@add_in d (big 1010) u d Fu Fd) as (Va & Fa & _); [rewrite VB; lra|].
  replace (val u + val d) with (val d + val u) in Va by ring.
  destruct (@div_in (opp (big 1010)) v0 (vmul (vofZ 100) (vsub u d)) (vadd u d) Fm) as (V & F & _); [rewrite Va; lra| |].
  { rewrite val_opp, VB, Vm, Va. change (val v0) with 0. unfold Rdiv in *. rewrite Ropp_mult_distr_l_reverse. lra. }
  split; [exact F|]. unfold cmov. rewrite V, Vm, Va. unfold Rdiv in *. rewrite Ropp_mult_distr_l_reverse, rn_opp. lra.
Qed.
Lemma cmov_same (u d : float) : finite u -> finite d -> val u = val d -> 0 < val d <= bpow radix2 1000 -> finite (cmov u d) /\ val (cmov u d) = 0.
Proof.
  intros Fu Fd E P. destruct val100 as [F1 V1]. destruct big1010 as [_ VB].
  assert (4 * bpow radix2 1000 <= bpow radix2 1010) by (change 4 with (bpow radix2 2); rewrite <- bpow_plus; apply bpow_le; lia).
  destruct (@sub_in v0 v0 u d Fu Fd) as (_ & Fs & Vs); [change (val v0) with 0; lra|]. change (val v0) with 0 in Vs.
  destruct (@mul_in v0 v0 (vofZ 100) (vsub u d) F1 Fs) as (_ & Fm & Vm); [change (val v0) with 0; nra|]. change (val v0) with 0 in Vm.
  destruct (@add_in u (big 1010) u d Fu Fd) as (_ & Fa & Va); [rewrite VB; lra|].
  assert (Z : val (vmul (vofZ 100) (vsub u d)) = 0) by lra.
  destruct (@div_in v0 v0 (vmul (vofZ 100) (vsub u d)) (vadd u d) Fm) as (_ & F & V); [lra|rewrite Z; change (val v0) with 0; unfold Rdiv; lra|].
  change (val v0) with 0 in V. split; [exact F|unfold cmov; lra].
Qed.
Lemma cmo_side (sm : ma_fun float) p (a y1 y2 y : line float) n k1 k2 u d :
  sm p (updays 1 a) = Ok y1 -> sm p (downdays 1 a) = Ok y2 -> feeds y1 n k1 u -> feeds y2 n k2 d ->
  (forall i, (Nat.max k1 k2 <= i < n)%nat ->
     finite (u i) /\ 0 <= val (u i) <= bpow radix2 1000 /\ finite (d i) /\ 0 <= val (d i) <= bpow radix2 1000 /\ 0 < val (u i) + val (d i)) ->
  cmo sm p a = Ok y ->
  exists g, delivers y n (Nat.max k1 k2) g /\ forall i, (Nat.max k1 k2 <= i < n)%nat -> compares_as (g i) v0 (u i) (d i).
Proof.
  intros E1 E2 H1 H2 Hf E. unfold cmo in E. rewrite E1, E2 in E. cbn [bind] in E. apply ok_eq in E. subst y.
  pose proof (binop_delivers vdiv (delivers_feeds (rbinop_s_delivers vmul (vofZ 100) (delivers_feeds (binop_delivers vsub H1 H2)))) (delivers_feeds (binop_delivers vadd H1 H2))) as Q.
  rewrite Nat.max_id in Q. eexists. split; [exact Q|]. intros i Hi. cbv beta. destruct (Hf i Hi) as (Fu & Pu & Fd & Pd & S).
  change (compares_as (cmov (u i) (d i)) v0 (u i) (d i)).
  assert (X : finite (cmov (u i) (d i)) /\ (val (d i) < val (u i) -> 0 < val (cmov (u i) (d i))) /\ (val (u i) < val (d i) -> val (cmov (u i) (d i)) < 0) /\ (val (u i) = val (d i) -> val (cmov (u i) (d i)) = 0)).
  { destruct (Rtotal_order (val (u i)) (val (d i))) as [L|[L|L]].
    - destruct (@cmov_down (u i) (d i) Fu Fd ltac:(lra) ltac:(lra)). repeat split; auto; lra.
    - destruct (@cmov_same (u i) (d i) Fu Fd L ltac:(lra)). repeat split; auto; lra.
    - destruct (@cmov_up (u i) (d i) Fu Fd ltac:(lra) ltac:(lra)) as [[A B] _]. repeat split; auto; lra. }
  destruct X as (F & A & B & C). apply cmp_fin; [exact Fu|exact Fd|exact F|reflexivity|exact A|exact B|exact C].
Qed.
