(** ewma with adjusted weights in float64: the rounding errors of the weights and of the values do not add up. *)
From Coq Require Import ZArith Reals List Bool Lia Lra.
From Flocq Require Import Core IEEE754.BinarySingleNaN.
From Verif Require Import Num Series Line Spec RSpec LineFacts ScanFacts RFacts IndMA MAFacts EwmaFacts Float64 FloatSpec FloatFacts FloatLine FloatAvg
  PropFloatFacts PropMAFacts Running RunSpec RunFacts RunFloat RunMean EmaFloat.
Import ListNotations.
Set Implicit Arguments.
Local Open Scope R_scope.

(** the sum of the weights of the first [d + 1] values *)
Fixpoint wsum (q : R) (d : nat) : R := match d with O => 1 | S d' => wsum q d' * q + 1 end.
Lemma wsum_ages q d : Rsum (ages q (S d)) = wsum q d.
Proof.
  induction d as [|d IH]; [unfold ages, Rsum; cbn; ring|]. rewrite ages_S, Rsum_cons, Rsum_scal, IH. cbn [wsum]. ring.
Qed.
Lemma wsum_pos q d : 0 <= q -> 1 <= wsum q d.
Proof. intro H. induction d as [|d IH]; cbn [wsum]; [lra|]. nra. Qed.
Lemma wsum_le a d : 0 < a <= 1 -> wsum (1 - a) d <= / a.
Proof.
  intro H. assert (E : a * / a = 1) by (apply Rinv_r; lra). induction d as [|d IH]; cbn [wsum].
  - rewrite <- Rinv_1. apply Rinv_le_contravar; lra.
  - nra.
Qed.
Lemma wh_S q x k d : 0 <= q ->
  wh q x k (S d) = (wsum q d * q * wh q x k d + x (S k + d)%nat) / (wsum q d * q + 1).
Proof.
  intro H. pose proof (wsum_pos d H) as P. unfold wh at 1, wmean. rewrite wsum_ages. cbn [wsum]. f_equal.
  rewrite Nat.add_succ_r, ages_S, hist_S, Rdot_cons, Rdot_scal. unfold wh, wmean. rewrite wsum_ages. cbn [Nat.add]. field. lra.
Qed.
Lemma wh_0 q x k : wh q x k 0 = x k.
Proof. unfold wh, wmean, ages, hist, Rdot, Rsum. cbn [seq map combine fold_right pow]. rewrite Nat.add_0_r, Nat.sub_0_r. field. Qed.

Section Adj.
  Variables (al : float) (a M : R).
  Hypothesis Fal : finite al.
  Hypothesis Ral : 0 < val al <= 1.
  Hypothesis Aal : Rabs (val al - a) <= ulp1 * a.
  Hypothesis Ra : 0 < a <= 1.
  Hypothesis Ha : 90 * ulp1 <= a.
  Hypothesis HM : bpow radix2 (-1000) <= M <= bpow radix2 900.

  Lemma inva : / a <= bpow radix2 53 /\ ulp1 * / a <= / 90 /\ 1 <= / a /\ a * / a = 1.
  Proof.
    assert (E : a * / a = 1) by (apply Rinv_r; lra). pose proof ulp_small as U.
    assert (I : 1 <= / a) by (rewrite <- Rinv_1; apply Rinv_le_contravar; lra).
    assert (B : ulp1 * bpow radix2 53 = 1) by (unfold ulp1; rewrite <- bpow_plus; reflexivity).
    pose proof (bpow_gt_0 radix2 53). repeat split; auto.
    - apply Rmult_le_reg_l with ulp1; [lra|]. rewrite B. nra.
    - nra.
  Qed.
  Lemma MP : 0 < M. Proof. pose proof (bpow_gt_0 radix2 (-1000)). lra. Qed.
  Lemma eta_uM : 2 * eta <= ulp1 * M.
  Proof.
    assert (HM' : bpow radix2 (-1000) <= M <= bpow radix2 1000)
      by (split; [apply HM|]; eapply Rle_trans; [apply HM|]; apply bpow_le; lia).
    pose proof (@eta_small M HM'). pose proof (bpow_gt_0 radix2 (-1075)). lra.
  Qed.
  Lemma eta_u : eta <= ulp1.
  Proof. unfold ulp1. apply bpow_le. lia. Qed.
  (** values up to a large multiple of [M / a] fit *)
  Lemma fits x : Rabs x <= 100 * (M * / a) -> val (opp (big 1010)) <= x <= val (big 1010).
  Proof.
    intro H. apply big_limit. eapply Rle_trans; [exact H|]. destruct inva as (I & _ & I1 & _). pose proof MP as P.
    assert (X : M * / a <= bpow radix2 900 * bpow radix2 53) by (apply Rmult_le_compat; lra).
    rewrite <- bpow_plus in X. unfold limit. replace 1010%Z with (57 + (900 + 53))%Z by reflexivity. rewrite bpow_plus.
    assert (Y : 100 <= bpow radix2 57) by (apply Rle_trans with (bpow radix2 7); [cbn; lra|apply bpow_le; lia]).
    pose proof (bpow_gt_0 radix2 (900 + 53)). nra.
  Qed.

  Let s0 := vsub v1 al.
  Let q := 1 - a.
  Lemma s0_err : finite s0 /\ 0 <= val s0 <= 1 /\ Rabs (val s0 - q) <= 2 * ulp1.
  Proof.
    destruct (@one_minus al Fal Ral) as (F & B & E). split; [exact F|]. split; [exact B|]. pose proof ulp_small as U.
    unfold q. replace (val s0 - (1 - a)) with ((val s0 - (1 - val al)) + (a - val al)) by ring.
    eapply Rle_trans; [apply Rabs_triang|]. rewrite (Rabs_minus_sym a). unfold s0. nra.
  Qed.

  (** one step of the weights: [w] for [W] *)
  Variables (w : float) (W : R).
  Hypothesis Fw : finite w.
  Hypothesis BW : 1 <= W <= / a.
  Hypothesis Ew : Rabs (val w - W) <= 11 * ulp1 * / a * W.
  Let o := vmul w s0.
  Let W' := W * q + 1.
  Lemma w_small : 0 <= val w <= 2 * W.
  Proof. destruct inva as (_ & I & _). apply abs_le in Ew. nra. Qed.
  Lemma o_err : finite o /\ 0 <= val o <= 3 * W /\ Rabs (val o - W * q) <= Rabs (val w - W) * q + 7 * ulp1 * W.
  Proof.
    destruct s0_err as (Fs & Bs & Es). pose proof w_small as Bw. pose proof ulp_small as U. pose proof eta_u as Et.
    destruct inva as (I53 & I & I1 & _). pose proof (bpow_gt_0 radix2 (-1075)) as E0.
    assert (B : Rabs (val w * val s0) <= 2 * W) by (rewrite Rabs_right by nra; nra).
    destruct (@mul_in (vofZ 0) (big 1010) w s0) as (V & F & Bo); auto.
    { rewrite val0. split; [nra|]. apply big_limit. eapply Rle_trans; [exact B|]. unfold limit.
      apply Rle_trans with (bpow radix2 1 * bpow radix2 53); [change (bpow radix2 1) with 2; nra|]. rewrite <- bpow_plus. apply bpow_le. lia. }
    fold o in V, F, Bo. rewrite val0 in Bo. pose proof (rn_err (val w * val s0)) as E. rewrite <- V in E.
    split; [exact F|]. assert (E' : Rabs (val o - val w * val s0) <= 3 * ulp1 * W) by nra.
    split; [apply abs_le in E', B; nra|].
    replace (val o - W * q) with ((val o - val w * val s0) + ((val w - W) * q + val w * (val s0 - q))) by ring.
    eapply Rle_trans; [apply Rabs_triang|]. eapply Rle_trans; [apply Rplus_le_compat_l, Rabs_triang|].
    assert (Q : 0 <= q <= 1) by (unfold q; lra).
    assert (X1 : Rabs ((val w - W) * q) = Rabs (val w - W) * q) by (rewrite Rabs_mult, (Rabs_right q); lra).
    assert (X2 : Rabs (val w * (val s0 - q)) <= (2 * W) * (2 * ulp1)) by (apply abs_prod; [rewrite Rabs_right|]; lra).
    nra.
  Qed.
  Lemma o_close : Rabs (val o - W * q) <= 11 * ulp1 * / a * W'.
  Proof.
    destruct o_err as (_ & _ & E). eapply Rle_trans; [exact E|]. unfold W'. pose proof ulp_small as U. destruct inva as (_ & _ & I1 & Ia).
    assert (Q : 0 <= q <= 1) by (unfold q; lra).
    assert (X : Rabs (val w - W) * q <= 11 * ulp1 * / a * W * q) by (apply Rmult_le_compat_r; lra).
    assert (Y : ulp1 * W <= ulp1 * / a) by (apply Rmult_le_compat_l; lra). nra.
  Qed.
  Let w' := vadd o v1.
  Lemma w_step : finite w' /\ val w' = rn (val o + 1) /\ Rabs (val w' - (val o + 1)) <= ulp1 * (val o + 1) /\
    Rabs (val w' - W') <= 11 * ulp1 * / a * W'.
  Proof.
    destruct o_err as (Fo & Bo & Eo). pose proof ulp_small as U. destruct inva as (I53 & I & I1 & Ia). destruct val1 as [F1 V1].
    destruct (@add_in (vofZ 0) (big 1010) o (vofZ 1)) as (V & F & B); auto.
    { rewrite val0, V1. split; [lra|]. apply big_limit. rewrite Rabs_right by lra. unfold limit.
      apply Rle_trans with (bpow radix2 2 * bpow radix2 53); [change (bpow radix2 2) with 4; nra|]. rewrite <- bpow_plus. apply bpow_le. lia. }
    change (vadd o (vofZ 1)) with w' in V, F, B. rewrite V1 in V. pose proof (rn_plus o (vofZ 1)) as E. rewrite V1, <- V in E.
    rewrite (Rabs_right (val o + 1)) in E by lra.
    split; [exact F|]. split; [exact V|]. split; [exact E|].
    replace (val w' - W') with ((val w' - (val o + 1)) + (val o - W * q)) by (unfold W'; ring).
    eapply Rle_trans; [apply Rabs_triang|].
    assert (Q : 0 <= q <= 1) by (unfold q; lra).
    assert (X : Rabs (val w - W) * q <= 11 * ulp1 * / a * W * q) by (apply Rmult_le_compat_r; lra).
    assert (Y : ulp1 * W <= ulp1 * / a) by (apply Rmult_le_compat_l; lra). unfold W'. nra.
  Qed.

  (** one step of the values: [y] for [e] *)
  Variables (y x : float) (e : R).
  Hypothesis Fy : finite y.
  Hypothesis Fx : finite x.
  Hypothesis Bx : Rabs (val x) <= M.
  Hypothesis Be : Rabs e <= M.
  Hypothesis Ey : Rabs (val y - e) <= 90 * ulp1 * / a * M.
  Let r := vdiv (vadd (vmul o y) (vmul v1 x)) w'.
  Let e' := (W * q * e + val x) / W'.
  Lemma W1 : 1 <= W'. Proof. unfold W', q. nra. Qed.
  Lemma y_small : Rabs (val y) <= 2 * M.
  Proof.
    destruct inva as (_ & I & _). pose proof MP. replace (val y) with ((val y - e) + e) by ring.
    eapply Rle_trans; [apply Rabs_triang|]. nra.
  Qed.
  Lemma e_step : Rabs e' <= M.
  Proof.
    pose proof W1 as H1. unfold e', Rdiv. rewrite Rabs_mult, (Rabs_right (/ W')) by (apply Rle_ge, Rlt_le, Rinv_0_lt_compat; lra).
    apply Rmult_le_reg_r with W'; [lra|]. rewrite Rmult_assoc, Rinv_l, Rmult_1_r by lra. eapply Rle_trans; [apply Rabs_triang|].
    assert (Q : 0 <= W * q) by (unfold q; nra). rewrite (Rabs_mult (W * q)), (Rabs_right (W * q)) by lra. unfold W'. pose proof (Rabs_pos e). nra.
  Qed.
  Lemma same_step : val y = val x -> Rabs (val y - e') <= 90 * ulp1 * / a * M.
  Proof.
    intro H. pose proof W1 as H1. assert (Q : 0 <= W * q) by (unfold q; nra). pose proof MP. pose proof ulp_small. destruct inva as (_ & _ & I1 & _).
    replace (val y - e') with (W * q * / W' * (val y - e)) by (unfold e'; rewrite <- H; unfold W' in *; field; lra).
    assert (L : 0 <= W * q * / W' <= 1).
    { split; [apply Rle_mult_inv_pos; lra|]. apply Rmult_le_reg_r with W'; [lra|]. rewrite Rmult_assoc, Rinv_l by lra. unfold W'. lra. }
    rewrite Rabs_mult, (Rabs_right (W * q * / W')) by lra. pose proof (Rabs_pos (val y - e)). nra.
  Qed.
  Lemma value_step : finite r /\ Rabs (val r - e') <= 90 * ulp1 * / a * M.
  Proof.
    destruct o_err as (Fo & Bo & _). pose proof o_close as Eo. destruct w_step as (Fw' & _ & Ew' & _).
    pose proof ulp_small as U. destruct inva as (I53 & I & I1 & Ia). destruct val1 as [F1 V1]. pose proof MP as Mp. pose proof eta_uM as Et.
    pose proof (bpow_gt_0 radix2 (-1075)) as E0. pose proof y_small as By. pose proof W1 as H1.
    set (O := W * q) in *. assert (Q : 0 <= O) by (unfold O, q; nra).
    set (T := val o + 1) in *. assert (T1 : 1 <= T) by (unfold T; lra).
    assert (Ma : 0 < M * / a) by (apply Rmult_lt_0_compat; lra).
    assert (Ta : T <= 4 * / a) by (unfold T; lra).
    assert (TM : T * M <= 4 * (M * / a)) by nra.
    (* the product *)
    assert (P' : Rabs (val o * val y) <= 2 * (val o * M)).
    { rewrite Rabs_mult, (Rabs_right (val o)) by lra. nra. }
    assert (oM : 0 <= val o * M <= T * M - M) by (unfold T; split; nra).
    destruct (@mul_in (opp (big 1010)) (big 1010) o y) as (VP & FP & _); auto; [apply fits; lra|].
    pose proof (rn_err (val o * val y)) as E1. rewrite <- VP in E1. set (P := vmul o y) in *.
    assert (E1' : Rabs (val P - val o * val y) <= 2 * ulp1 * (val o * M) + eta) by nra.
    (* one times the input *)
    assert (X1 : finite (vmul v1 x) /\ val (vmul v1 x) = val x).
    { unfold v1. destruct (@mul_in (opp (big 1010)) (big 1010) (vofZ 1) x) as (V & F & _); auto; [apply fits; rewrite V1, Rmult_1_l; nra|].
      split; [exact F|]. rewrite V, V1, Rmult_1_l. apply rn_fmt, fmt_val. }
    destruct X1 as [FX VX]. set (X := vmul v1 x) in *.
    assert (BP : Rabs (val P) <= 3 * (val o * M) + eta).
    { replace (val P) with ((val P - val o * val y) + val o * val y) by ring. eapply Rle_trans; [apply Rabs_triang|]. nra. }
    assert (BS : Rabs (val P + val X) <= 3 * (T * M)).
    { rewrite VX. eapply Rle_trans; [apply Rabs_triang|]. assert (ulp1 * M <= M) by nra. lra. }
    destruct (@add_in (opp (big 1010)) (big 1010) P X) as (VS & FS & _); auto; [apply fits; lra|].
    pose proof (rn_plus P X) as E3. rewrite <- VS in E3. set (S := vadd P X) in *.
    set (N := val o * val y + val x).
    assert (ES : Rabs (val S - N) <= 6 * ulp1 * (T * M)).
    { unfold N. replace (val S - (val o * val y + val x)) with ((val S - (val P + val X)) + (val P - val o * val y)) by (rewrite VX; ring).
      eapply Rle_trans; [apply Rabs_triang|].
      assert (ulp1 * Rabs (val P + val X) <= ulp1 * (3 * (T * M))) by (apply Rmult_le_compat_l; lra).
      assert (ulp1 * (val o * M) <= ulp1 * (T * M - M)) by (apply Rmult_le_compat_l; lra). nra. }
    assert (BSs : Rabs (val S) <= 4 * (T * M)).
    { replace (val S) with ((val S - (val P + val X)) + (val P + val X)) by ring. eapply Rle_trans; [apply Rabs_triang|]. nra. }
    assert (Er : vdiv S w' = r) by reflexivity.
    clearbody S P X.
    (* the divisor *)
    set (D := w') in *. assert (D2 : T / 2 <= val D) by (apply abs_le in Ew'; nra).
    assert (Dp : 0 < val D) by lra.
    set (t := val S / val D).
    assert (TD : T * / val D <= 2).
    { apply Rmult_le_reg_r with (val D); [lra|]. rewrite Rmult_assoc, Rinv_l by lra. lra. }
    assert (TD0 : 0 <= T * / val D) by (apply Rle_mult_inv_pos; lra).
    assert (Bt : Rabs t <= 8 * M).
    { unfold t, Rdiv. rewrite Rabs_mult, (Rabs_right (/ val D)) by (apply Rle_ge, Rlt_le, Rinv_0_lt_compat; lra).
      assert (iD : 0 < / val D) by (apply Rinv_0_lt_compat; lra).
      eapply Rle_trans; [apply Rmult_le_compat_r; [lra|exact BSs]|]. replace (4 * (T * M) * / val D) with (4 * M * (T * / val D)) by ring. nra. }
    assert (iT : T * / T = 1) by (apply Rinv_r; lra).
    assert (iTp : 0 < / T) by (apply Rinv_0_lt_compat; lra).
    assert (Et1 : Rabs (t - N / T) <= 14 * ulp1 * M).
    { replace (t - N / T) with ((val S - N) * / T + val S * / val D * ((T - val D) * / T)) by (unfold t; field; lra).
      eapply Rle_trans; [apply Rabs_triang|].
      assert (A1 : Rabs ((val S - N) * / T) <= 6 * ulp1 * M).
      { rewrite Rabs_mult, (Rabs_right (/ T)) by lra. eapply Rle_trans; [apply Rmult_le_compat_r; [lra|exact ES]|].
        replace (6 * ulp1 * (T * M) * / T) with (6 * ulp1 * M * (T * / T)) by ring. rewrite iT. lra. }
      assert (A2 : Rabs (val S * / val D * ((T - val D) * / T)) <= 8 * M * ulp1).
      { apply abs_prod; [exact Bt|]. rewrite Rabs_mult, (Rabs_right (/ T)), Rabs_minus_sym by lra.
        eapply Rle_trans; [apply Rmult_le_compat_r; [lra|exact Ew']|]. replace (ulp1 * T * / T) with (ulp1 * (T * / T)) by ring. rewrite iT. lra. }
      lra. }
    destruct (@div_in (opp (big 1010)) (big 1010) S D) as (VR & FR & _); auto; [lra|apply fits; fold t; nra|].
    fold t in VR. pose proof (rn_err t) as E5. rewrite <- VR in E5. rewrite Er in VR, FR, E5. split; [exact FR|].
    assert (E5' : Rabs (val r - t) <= 9 * ulp1 * M) by nra.
    (* the weight *)
    assert (TW : W' / 2 <= T).
    { unfold T. assert (W' = O + 1) by reflexivity. apply abs_le in Eo. assert (11 * ulp1 * / a * W' <= / 8 * W') by nra. lra. }
    assert (iW : W' * / W' = 1) by (apply Rinv_r; lra). assert (iWp : 0 < / W') by (apply Rinv_0_lt_compat; lra).
    assert (Ed : Rabs (N / T - (O * val y + val x) / W') <= 66 * ulp1 * / a * M * / W').
    { replace (N / T - (O * val y + val x) / W') with ((val o - O) * (val y - val x) * (/ T * / W'))
        by (unfold N, T, W' in *; fold O; field; fold O; lra).
      assert (D1 : Rabs (val y - val x) <= 3 * M) by (unfold Rminus; eapply Rle_trans; [apply Rabs_triang|]; rewrite Rabs_Ropp; lra).
      assert (D3 : / T <= 2 * / W').
      { apply Rmult_le_reg_r with T; [lra|]. rewrite Rinv_l by lra. apply Rmult_le_reg_r with W'; [lra|].
        replace (2 * / W' * T * W') with (2 * T * (W' * / W')) by ring. rewrite iW. lra. }
      rewrite Rabs_mult, (Rabs_right (/ T * / W')) by (apply Rle_ge, Rmult_le_pos; lra).
      assert (D4 : Rabs ((val o - O) * (val y - val x)) <= 11 * ulp1 * / a * W' * (3 * M)) by (apply abs_prod; auto).
      eapply Rle_trans; [apply Rmult_le_compat; [apply Rabs_pos|apply Rmult_le_pos; lra|exact D4|apply Rmult_le_compat_r; [lra|exact D3]]|].
      replace (11 * ulp1 * / a * W' * (3 * M) * (2 * / W' * / W')) with (66 * ulp1 * / a * M * / W' * (W' * / W')) by ring. rewrite iW. lra. }
    assert (aW : 1 <= / a * / W').
    { apply Rmult_le_reg_r with W'; [lra|]. rewrite Rmult_assoc, Rinv_l by lra.
      assert (Wa : W * (1 - a) <= / a * (1 - a)) by (apply Rmult_le_compat_r; lra). unfold W', O, q. lra. }
    replace (val r - e') with ((val r - t) + (t - N / T) + (N / T - (O * val y + val x) / W') + O * / W' * (val y - e))
      by (unfold e'; fold O; field; lra).
    assert (L0 : O * / W' = 1 - / W') by (replace O with (W' - 1) by (unfold W', O; ring); rewrite Rmult_minus_distr_r, iW; ring).
    assert (L : 0 <= O * / W') by (apply Rle_mult_inv_pos; lra).
    assert (Ez : Rabs (O * / W' * (val y - e)) <= (1 - / W') * (90 * ulp1 * / a * M)).
    { rewrite Rabs_mult, (Rabs_right (O * / W')), L0 by lra. apply Rmult_le_compat_l; lra. }
    eapply Rle_trans; [apply Rabs_triang|]. eapply Rle_trans; [apply Rplus_le_compat_r, Rabs_triang|].
    eapply Rle_trans; [apply Rplus_le_compat_r, Rplus_le_compat_r, Rabs_triang|].
    assert (uM : 0 <= ulp1 * M) by nra.
    assert (fin' : 23 * (ulp1 * M) * 1 <= 23 * (ulp1 * M) * (/ a * / W')) by (apply Rmult_le_compat_l; lra).
    nra.
  Qed.
End Adj.

(** ** the recursion *)
Section Rec.
  Variables (al : float) (a M : R) (f : nat -> float) (j n : nat).
  Hypothesis Fal : finite al.
  Hypothesis Ral : 0 < val al <= 1.
  Hypothesis Aal : Rabs (val al - a) <= ulp1 * a.
  Hypothesis Ra : 0 < a <= 1.
  Hypothesis Ha : 90 * ulp1 <= a.
  Hypothesis HM : bpow radix2 (-1000) <= M <= bpow radix2 900.
  Hypothesis Hf : forall i, (j <= i < n)%nat -> sized M (f i).
  Let x := fun i => val (f i).
  Lemma adj_err d : (j + d < n)%nat ->
    exists wa w, scan_st (ewma_step al true) (fun i => prep (f i)) (S j) (f j, v1) d = (wa, w) /\
    finite w /\ Rabs (val w - wsum (1 - a) d) <= 11 * ulp1 * / a * wsum (1 - a) d /\
    finite wa /\ Rabs (wh (1 - a) x j d) <= M /\ Rabs (val wa - wh (1 - a) x j d) <= 90 * ulp1 * / a * M.
  Proof.
    destruct (@inva al a Ral Ra Ha) as (_ & _ & I1 & _). pose proof ulp_small as U. pose proof (MP HM) as Mp.
    assert (P0 : 0 <= 90 * ulp1 * / a * M) by (repeat apply Rmult_le_pos; lra).
    induction d as [|d IH]; intro Hd.
    - destruct (Hf (i := j)) as [Fj Bj]; [lia|]. destruct val1 as [F1 V1]. exists (f j), v1. cbn [scan_st wsum]. rewrite wh_0.
      split; [reflexivity|]. split; [exact F1|]. unfold v1. rewrite V1. rewrite (Rminus_diag_eq 1) by reflexivity. rewrite Rabs_R0.
      split; [repeat apply Rmult_le_pos; lra|]. split; [exact Fj|]. split; [exact Bj|].
      unfold x. rewrite Rminus_diag_eq by reflexivity. rewrite Rabs_R0. exact P0.
    - destruct IH as (wa & w & E & Fw & Ew & Fa & Be & Ea); [lia|]. destruct (Hf (i := (S j + d)%nat)) as [Fx Bx]; [lia|].
      set (W := wsum (1 - a) d) in *. set (e := wh (1 - a) x j d) in *.
      assert (BW : 1 <= W <= / a) by (split; [apply wsum_pos; lra|apply wsum_le; lra]).
      destruct (@w_step al a Fal Ral Aal Ra Ha w W Fw BW Ew) as (Fw' & _ & _ & Ew').
      assert (EH : wh (1 - a) x j (S d) = (W * (1 - a) * e + x (S j + d)%nat) / (W * (1 - a) + 1)) by (apply wh_S; lra).
      cbn [scan_st wsum]. fold W. rewrite E, EH. rewrite (@prep_fin_id _ Fx). unfold ewma_step.
      rewrite (finite_num _ Fa), (finite_num _ Fx). cbn [fst snd].
      pose proof (@e_step al a M Ral Ra W BW (f (S j + d)%nat) e Bx Be) as Bn.
      destruct (veqb wa (f (S j + d)%nat)) eqn:Q.
      + apply eqb_iff in Q; auto. eexists _, _. split; [reflexivity|]. split; [exact Fw'|]. split; [exact Ew'|]. split; [exact Fa|].
        split; [exact Bn|]. exact (@same_step al a M Ral Ra Ha HM W BW wa (f (S j + d)%nat) e Ea Q).
      + destruct (@value_step al a M Fal Ral Aal Ra Ha HM w W Fw BW Ew wa (f (S j + d)%nat) e Fa Fx Bx Be Ea) as [Fr Er].
        eexists _, _. split; [reflexivity|]. split; [exact Fw'|]. split; [exact Ew'|]. split; [exact Fr|]. split; [exact Bn|exact Er].
  Qed.
  Lemma adj_val_err d : (j + d < n)%nat ->
    finite (ewma_val al true (f j) f j d) /\
    Rabs (val (ewma_val al true (f j) f j d) - wh (1 - a) x j d) <= 90 * ulp1 * / a * M.
  Proof.
    intro Hd. destruct (@adj_err d Hd) as (wa & w & E & _ & _ & F & _ & Er).
    replace (ewma_val al true (f j) f j d) with wa; [split; auto|].
    destruct d as [|d]; cbn [ewma_val scan_st] in *; [now injection E|].
    replace (j + S d)%nat with (S j + d)%nat by lia.
    destruct (scan_st (ewma_step al true) (fun i => prep (f i)) (S j) (f j, v1) d) as [u o].
    set (y := prep (f (S j + d)%nat)) in *. clearbody y. unfold ewma_step in *.
    destruct (visnan u); cbn [fst snd] in *; [now injection E|]. destruct (visnan y); cbn [fst snd] in *; now injection E.
  Qed.
End Rec.

Lemma ewma_adj_close M p (a : line float) n k f e :
  bpow radix2 (-1000) <= M <= bpow radix2 900 -> (1 <= p)%nat -> (Z.of_nat p <= 2 ^ 46)%Z ->
  feeds a n k f -> (forall i, (k <= i < n)%nat -> sized M (f i)) ->
  is_weighted_history p k (fun i => val (f i)) e ->
  lmp (ewma p true a) = Z.of_nat (k + p) /\ length (lser (ewma p true a)) = n /\
  forall i, (k <= i < n)%nat -> exists v, nth_error (lser (ewma p true a)) i = Some v /\
    finite v /\ Rabs (val v - e i) <= 45 * (INR p + 1) * ulp1 * M.
Proof.
  intros HM Hp Hp46 Ha Hf He. destruct (ewm_mean_feeds true Hp Ha) as (L1 & L2 & L3). unfold ewma.
  split; [rewrite L1; f_equal; lia|]. split; [exact L2|]. intros i Hi. rewrite L3 by lia. destruct (Nat.ltb_spec i k); [lia|].
  eexists. split; [reflexivity|].
  assert (Hk : sized M (f k)) by (apply Hf; lia). destruct Hk as [Fk Bk].
  rewrite (@prep_fin_id _ Fk). pose proof (@p46 p Hp Hp46) as P. pose proof (@pu p Hp Hp46) as PU. pose proof ulp_small as U. pose proof (MP HM) as Mp.
  destruct (@span_err p Hp) as (Fal & Ral & Aal); [assert (2 ^ 46 < 2 ^ 53)%Z by reflexivity; lia|].
  set (al := alpha_span (vofZ (Z.of_nat p)) : float) in *. set (b := 2 / (INR p + 1)) in *.
  assert (Rb : 0 < b <= 1) by (apply alpha_range, Hp).
  assert (Ib : / b = (INR p + 1) / 2) by (unfold b; field; lra).
  assert (Hb : 90 * ulp1 <= b).
  { apply Rmult_le_reg_r with (INR p + 1); [lra|]. unfold b. unfold Rdiv. rewrite (Rmult_assoc 2), Rinv_l by lra. lra. }
  destruct (@adj_val_err al b M f k n Fal Ral Aal Rb Hb HM Hf (i - k)) as [F E]; [lia|].
  split; [exact F|]. replace (e i) with (wh (1 - b) (fun i => val (f i)) k (i - k)).
  - eapply Rle_trans; [exact E|]. rewrite Ib. lra.
  - rewrite (He i) by lia. unfold wh, ages, hist, b. replace (k + (i - k))%nat with i by lia. reflexivity.
Qed.
