(** Exponential averages in float64: the rounding errors do not add up, and equal prices. *)
From Coq Require Import ZArith Reals List Bool Lia Lra.
From Flocq Require Import Core IEEE754.BinarySingleNaN.
Require Flocq.Prop.Relative.
From Verif Require Import Num Series Line Spec RSpec LineFacts ScanFacts RFacts IndMA MAFacts EwmaFacts Float64 FloatSpec FloatFacts FloatLine FloatAvg
  PropFloatFacts PropMAFacts Running RunSpec RunFacts RunFloat RunMean.
Import ListNotations.
Local Open Scope R_scope.

Notation eta := (bpow radix2 (-1075)).
Lemma ulp_small : 0 < ulp1 <= / 1048576.
Proof. split; [apply ulp1_pos|]. change (/ 1048576) with (bpow radix2 (-20)). apply bpow_le. lia. Qed.
Lemma abs_le x b : Rabs x <= b -> - b <= x <= b.
Proof. intro H. apply Rabs_le_inv in H. lra. Qed.
Lemma abs_prod x y b c : Rabs x <= b -> Rabs y <= c -> Rabs (x * y) <= b * c.
Proof. intros. rewrite Rabs_mult. apply Rmult_le_compat; auto; apply Rabs_pos. Qed.

Lemma val_abs (w : float) : val (Babs w) = Rabs (val w). Proof. apply B2R_Babs. Qed.

(** ** one step *)
Section Step.
  Variables (al : float) (a M : R).
  Hypothesis Fal : finite al.
  Hypothesis Ral : 0 < val al <= 1.
  Hypothesis Aal : Rabs (val al - a) <= ulp1 * a.
  Hypothesis Ra : 0 < a <= 1.
  Hypothesis HM : 0 < M <= bpow radix2 1000.

  Lemma small_fits x : Rabs x <= 5 * M -> val (opp (big 1010)) <= x <= val (big 1010).
  Proof.
    intro H. apply big_limit. eapply Rle_trans; [exact H|]. unfold limit. replace 1010%Z with (10 + 1000)%Z by reflexivity.
    rewrite bpow_plus. change (bpow radix2 10) with 1024. lra.
  Qed.
  Lemma one_minus : finite (vsub v1 al) /\ 0 <= val (vsub v1 al) <= 1 /\ Rabs (val (vsub v1 al) - (1 - val al)) <= ulp1.
  Proof.
    destruct val1 as [F1 V1]. unfold v1. pose proof ulp_small as U.
    destruct (@sub_in (vofZ 0) (vofZ 1) (vofZ 1) al) as (V & F & B); [exact F1|exact Fal|rewrite V1, val0; lra|].
    split; [exact F|]. rewrite V1, val0 in B. split; [exact B|].
    rewrite V, V1. pose proof (rn_plus (vofZ 1) (opp al)) as E. rewrite val_opp, V1 in E. replace (1 + - val al) with (1 - val al) in E by ring.
    eapply Rle_trans; [exact E|]. rewrite Rabs_right by lra. nra.
  Qed.
  Lemma step_err (wa x : float) : finite wa -> finite x -> Rabs (val wa) <= 2 * M -> Rabs (val x) <= M ->
    let r := vdiv (vadd (vmul (vmul v1 (vsub v1 al)) wa) (vmul al x)) (vadd (vmul v1 (vsub v1 al)) al) in
    finite r /\ Rabs (val r - ((1 - a) * val wa + a * val x)) <= 32 * ulp1 * M + 4 * eta.
  Proof.
    intros Fw Fx Bw Bx. destruct one_minus as (Fs & Bs & Es). set (s0 := vsub v1 al) in *.
    pose proof ulp_small as U. pose proof (bpow_gt_0 radix2 (-1075)) as Et.
    destruct val1 as [F1 V1].
    assert (S1 : finite (vmul v1 s0) /\ val (vmul v1 s0) = val s0).
    { unfold v1. destruct (@mul_in (vofZ 0) (vofZ 1) (vofZ 1) s0) as (V & F & _); auto; [rewrite V1, val0; lra|].
      split; [exact F|]. rewrite V, V1, Rmult_1_l. apply rn_fmt, fmt_val. }
    destruct S1 as [F1s V1s]. set (s := vmul v1 s0) in *. rewrite <- V1s in Bs, Es. clearbody s. clear s0 Fs V1s.
    (* the products *)
    assert (P1' : Rabs (val s * val wa) <= 2 * M).
    { eapply Rle_trans; [apply (@abs_prod _ _ 1 (2 * M)); [rewrite Rabs_right; lra|exact Bw]|lra]. }
    destruct (@mul_in (opp (big 1010)) (big 1010) s wa) as (VP & FP & _); auto; [apply small_fits; lra|].
    pose proof (rn_err (val s * val wa)) as E1. rewrite <- VP in E1. set (P := vmul s wa) in *.
    assert (P2' : Rabs (val al * val x) <= M).
    { eapply Rle_trans; [apply (@abs_prod _ _ 1 M); [rewrite Rabs_right; lra|exact Bx]|lra]. }
    destruct (@mul_in (opp (big 1010)) (big 1010) al x) as (VQ & FQ & _); auto; [apply small_fits; lra|].
    pose proof (rn_err (val al * val x)) as E2. rewrite <- VQ in E2. set (Q := vmul al x) in *.
    assert (Hs : forall w : float, finite w -> Rabs (val w) <= 2 * M -> Rabs (val w) <= 2 * M) by auto. clear Hs.
    (* rounding a product of a number in [0,1] does not make it larger *)
    assert (SP : Rabs (val P) <= 2 * M).
    { unfold P. destruct (@mul_in (opp (Babs wa)) (Babs wa) s wa) as (_ & _ & B); auto.
      { rewrite val_opp, !val_abs. apply abs_le. rewrite Rabs_mult, (Rabs_right (val s)) by lra.
        pose proof (Rabs_pos (val wa)). nra. }
      rewrite val_opp, !val_abs in B. eapply Rle_trans; [apply Rabs_le; exact B|exact Bw]. }
    assert (SQ : Rabs (val Q) <= M).
    { unfold Q. destruct (@mul_in (opp (Babs x)) (Babs x) al x) as (_ & _ & B); auto.
      { rewrite val_opp, !val_abs. apply abs_le. rewrite Rabs_mult, (Rabs_right (val al)) by lra.
        pose proof (Rabs_pos (val x)). nra. }
      rewrite val_opp, !val_abs in B. eapply Rle_trans; [apply Rabs_le; exact B|exact Bx]. }
    clearbody P Q.
    (* their sum *)
    assert (T' : Rabs (val P + val Q) <= 3 * M) by (eapply Rle_trans; [apply Rabs_triang|lra]).
    destruct (@add_in (opp (big 1010)) (big 1010) P Q) as (VS & FS & _); auto; [apply small_fits; lra|].
    pose proof (rn_plus P Q) as E3. rewrite <- VS in E3. set (T := vadd P Q) in *. clearbody T.
    assert (ST : Rabs (val T) <= 4 * M).
    { replace (val T) with ((val T - (val P + val Q)) + (val P + val Q)) by ring. eapply Rle_trans; [apply Rabs_triang|]. nra. }
    (* the divisor *)
    assert (D' : Rabs (val s + val al - 1) <= ulp1) by (replace (val s + val al - 1) with (val s - (1 - val al)) by ring; exact Es).
    pose proof (@abs_le _ _ D') as D''.
    destruct (@add_in (vofZ 0) (vofZ 100) s al) as (VD & FD & BD); auto.
    { destruct val100 as [_ ->]. rewrite val0. lra. }
    pose proof (rn_plus s al) as E4. rewrite <- VD in E4. set (D := vadd s al) in *. clearbody D.
    assert (D1 : Rabs (val D - 1) <= 3 * ulp1).
    { replace (val D - 1) with ((val D - (val s + val al)) + (val s + val al - 1)) by ring. eapply Rle_trans; [apply Rabs_triang|].
      rewrite (Rabs_right (val s + val al)) in E4 by lra. nra. }
    pose proof (@abs_le _ _ D1) as D2.
    assert (DP : / 2 <= val D) by lra.
    set (q := val T / val D).
    assert (Eq : Rabs (q - val T) <= 13 * ulp1 * M).
    { replace (q - val T) with (val T * ((1 - val D) * / val D)) by (unfold q; field; lra).
      eapply Rle_trans; [apply abs_prod with (b := 4 * M) (c := (3 * ulp1) * (13 / 12))|nra]; [exact ST|].
      apply abs_prod; [rewrite Rabs_minus_sym; exact D1|].
      rewrite Rabs_right by (apply Rle_ge, Rlt_le, Rinv_0_lt_compat; lra).
      replace (13 / 12) with (/ (12 / 13)) by field. apply Rinv_le_contravar; lra. }
    assert (Sq : Rabs q <= 5 * M).
    { replace q with ((q - val T) + val T) by ring. eapply Rle_trans; [apply Rabs_triang|]. nra. }
    destruct (@div_in (opp (big 1010)) (big 1010) T D) as (VR & FR & _); auto; [lra|apply small_fits; exact Sq|].
    fold q in VR. pose proof (rn_err q) as E5. rewrite <- VR in E5. cbv zeta. set (r := vdiv T D) in *. clearbody r.
    split; [exact FR|].
    replace (val r - ((1 - a) * val wa + a * val x)) with
      ((val r - q) + (q - val T) + (val T - (val P + val Q)) + (val P - val s * val wa) + (val Q - val al * val x)
       + ((val s - (1 - val al)) * val wa + (val al - a) * (val x - val wa))) by ring.
    assert (X1 : Rabs ((val s - (1 - val al)) * val wa) <= ulp1 * (2 * M)) by (apply abs_prod; auto).
    assert (X2 : Rabs ((val al - a) * (val x - val wa)) <= ulp1 * (3 * M)).
    { apply abs_prod; [eapply Rle_trans; [exact Aal|nra]|]. unfold Rminus. eapply Rle_trans; [apply Rabs_triang|]. rewrite Rabs_Ropp. lra. }
    repeat (eapply Rle_trans; [apply Rabs_triang|]).
    assert (Y1 : ulp1 * Rabs q <= ulp1 * (5 * M)) by (apply Rmult_le_compat_l; lra).
    assert (Y2 : ulp1 * Rabs (val P + val Q) <= ulp1 * (3 * M)) by (apply Rmult_le_compat_l; lra).
    assert (Y3 : ulp1 * Rabs (val s * val wa) <= ulp1 * (2 * M)) by (apply Rmult_le_compat_l; lra).
    assert (Y4 : ulp1 * Rabs (val al * val x) <= ulp1 * M) by (apply Rmult_le_compat_l; lra).
    pose proof (Rabs_triang ((val s - (1 - val al)) * val wa) ((val al - a) * (val x - val wa))) as Tr.
    pose proof (Rabs_triang (val r - q + (q - val T) + (val T - (val P + val Q)) + (val P - val s * val wa)) (val Q - val al * val x)) as T1.
    pose proof (Rabs_triang (val r - q + (q - val T) + (val T - (val P + val Q))) (val P - val s * val wa)) as T2.
    pose proof (Rabs_triang (val r - q + (q - val T)) (val T - (val P + val Q))) as T3.
    pose proof (Rabs_triang (val r - q) (q - val T)) as T4.
    nra.
  Qed.
End Step.

(** ** the recursion *)
Lemma prep_fin_id x : finite x -> prep x = x.
Proof. intro F. unfold prep. destruct x; cbn in *; auto; discriminate. Qed.
Section Rec.
  Variables (al : float) (a M : R) (f : nat -> float) (j n : nat).
  Hypothesis Fal : finite al.
  Hypothesis Ral : 0 < val al <= 1.
  Hypothesis Aal : Rabs (val al - a) <= ulp1 * a.
  Hypothesis Ra : 0 < a <= 1.
  Hypothesis HM : bpow radix2 (-1000) <= M <= bpow radix2 1000.
  Hypothesis Ha : 33 * ulp1 <= a.
  Hypothesis Hf : forall i, (j < i < n)%nat -> finite (f i) /\ Rabs (val (f i)) <= M.
  Variables (w : float) (e0 : R).
  Hypothesis Fw : finite w.
  Hypothesis He0 : Rabs e0 <= M.
  Hypothesis Hw : Rabs (val w - e0) <= 33 * ulp1 * M / a.
  Let bnd := 33 * ulp1 * M / a.
  Lemma Mpos : 0 < M <= bpow radix2 1000.
  Proof. split; [|lra]. eapply Rlt_le_trans; [apply (bpow_gt_0 radix2 (-1000))|lra]. Qed.
  Lemma eta_small : 4 * eta <= ulp1 * M.
  Proof.
    apply Rle_trans with (ulp1 * bpow radix2 (-1000)); [|apply Rmult_le_compat_l; [pose proof ulp1_pos; lra|lra]].
    unfold ulp1. change 4 with (bpow radix2 2). rewrite <- !bpow_plus. apply bpow_le. lia.
  Qed.
  Lemma bnd_M : 0 <= bnd <= M.
  Proof.
    pose proof Mpos. pose proof ulp_small. unfold bnd. split.
    - apply Rle_mult_inv_pos; [nra|lra].
    - apply Rmult_le_reg_r with a; [lra|]. unfold Rdiv. rewrite Rmult_assoc, Rinv_l by lra. nra.
  Qed.
  Lemma bnd_step : (1 - a) * bnd + (32 * ulp1 * M + 4 * eta) <= bnd.
  Proof.
    pose proof eta_small. pose proof ulp_small. pose proof Mpos.
    assert (E : a * bnd = 33 * ulp1 * M) by (unfold bnd; field; lra). lra.
  Qed.
  Lemma ewma_err d : (j + d < n)%nat ->
    exists wa, scan_st (ewma_step al false) (fun i => prep (f i)) (S j) (w, v1) d = (wa, v1) /\
    finite wa /\ Rabs (es a e0 (fun i => val (f i)) j d) <= M /\
    Rabs (val wa - es a e0 (fun i => val (f i)) j d) <= bnd.
  Proof.
    induction d as [|d IH]; intro Hd.
    - exists w. repeat split; auto.
    - destruct IH as (wa & E & F & Be & Er); [lia|]. destruct (Hf (j + S d)) as [Fx Bx]; [lia|].
      set (x := f (j + S d)%nat) in *. set (e := es a e0 (fun i => val (f i)) j d) in *.
      assert (Bwa : Rabs (val wa) <= 2 * M).
      { replace (val wa) with ((val wa - e) + e) by ring. eapply Rle_trans; [apply Rabs_triang|]. pose proof bnd_M. lra. }
      assert (Bn : Rabs ((1 - a) * e + a * val x) <= M).
      { eapply Rle_trans; [apply Rabs_triang|]. rewrite !Rabs_mult, (Rabs_right (1 - a)), (Rabs_right a) by lra.
        pose proof (Rabs_pos e). pose proof (Rabs_pos (val x)). nra. }
      cbn [scan_st es]. rewrite E. replace (S j + d)%nat with (j + S d)%nat by lia. fold x e. rewrite (@prep_fin_id x Fx).
      unfold ewma_step. rewrite (finite_num _ F), (finite_num _ Fx). cbn [fst snd].
      destruct (veqb wa x) eqn:Q.
      + apply eqb_iff in Q; auto. exists wa. split; [reflexivity|]. split; [exact F|]. split; [exact Bn|].
        rewrite <- Q. replace (val wa - ((1 - a) * e + a * val wa)) with ((1 - a) * (val wa - e)) by ring.
        rewrite Rabs_mult, Rabs_right by lra. pose proof bnd_M. pose proof (Rabs_pos (val wa - e)). nra.
      + destruct (@step_err al a M Fal Ral Aal Ra Mpos wa x F Fx Bwa Bx) as [Fr Err]. cbv zeta in Fr, Err.
        eexists. split; [reflexivity|]. split; [exact Fr|]. split; [exact Bn|].
        match goal with |- Rabs (val ?r - _) <= _ => set (r0 := r) in * end.
        replace (val r0 - ((1 - a) * e + a * val x)) with ((val r0 - ((1 - a) * val wa + a * val x)) + (1 - a) * (val wa - e)) by ring.
        eapply Rle_trans; [apply Rabs_triang|]. rewrite (Rabs_mult (1 - a)), (Rabs_right (1 - a)) by lra.
        pose proof bnd_step. assert ((1 - a) * Rabs (val wa - e) <= (1 - a) * bnd) by (apply Rmult_le_compat_l; lra). lra.
  Qed.
  Lemma ewma_val_err d : (j + d < n)%nat ->
    finite (ewma_val al false w f j d) /\
    Rabs (val (ewma_val al false w f j d) - es a e0 (fun i => val (f i)) j d) <= bnd.
  Proof.
    intro Hd. destruct (ewma_err d Hd) as (wa & E & F & _ & Er).
    replace (ewma_val al false w f j d) with wa; [split; auto|].
    destruct d as [|d]; cbn [ewma_val scan_st] in *; [now injection E|].
    replace (j + S d)%nat with (S j + d)%nat by lia.
    destruct (scan_st (ewma_step al false) (fun i => prep (f i)) (S j) (w, v1) d) as [u o].
    set (x := prep (f (S j + d)%nat)) in *. clearbody x. unfold ewma_step in *.
    destruct (visnan u); cbn [fst snd] in *; [now injection E|]. destruct (visnan x); cbn [fst snd] in *; now injection E.
  Qed.
End Rec.

(** ** the smoothing factors *)
Lemma rn_rel x : bpow radix2 (-1000) <= Rabs x -> Rabs (rn x - x) <= ulp1 * Rabs x.
Proof.
  intro H. pose proof (Flocq.Prop.Relative.relative_error_N_FLT radix2 emin prec ltac:(reflexivity) (fun x => negb (Z.even x)) x) as E.
  unfold rn. rewrite fexp_flt. replace (/ 2 * bpow radix2 (- prec + 1)) with ulp1 in E; [apply E|].
  - eapply Rle_trans; [|exact H]. apply bpow_le. vm_compute. discriminate.
  - change (/ 2) with (bpow radix2 (-1)). rewrite <- bpow_plus. reflexivity.
Qed.
Lemma fmt_half z : (Z.abs z <= 2 ^ 53)%Z -> fmt (IZR z / 2).
Proof.
  intro H. destruct (Z.eq_dec (Z.abs z) (2 ^ 53)) as [E|E].
  - assert (Hz : (z = 2 * 2 ^ 52 \/ z = 2 * - 2 ^ 52)%Z) by (change (2 ^ 53)%Z with (2 * 2 ^ 52)%Z in E; lia).
    destruct Hz as [-> | ->]; rewrite mult_IZR;
    match goal with |- fmt (2 * ?x / 2) => replace (2 * x / 2) with x by field end; apply fmt_int; vm_compute; discriminate.
  - unfold fmt. rewrite fexp_flt. apply generic_format_FLT. exists (Float radix2 z (-1)).
    + unfold F2R; cbn [Fnum Fexp]. reflexivity.
    + cbn [Fnum]. change (Zpower radix2 prec) with (2 ^ 53)%Z. lia.
    + cbn [Fexp]. vm_compute. discriminate.
Qed.
Lemma inverse_err (D : float) d : finite D -> val D = d -> 1 <= d <= IZR (2 ^ 53) ->
  finite (vdiv v1 D) /\ 0 < val (vdiv v1 D) <= 1 /\ Rabs (val (vdiv v1 D) - / d) <= ulp1 * / d.
Proof.
  intros FD VD Hd. destruct val1 as [F1 V1]. unfold v1.
  assert (I : 0 < / d) by (apply Rinv_0_lt_compat; lra).
  assert (I1 : / d <= 1) by (rewrite <- Rinv_1; apply Rinv_le_contravar; lra).
  assert (J : bpow radix2 (-53) <= / d).
  { change (bpow radix2 (-53)) with (/ IZR (2 ^ 53)). apply Rinv_le_contravar; [lra|]. lra. }
  destruct (@div_in (vofZ 0) (vofZ 1) (vofZ 1) D) as (V & F & B); [exact F1|lra|rewrite V1, val0, VD; unfold Rdiv; lra|].
  rewrite V1, VD in V. unfold Rdiv in V. rewrite Rmult_1_l in V. rewrite V1 in B. split; [exact F|].
  assert (E : Rabs (rn (/ d) - / d) <= ulp1 * Rabs (/ d)).
  { apply rn_rel. rewrite Rabs_right by lra. eapply Rle_trans; [|exact J]. apply bpow_le. lia. }
  rewrite <- V in E. rewrite (Rabs_right (/ d)) in E by lra. split; [|exact E]. split; [|lra].
  pose proof ulp_small. apply abs_le in E. nra.
Qed.
Lemma span_err p : (1 <= p)%nat -> (Z.of_nat p < 2 ^ 53)%Z ->
  let al := alpha_span (vofZ (Z.of_nat p)) : float in
  finite al /\ 0 < val al <= 1 /\ Rabs (val al - 2 / (INR p + 1)) <= ulp1 * (2 / (INR p + 1)).
Proof.
  intros Hp Hp53. unfold alpha_span, alpha_com. set (z := Z.of_nat p) in *.
  assert (P1 : 1 <= INR p) by (apply (le_INR 1); lia).
  assert (PZ : INR p = IZR z) by apply INR_IZR_INZ.
  assert (P53 : IZR z + 1 <= IZR (2 ^ 53)) by (rewrite <- plus_IZR; apply IZR_le; lia).
  destruct val1 as [F1 V1]. destruct (fofZ_exact z) as [Fz Vz]; [lia|].
  assert (H2 : finite (vofZ 2) /\ val (vofZ 2) = 2) by (apply fofZ_exact; vm_compute; discriminate). destruct H2 as [F2 V2].
  destruct (fofZ_exact (2 ^ 53)) as [FB VB]; [reflexivity|].
  unfold v1 in *. set (one := vofZ 1 : float) in *. set (two := vofZ 2 : float) in *. set (B := vofZ (2 ^ 53) : float) in *.
  destruct (@sub_in (vofZ 0) B (vofZ z) one) as (Va & Fa & _); auto; [rewrite val0, Vz, V1, VB; lra|].
  rewrite Vz, V1 in Va. rewrite rn_fmt in Va by (rewrite <- minus_IZR; apply fmt_int; lia).
  set (A := vsub (vofZ z) one) in *.
  destruct (@div_in (vofZ 0) B A two) as (Vc & Fc & _); auto; [rewrite V2; lra|rewrite val0, Va, V2, VB; lra|].
  rewrite Va, V2 in Vc. rewrite rn_fmt in Vc by (rewrite <- minus_IZR; apply fmt_half; lia).
  set (C := vdiv A two) in *.
  destruct (@add_in (vofZ 0) B one C) as (Vd & Fd & _); auto; [rewrite val0, Vc, V1, VB; lra|].
  rewrite Vc, V1 in Vd. replace (1 + (IZR z - 1) / 2) with (IZR (z + 1) / 2) in Vd by (rewrite plus_IZR; field).
  rewrite rn_fmt in Vd by (apply fmt_half; lia). set (D := vadd one C) in *.
  replace (2 / (INR p + 1)) with (/ (IZR (z + 1) / 2)) by (rewrite PZ, plus_IZR; field; lra).
  apply inverse_err; auto. rewrite plus_IZR. lra.
Qed.
Lemma com_err p : (1 <= p)%nat -> (Z.of_nat p < 2 ^ 53)%Z ->
  let al := alpha_com (vofZ (Z.of_nat p - 1)) : float in
  finite al /\ 0 < val al <= 1 /\ Rabs (val al - 1 / INR p) <= ulp1 * (1 / INR p).
Proof.
  intros Hp Hp53. unfold alpha_com. set (z := Z.of_nat p) in *.
  assert (P1 : 1 <= INR p) by (apply (le_INR 1); lia).
  assert (PZ : INR p = IZR z) by apply INR_IZR_INZ.
  assert (P53 : IZR z <= IZR (2 ^ 53)) by (apply IZR_le; lia).
  destruct val1 as [F1 V1]. destruct (fofZ_exact (z - 1)) as [Fz Vz]; [lia|].
  destruct (fofZ_exact (2 ^ 53)) as [FB VB]; [reflexivity|].
  unfold v1 in *. set (one := vofZ 1 : float) in *. set (B := vofZ (2 ^ 53) : float) in *.
  destruct (@add_in (vofZ 0) B one (vofZ (z - 1))) as (Vd & Fd & _); auto; [rewrite val0, Vz, V1, VB, minus_IZR; lra|].
  rewrite Vz, V1 in Vd. replace (1 + IZR (z - 1)) with (IZR z) in Vd by (rewrite minus_IZR; ring).
  rewrite rn_fmt in Vd by (apply fmt_int; lia). set (D := vadd one (vofZ (z - 1))) in *.
  unfold Rdiv. rewrite !Rmult_1_l. rewrite PZ. apply inverse_err; auto. lra.
Qed.

(** ** the indicators *)
Set Implicit Arguments.
Lemma Rsum_fsum (f : nat -> float) l : Rsum (map (fun i => val (f i)) l) = fsum (map f l).
Proof. induction l as [|i l IH]; cbn; [reflexivity|]. unfold Rsum in IH. now rewrite IH. Qed.
Lemma mean_fsum (f : nat -> float) i p : Rmean (lastp (fun i => val (f i)) i p) = fsum (win f i p) / INR p.
Proof. unfold Rmean, lastp, win. rewrite Rsum_fsum, map_length, seq_length. reflexivity. Qed.
Lemma fabs_sized M l : Forall (sized M) l -> fabs l <= INR (length l) * M.
Proof.
  induction 1 as [|x l [_ Hx] _ IH]; [cbn; lra|]. cbn [fabs]. change (length (x :: l)) with (S (length l)). rewrite S_INR. lra.
Qed.
Lemma notnan_finite l : Forall finite l -> notnan l = l.
Proof. induction 1 as [|x l Hx _ IH]; [reflexivity|]. unfold notnan in *. cbn [filter]. now rewrite (finite_num _ Hx), IH. Qed.
Lemma sized_weak M l : Forall (sized M) l -> Forall finite l.
Proof. apply Forall_impl. now intros x []. Qed.
Lemma fsum_fabs l : Rabs (fsum l) <= fabs l.
Proof. induction l as [|x l IH]; cbn [fsum fabs]; [rewrite Rabs_R0; lra|]. eapply Rle_trans; [apply Rabs_triang|lra]. Qed.
Lemma gamma_double k : INR k * ulp1 <= / 2 -> gamma k <= 2 * (INR k * ulp1).
Proof.
  intro H. unfold gamma. set (t := INR k * ulp1) in *. assert (0 <= t) by (apply Rmult_le_pos; [apply pos_INR|pose proof ulp1_pos; lra]).
  apply Rmult_le_reg_r with (1 - t); [lra|]. unfold Rdiv. rewrite Rmult_assoc, Rinv_l by lra. nra.
Qed.
Section Ind.
  Variables (M : R) (p : nat).
  Hypothesis HM : bpow radix2 (-1000) <= M <= bpow radix2 900.
  Hypothesis Hp : (1 <= p)%nat.
  Hypothesis Hp46 : (Z.of_nat p <= 2 ^ 46)%Z.
  Lemma p46 : 1 <= INR p <= bpow radix2 46.
  Proof.
    split; [apply (le_INR 1); lia|]. change (bpow radix2 46) with (IZR (2 ^ 46)). rewrite INR_IZR_INZ. now apply IZR_le.
  Qed.
  Lemma pu : INR p * ulp1 <= / 128.
  Proof.
    pose proof p46. apply Rle_trans with (bpow radix2 46 * ulp1); [apply Rmult_le_compat_r; [pose proof ulp1_pos; lra|lra]|].
    unfold ulp1. rewrite <- bpow_plus. change (/ 128) with (bpow radix2 (-7)). apply bpow_le. lia.
  Qed.
  Lemma Mpos' : 0 < M <= bpow radix2 1000.
  Proof. split; [pose proof (bpow_gt_0 radix2 (-1000)); lra|]. eapply Rle_trans; [apply HM|]. apply bpow_le. lia. Qed.
  Lemma M1000 : bpow radix2 (-1000) <= M <= bpow radix2 1000.
  Proof. pose proof Mpos'. lra. Qed.
  Lemma eta_M : eta <= ulp1 * M.
  Proof. pose proof (@eta_small M M1000). pose proof (bpow_gt_0 radix2 (-1075)). lra. Qed.
  Lemma seed_err l : Forall (sized M) l -> length l = p ->
    finite (ser_mean l) /\ Rabs (fsum l / INR p) <= M /\
    Rabs (val (ser_mean l) - fsum l / INR p) <= (2 * INR p + 3) * ulp1 * M.
  Proof.
    intros Hl Ll. pose proof (sized_weak Hl) as Fl. pose proof p46 as P. pose proof pu as PU. pose proof ulp_small as U. pose proof Mpos' as MP.
    pose proof (fabs_sized Hl) as A. rewrite Ll in A. pose proof (fabs_nonneg l) as A0. pose proof (fsum_fabs l) as SA.
    assert (LM : INR p * M <= bpow radix2 1000).
    { apply Rle_trans with (bpow radix2 46 * bpow radix2 900); [apply Rmult_le_compat; lra|].
      rewrite <- bpow_plus. apply bpow_le. lia. }
    destruct (@vsum_err l Fl) as [F E]; [rewrite Ll; lra|lra|]. rewrite Ll in E.
    assert (Em : ser_mean l = vdiv (vsum l) (vofZ (Z.of_nat p))).
    { unfold ser_mean. rewrite notnan_finite by exact Fl. rewrite <- Ll. destruct l; [cbn in Ll; lia|reflexivity]. }
    assert (G2 : gamma p <= 2 * (INR p * ulp1)) by (apply gamma_double; lra).
    assert (G0 : 0 <= gamma p).
    { unfold gamma. apply Rle_mult_inv_pos; [nra|lra]. }
    destruct (@mean_err (vsum l) p (fsum l) (ser_mean l) (fabs l) p) as [Fm Er]; auto.
    - assert (2 ^ 46 < 2 ^ 53)%Z by reflexivity. lia.
    - replace (val (vsum l)) with ((val (vsum l) - fsum l) + fsum l) by ring. eapply Rle_trans; [apply Rabs_triang|].
      unfold limit. replace 1010%Z with (10 + 1000)%Z by reflexivity. rewrite bpow_plus. change (bpow radix2 10) with 1024.
      assert (gamma p * fabs l <= 1 * fabs l) by (apply Rmult_le_compat_r; lra). lra.
    - rewrite S_INR. lra.
    - split; [exact Fm|].
      assert (I : 0 < / INR p) by (apply Rinv_0_lt_compat; lra).
      assert (AP : fabs l / INR p <= M).
      { apply Rmult_le_reg_r with (INR p); [lra|]. unfold Rdiv. rewrite Rmult_assoc, Rinv_l by lra. lra. }
      split.
      + unfold Rdiv in *. rewrite Rabs_mult, (Rabs_right (/ INR p)) by lra.
        eapply Rle_trans; [apply Rmult_le_compat_r; [lra|exact SA]|exact AP].
      + eapply Rle_trans; [exact Er|].
        assert (G3 : gamma (S p) <= 2 * ((INR p + 1) * ulp1)) by (rewrite <- S_INR; apply gamma_double; rewrite S_INR; lra).
        assert (G4 : gamma (S p) * fabs l / INR p <= 2 * ((INR p + 1) * ulp1) * M).
        { unfold Rdiv in *. rewrite Rmult_assoc. apply Rmult_le_compat; auto.
          - unfold gamma. rewrite S_INR. apply Rle_mult_inv_pos; [nra|lra].
          - apply Rmult_le_pos; lra. }
        pose proof eta_M. lra.
  Qed.
  Variables (a : line float) (n k : nat) (f : nat -> float).
  Hypothesis Ha : feeds a n k f.
  Hypothesis Hf : forall i, (k <= i < n)%nat -> sized M (f i).
  Let x := fun i => val (f i).
  Lemma win_sized : (k + p <= n)%nat -> Forall (sized M) (win f (k + p - 1) p) /\ length (win f (k + p - 1) p) = p.
  Proof.
    intro Hn. split; [|apply win_length]. unfold win. apply Forall_forall. intros y Hy. apply in_map_iff in Hy.
    destruct Hy as (i & <- & Hi). apply in_seq in Hi. apply Hf. lia.
  Qed.
  Lemma es_unique al w q (e : nat -> R) : e q = w ->
    (forall i, (q <= i)%nat -> e (S i) = (1 - al) * e i + al * x (S i)) ->
    forall d, e (q + d)%nat = es al w x q d.
  Proof.
    intros H0 HS d. induction d as [|d IH]; [now rewrite Nat.add_0_r|]. cbn [es]. rewrite Nat.add_succ_r, HS, IH by lia. reflexivity.
  Qed.
  Lemma ema_close e : (k + p <= n)%nat -> is_ema p k x e ->
    exists y g, ema p a = Ok y /\ delivers y n (k + p - 1) g /\
    forall i, (k + p - 1 <= i < n)%nat -> finite (g i) /\ Rabs (val (g i) - e i) <= 17 * (INR p + 1) * ulp1 * M.
  Proof.
    intros Hn [He0 HeS]. destruct (ewm_span_delivers Ha Hp Hn) as (y & Hy & Dy). exists y. eexists. split; [exact Hy|]. split; [exact Dy|].
    intros i Hi. cbv beta. destruct (win_sized Hn) as [Ws Wl]. destruct (seed_err Ws Wl) as (Fs & Bs & Es).
    rewrite (@prep_fin_id _ Fs). pose proof p46 as P. pose proof pu as PU. pose proof ulp_small as U. pose proof Mpos' as MP.
    destruct (@span_err p Hp) as (Fal & Ral & Aal); [assert (2 ^ 46 < 2 ^ 53)%Z by reflexivity; lia|].
    set (al := alpha_span (vofZ (Z.of_nat p)) : float) in *. set (b := 2 / (INR p + 1)) in *.
    assert (Rb : 0 < b <= 1) by (apply alpha_range, Hp).
    assert (Eb : forall t, t / b = t * (INR p + 1) / 2) by (intro t; unfold b; field; lra).
    assert (Hb : 33 * ulp1 <= b).
    { apply Rmult_le_reg_r with (INR p + 1); [lra|]. unfold b. unfold Rdiv. rewrite (Rmult_assoc 2), Rinv_l by lra. lra. }
    replace (e i) with (e (k + p - 1 + (i - (k + p - 1)))%nat) by (f_equal; lia). set (d := (i - (k + p - 1))%nat). set (q := (k + p - 1)%nat) in *.
    rewrite (@es_unique b (Rmean (lastp x q p)) q e He0) by (intros; apply HeS; auto).
    assert (mf : Rmean (lastp x q p) = fsum (win f q p) / INR p) by apply mean_fsum. rewrite mf.
    destruct (@ewma_val_err al b M f q n Fal Ral Aal Rb M1000 Hb) with (w := ser_mean (win f q p)) (e0 := fsum (win f q p) / INR p) (d := d) as [F E]; auto.
    - intros j Hj. apply Hf. unfold q in Hj. lia.
    - eapply Rle_trans; [exact Es|]. rewrite Eb. pose proof (Rmult_le_pos ulp1 M ltac:(lra) ltac:(lra)). nra.
    - unfold d, q. lia.
    - split; [exact F|]. eapply Rle_trans; [exact E|]. rewrite Eb. pose proof (Rmult_le_pos ulp1 M ltac:(lra) ltac:(lra)). nra.
  Qed.
  Lemma smma_close e : (k + p <= n)%nat -> is_smma p k x e ->
    exists y g, smma p a = Ok y /\ delivers y n (k + p - 1) g /\
    forall i, (k + p - 1 <= i < n)%nat -> finite (g i) /\ Rabs (val (g i) - e i) <= 33 * INR p * ulp1 * M.
  Proof.
    intros Hn [He0 HeS]. destruct (ewm_com_delivers Ha Hp Hn) as (y & Hy & Dy). exists y. eexists. split; [exact Hy|]. split; [exact Dy|].
    intros i Hi. cbv beta. destruct (win_sized Hn) as [Ws Wl]. destruct (seed_err Ws Wl) as (Fs & Bs & Es).
    rewrite (@prep_fin_id _ Fs). pose proof p46 as P. pose proof pu as PU. pose proof ulp_small as U. pose proof Mpos' as MP.
    destruct (@com_err p Hp) as (Fal & Ral & Aal); [assert (2 ^ 46 < 2 ^ 53)%Z by reflexivity; lia|].
    set (al := alpha_com (vofZ (Z.of_nat p - 1)) : float) in *. set (b := 1 / INR p) in *.
    assert (Rb : 0 < b <= 1).
    { unfold b, Rdiv. rewrite Rmult_1_l. split; [apply Rinv_0_lt_compat; lra|]. rewrite <- Rinv_1. apply Rinv_le_contravar; lra. }
    assert (Eb : forall t, t / b = t * INR p) by (intro t; unfold b; field; lra).
    assert (Hb : 33 * ulp1 <= b).
    { apply Rmult_le_reg_r with (INR p); [lra|]. unfold b. unfold Rdiv. rewrite (Rmult_assoc 1), Rinv_l by lra. lra. }
    replace (e i) with (e (k + p - 1 + (i - (k + p - 1)))%nat) by (f_equal; lia). set (d := (i - (k + p - 1))%nat). set (q := (k + p - 1)%nat) in *.
    rewrite (@es_unique b (Rmean (lastp x q p)) q e He0) by (intros; rewrite HeS by auto; unfold b; field; lra).
    assert (mf : Rmean (lastp x q p) = fsum (win f q p) / INR p) by apply mean_fsum. rewrite mf.
    destruct (@ewma_val_err al b M f q n Fal Ral Aal Rb M1000 Hb) with (w := ser_mean (win f q p)) (e0 := fsum (win f q p) / INR p) (d := d) as [F E]; auto.
    - intros j Hj. apply Hf. unfold q in Hj. lia.
    - eapply Rle_trans; [exact Es|]. rewrite Eb. pose proof (Rmult_le_pos ulp1 M ltac:(lra) ltac:(lra)). nra.
    - unfold d, q. lia.
    - split; [exact F|]. eapply Rle_trans; [exact E|]. rewrite Eb. pose proof (Rmult_le_pos ulp1 M ltac:(lra) ltac:(lra)). nra.
  Qed.
  Lemma ewma_close e : is_ewm p k x e ->
    lmp (ewma p false a) = Z.of_nat (k + p) /\ length (lser (ewma p false a)) = n /\
    forall i, (k <= i < n)%nat -> exists v, nth_error (lser (ewma p false a)) i = Some v /\
      finite v /\ Rabs (val v - e i) <= 17 * (INR p + 1) * ulp1 * M.
  Proof.
    intros [He0 HeS]. destruct (ewm_mean_feeds false Hp Ha) as (L1 & L2 & L3). unfold ewma.
    split; [rewrite L1; f_equal; lia|]. split; [exact L2|]. intros i Hi. rewrite L3 by lia. destruct (Nat.ltb_spec i k); [lia|].
    eexists. split; [reflexivity|].
    assert (Hk : sized M (f k)) by (apply Hf; lia). destruct Hk as [Fk Bk].
    rewrite (@prep_fin_id _ Fk). pose proof p46 as P. pose proof pu as PU. pose proof ulp_small as U. pose proof Mpos' as MP.
    destruct (@span_err p Hp) as (Fal & Ral & Aal); [assert (2 ^ 46 < 2 ^ 53)%Z by reflexivity; lia|].
    set (al := alpha_span (vofZ (Z.of_nat p)) : float) in *. set (b := 2 / (INR p + 1)) in *.
    assert (Rb : 0 < b <= 1) by (apply alpha_range, Hp).
    assert (Eb : forall t, t / b = t * (INR p + 1) / 2) by (intro t; unfold b; field; lra).
    assert (Hb : 33 * ulp1 <= b).
    { apply Rmult_le_reg_r with (INR p + 1); [lra|]. unfold b. unfold Rdiv. rewrite (Rmult_assoc 2), Rinv_l by lra. lra. }
    replace (e i) with (e (k + (i - k))%nat) by (f_equal; lia). set (d := (i - k)%nat).
    rewrite (@es_unique b (x k) k e He0) by (intros; apply HeS; auto).
    destruct (@ewma_val_err al b M f k n Fal Ral Aal Rb M1000 Hb) with (w := f k) (e0 := x k) (d := d) as [F E]; auto.
    - intros j Hj. apply Hf. lia.
    - unfold x. rewrite Rminus_diag_eq by reflexivity. rewrite Rabs_R0, Eb. pose proof (Rmult_le_pos ulp1 M ltac:(lra) ltac:(lra)). nra.
    - unfold d. lia.
    - split; [exact F|]. eapply Rle_trans; [exact E|]. rewrite Eb. pose proof (Rmult_le_pos ulp1 M ltac:(lra) ltac:(lra)). nra.
  Qed.
End Ind.
Unset Implicit Arguments.

(** ** equal prices *)
Lemma eqb_refl x : finite x -> veqb x x = true.
Proof. intro F. apply eqb_iff; auto. Qed.
Lemma ewma_st_const al adj c f j : finite c -> forall d, (forall i, (j < i <= j + d)%nat -> f i = c) ->
  exists o, scan_st (ewma_step al adj) (fun i => prep (f i)) (S j) (c, v1) d = (c, o).
Proof.
  intros Fc. induction d as [|d IH]; intro H; [now exists v1|]. destruct IH as [o E]; [intros; apply H; lia|].
  cbn [scan_st]. rewrite E, (H (S j + d)%nat) by lia. rewrite (@prep_fin_id c Fc). unfold ewma_step.
  rewrite (finite_num _ Fc), (eqb_refl _ Fc). cbn [fst]. eexists. reflexivity.
Qed.
Lemma ewma_val_const al adj c f j d : finite c -> (forall i, (j < i <= j + d)%nat -> f i = c) -> ewma_val al adj c f j d = c.
Proof.
  intros Fc H. destruct d as [|d]; [reflexivity|]. destruct (ewma_st_const al adj c f j Fc d) as [o E]; [intros; apply H; lia|].
  cbn [ewma_val]. rewrite E, H by lia. rewrite (@prep_fin_id c Fc). unfold ewma_step.
  now rewrite (finite_num _ Fc), (eqb_refl _ Fc).
Qed.
Lemma ewma_const_exact p adj (a : line float) n k f c : (1 <= p)%nat -> feeds a n k f -> finite c ->
  (forall i, (k <= i < n)%nat -> f i = c) ->
  forall i, (k <= i < n)%nat -> nth_error (lser (ewma p adj a)) i = Some c.
Proof.
  intros Hp Ha Fc H i Hi. destruct (ewm_mean_feeds adj Hp Ha) as (_ & _ & L3). unfold ewma. rewrite L3 by lia.
  destruct (Nat.ltb_spec i k); [lia|]. f_equal. rewrite (H k) by lia. rewrite (@prep_fin_id c Fc).
  apply ewma_val_const; auto. intros j Hj. apply H. lia.
Qed.
(** a value that the step reproduces stays for ever *)
Lemma ewma_st_fixed al c w f j : finite c -> ewma_step al false (w, v1) c = ((w, v1), w) ->
  forall d, (forall i, (j < i <= j + d)%nat -> f i = c) ->
  scan_st (ewma_step al false) (fun i => prep (f i)) (S j) (w, v1) d = (w, v1).
Proof.
  intros Fc Hw. induction d as [|d IH]; intro H; [reflexivity|]. cbn [scan_st]. rewrite IH by (intros; apply H; lia).
  rewrite H by lia. rewrite (@prep_fin_id c Fc), Hw. reflexivity.
Qed.
Lemma ewma_val_fixed al c w f j d : finite c -> ewma_step al false (w, v1) c = ((w, v1), w) ->
  (forall i, (j < i <= j + d)%nat -> f i = c) -> ewma_val al false w f j d = w.
Proof.
  intros Fc Hw H. destruct d as [|d]; [reflexivity|]. cbn [ewma_val]. rewrite (ewma_st_fixed al c w f j Fc Hw d) by (intros; apply H; lia).
  rewrite H by lia. now rewrite (@prep_fin_id c Fc), Hw.
Qed.
Lemma raw_const c n : feeds (raw (repeat c n)) n 0 (fun _ : nat => c : float).
Proof.
  pose proof (raw_feeds (repeat c n) c) as (A & B & C). rewrite repeat_length in *. repeat split; auto.
  intros i Hi. rewrite C by exact Hi. now rewrite nth_repeat.
Qed.
Definition c011 : float := vofQ (QArith_base.Qmake 11 100).
Definition w011 : float := ser_mean (repeat c011 5).
Lemma w011_above : finite w011 /\ val c011 < val w011.
Proof.
  assert (F : finite w011) by (vm_compute; reflexivity). split; [exact F|]. apply ltb_iff; [vm_compute; reflexivity|exact F|vm_compute; reflexivity].
Qed.
Lemma w011_step : ewma_step (alpha_span (vofZ 5)) false (w011, v1) c011 = ((w011, v1), w011).
Proof.
  set (r := ewma_step (alpha_span (vofZ 5)) false (w011, v1) c011).
  assert (E1 : B2SF (snd r) = B2SF w011) by (vm_compute; reflexivity). apply B2SF_inj in E1.
  assert (E2 : B2SF (fst (fst r)) = B2SF w011) by (vm_compute; reflexivity). apply B2SF_inj in E2.
  assert (E3 : B2SF (snd (fst r)) = B2SF v1) by (vm_compute; reflexivity). apply B2SF_inj in E3.
  destruct r as [[u o] v]. cbn [fst snd] in *. now subst.
Qed.
Lemma ema_const_stuck n : (5 <= n)%nat ->
  exists y, ema 5%nat (raw (repeat c011 n)) = Ok y /\ delivers y n 4 (fun _ => w011).
Proof.
  intro Hn. pose proof (raw_const c011 n) as Ha.
  destruct (ewm_span_delivers (p := 5) Ha) as (y & Hy & Dy); [lia|lia|]. exists y. split; [exact Hy|].
  eapply delivers_ext; [|exact Dy]. intros i Hi. cbv beta.
  assert (E : win (fun _ => c011) (0 + 5 - 1) 5 = repeat c011 5) by reflexivity. rewrite E. fold w011.
  destruct w011_above as [F _]. rewrite (@prep_fin_id _ F). change (vofZ (Z.of_nat 5)) with (vofZ 5 : float).
  assert (Fc : finite c011) by (vm_compute; reflexivity). pose proof w011_step as W.
  generalize dependent (alpha_span (vofZ 5) : float). intros al W. clear - Fc W. generalize dependent w011. intros w W.
  apply ewma_val_fixed with (c := c011); auto.
Qed.
Lemma ema_const_off n : (5 <= n)%nat -> exists y g, ema 5%nat (raw (repeat c011 n)) = Ok y /\ delivers y n 4 g /\
  forall i, (4 <= i < n)%nat -> finite (g i) /\ val c011 < val (g i).
Proof.
  intro Hn. destruct (ema_const_stuck n Hn) as (y & E & D). exists y, (fun _ => w011). split; [exact E|]. split; [exact D|].
  intros i _. exact w011_above.
Qed.
Lemma ema_const_close M p (a : line float) n k c :
  bpow radix2 (-1000) <= M <= bpow radix2 900 -> (1 <= p)%nat -> (Z.of_nat p <= 2 ^ 46)%Z ->
  feeds a n k (fun _ => c) -> sized M c -> (k + p <= n)%nat ->
  exists y g, ema p a = Ok y /\ delivers y n (k + p - 1) g /\
  forall i, (k + p - 1 <= i < n)%nat -> finite (g i) /\ Rabs (val (g i) - val c) <= 17 * (INR p + 1) * ulp1 * M.
Proof.
  intros HM Hp Hp46 Ha Hc Hn. apply (@ema_close M p HM Hp Hp46 a n k (fun _ => c) Ha ltac:(auto) (fun _ => val c) Hn).
  split; [|intros; ring]. symmetry. apply PropMAFacts.Rmean_const.
  - unfold lastp, win. destruct p; [lia|discriminate].
  - intros v Hv. unfold lastp, win in Hv. apply in_map_iff in Hv. destruct Hv as (j & <- & _). reflexivity.
Qed.
