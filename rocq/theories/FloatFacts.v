(** Facts about the operations on doubles. *)
From Coq Require Import ZArith Reals List Bool Lia Lra Psatz.
From Flocq Require Import Core IEEE754.BinarySingleNaN.
From Flocq.Prop Require Import Plus_error Relative.
From Verif Require Import Num Series Line Float64 FloatSpec.
Import ListNotations.
Set Implicit Arguments.
Local Open Scope R_scope.

Notation fexp64 := (SpecFloat.fexp prec emax).
Definition rn (x : R) : R := round radix2 fexp64 ZnearestE x.
Definition fmt (x : R) : Prop := generic_format radix2 fexp64 x.
Lemma fmt_val x : fmt (val x).
Proof. apply generic_format_B2R. Qed.
Lemma valid64 : Valid_exp fexp64.
Proof. apply (fexp_correct prec emax). reflexivity. Qed.
Global Existing Instance valid64.
Lemma rn_le x y : x <= y -> rn x <= rn y.
Proof. apply round_le; auto with typeclass_instances. Qed.
Lemma rn_fmt x : fmt x -> rn x = x.
Proof. apply round_generic; auto with typeclass_instances. Qed.
Lemma rn_ge lo x : fmt lo -> lo <= x -> lo <= rn x.
Proof. intros F H. rewrite <- (rn_fmt F). now apply rn_le. Qed.
Lemma rn_le_fmt hi x : fmt hi -> x <= hi -> rn x <= hi.
Proof. intros F H. rewrite <- (rn_fmt F). now apply rn_le. Qed.

Lemma val_lt_emax x : Rabs (val x) < bpow radix2 emax.
Proof. apply abs_B2R_lt_emax. Qed.
(** a number rounded between two doubles does not overflow *)
Lemma no_overflow (l h : float) x : val l <= x <= val h -> Rlt_bool (Rabs (rn x)) (bpow radix2 emax) = true.
Proof.
  intros [H1 H2]. apply Rlt_bool_true.
  pose proof (rn_ge (fmt_val l) H1). pose proof (rn_le_fmt (fmt_val h) H2).
  pose proof (val_lt_emax l) as L. pose proof (val_lt_emax h) as Hh. unfold Rabs in *.
  destruct (Rcase_abs (rn x)), (Rcase_abs (val l)), (Rcase_abs (val h)); lra.
Qed.
Lemma rn_between (l h : float) x : val l <= x <= val h -> val l <= rn x <= val h.
Proof. intros [H1 H2]. split; [apply rn_ge|apply rn_le_fmt]; auto using fmt_val. Qed.

Lemma add_in (l h x y : float) : finite x -> finite y -> val l <= val x + val y <= val h ->
  val (vadd x y) = rn (val x + val y) /\ finite (vadd x y) /\ val l <= val (vadd x y) <= val h.
Proof.
  intros Fx Fy H. pose proof (Bplus_correct prec emax _ _ mode_NE x y Fx Fy) as C.
  fold (val x) (val y) in C. change (round radix2 fexp64 (round_mode mode_NE)) with rn in C.
  rewrite (@no_overflow l h _ H) in C. destruct C as (E & F & _). change (val (vadd x y)) with (B2R (Bplus mode_NE x y)).
  rewrite E. split; [reflexivity|]. split; [exact F|]. now apply rn_between.
Qed.
Lemma sub_in (l h x y : float) : finite x -> finite y -> val l <= val x - val y <= val h ->
  val (vsub x y) = rn (val x - val y) /\ finite (vsub x y) /\ val l <= val (vsub x y) <= val h.
Proof.
  intros Fx Fy H. pose proof (Bminus_correct prec emax _ _ mode_NE x y Fx Fy) as C.
  fold (val x) (val y) in C. change (round radix2 fexp64 (round_mode mode_NE)) with rn in C.
  rewrite (@no_overflow l h _ H) in C. destruct C as (E & F & _). change (val (vsub x y)) with (B2R (Bminus mode_NE x y)).
  rewrite E. split; [reflexivity|]. split; [exact F|]. now apply rn_between.
Qed.
Lemma mul_in (l h x y : float) : finite x -> finite y -> val l <= val x * val y <= val h ->
  val (vmul x y) = rn (val x * val y) /\ finite (vmul x y) /\ val l <= val (vmul x y) <= val h.
Proof.
  intros Fx Fy H. pose proof (Bmult_correct prec emax _ _ mode_NE x y) as C.
  fold (val x) (val y) in C. change (round radix2 fexp64 (round_mode mode_NE)) with rn in C.
  rewrite (@no_overflow l h _ H) in C. destruct C as (E & F & _). change (val (vmul x y)) with (B2R (Bmult mode_NE x y)).
  rewrite E. split; [reflexivity|]. unfold finite in *. split; [|now apply rn_between].
  cbn [vmul NumF]. rewrite F, Fx, Fy. reflexivity.
Qed.
Lemma div_in (l h x y : float) : finite x -> val y <> 0 -> val l <= val x / val y <= val h ->
  val (vdiv x y) = rn (val x / val y) /\ finite (vdiv x y) /\ val l <= val (vdiv x y) <= val h.
Proof.
  intros Fx Fy H. pose proof (Bdiv_correct prec emax _ _ mode_NE x y Fy) as C.
  fold (val x) (val y) in C. change (round radix2 fexp64 (round_mode mode_NE)) with rn in C.
  rewrite (@no_overflow l h _ H) in C. destruct C as (E & F & _). change (val (vdiv x y)) with (B2R (Bdiv mode_NE x y)).
  rewrite E. split; [reflexivity|]. unfold finite in *. split; [|now apply rn_between].
  cbn [vdiv NumF]. now rewrite F, Fx.
Qed.

(** integers up to 2^53 are exact *)
Lemma fmt_int z : (Z.abs z <= 2 ^ 53)%Z -> fmt (IZR z).
Proof.
  intro H. apply generic_format_FLT with (emin := (3 - emax - prec)%Z).
  destruct (Z.eq_dec (Z.abs z) (2 ^ 53)) as [E|E].
  - exists (Float radix2 (Z.sgn z) 53); cbn [Fnum Fexp].
    + unfold F2R. cbn [Fnum Fexp]. change (bpow radix2 53) with (IZR (2 ^ 53)). rewrite <- mult_IZR. f_equal.
      rewrite <- E. rewrite Z.mul_comm. now rewrite Z.abs_sgn.
    + destruct z; cbn; unfold prec; lia.
    + unfold emax, prec. lia.
  - exists (Float radix2 z 0); cbn [Fnum Fexp].
    + unfold F2R. cbn [Fnum Fexp bpow]. now rewrite Rmult_1_r.
    + unfold prec. change (radix_val radix2) with 2%Z. lia.
    + unfold emax, prec. lia.
Qed.
Lemma fofZ_exact z : (Z.abs z <= 2 ^ 53)%Z -> finite (vofZ z : float) /\ val (vofZ z) = IZR z.
Proof.
  intro H. pose proof (binary_normalize_correct prec emax _ _ mode_NE z 0 false) as C.
  cbv zeta in C. change (round radix2 fexp64 (round_mode mode_NE)) with rn in C.
  assert (E : F2R (Float radix2 z 0) = IZR z) by (unfold F2R; cbn [Fnum Fexp bpow]; now rewrite Rmult_1_r).
  rewrite E, (rn_fmt (fmt_int _ H)) in C.
  rewrite Rlt_bool_true in C.
  - destruct C as (C1 & C2 & _). split; assumption.
  - rewrite <- abs_IZR. apply Rle_lt_trans with (IZR (2 ^ 53)); [now apply IZR_le|].
    change (IZR (2 ^ 53)) with (bpow radix2 53). apply bpow_lt. reflexivity.
Qed.
Lemma fofZ_sign z : (0 <= z)%Z -> unsigned (vofZ z).
Proof.
  intro H. destruct z as [|p|p]; [right; reflexivity| |lia]. cbn [vofZ NumF fofZ]. unfold fofZ.
  pose proof (binary_normalize_correct prec emax _ _ mode_NE (Z.pos p) 0 false) as C. cbv zeta in C.
  assert (G : 0 < F2R (Float radix2 (Z.pos p) 0)) by now apply F2R_gt_0.
  destruct (Rlt_bool _ _).
  - destruct C as (_ & _ & C). right. rewrite C. now rewrite Rcompare_Gt.
  - rewrite Rlt_bool_false in C by lra. right.
    destruct (binary_normalize prec emax _ _ mode_NE (Z.pos p) 0 false); cbn in C |- *; try discriminate; congruence.
Qed.

Lemma val0 : val (vofZ 0) = 0. Proof. reflexivity. Qed.
Lemma val1 : finite (vofZ 1) /\ val (vofZ 1) = 1. Proof. apply fofZ_exact. vm_compute. discriminate. Qed.
Lemma val100 : finite (vofZ 100) /\ val (vofZ 100) = 100. Proof. apply fofZ_exact. vm_compute. discriminate. Qed.

(** ** Signs *)
Lemma nonneg_iff x : nonneg x <-> missing x \/ x = B754_infinity false \/ (finite x /\ 0 <= val x).
Proof.
  unfold missing, finite, val. destruct x as [s|s| |s m e H]; cbn.
  - split; [intros _; right; right; split; [reflexivity|lra]|trivial].
  - split; [intros ->; auto|]. intros [E|[E|[E _]]]; try discriminate. congruence.
  - split; auto.
  - split.
    + intros ->. right; right. split; [reflexivity|]. apply F2R_ge_0. cbn. lia.
    + intros [E|[E|[_ E]]]; try discriminate. destruct s; [|reflexivity].
      exfalso. assert (F2R (Float radix2 (cond_Zopp true (Z.pos m)) e) < 0) by (apply F2R_lt_0; cbn; lia). lra.
Qed.
Lemma sign_pos x : 0 < val x -> Bsign x = false.
Proof.
  unfold val. destruct x as [s|s| |s m e H]; cbn; try (intro; lra). destruct s; [|reflexivity].
  intro E. assert (F2R (Float radix2 (cond_Zopp true (Z.pos m)) e) < 0) by (apply F2R_lt_0; cbn; lia). lra.
Qed.
Lemma overflow_inf (x : float) s : B2SF x = binary_overflow prec emax mode_NE s -> x = B754_infinity s.
Proof. destruct x; cbn; intro E; try discriminate. now inversion E. Qed.

Lemma finite_nonneg x : finite x -> 0 <= val x -> nonneg x.
Proof. intros. apply nonneg_iff. auto. Qed.
Lemma rn_nonneg x : 0 <= x -> 0 <= rn x.
Proof. intro. apply rn_ge; [apply generic_format_0|assumption]. Qed.
Lemma rn_0 : rn 0 = 0.
Proof. apply rn_fmt, generic_format_0. Qed.
Lemma bpow_pos_emax : 0 < bpow radix2 emax. Proof. apply bpow_gt_0. Qed.

Lemma nonneg_add x y : nonneg x -> nonneg y -> nonneg (vadd x y).
Proof.
  intros Hx Hy. rewrite nonneg_iff in Hx, Hy.
  destruct Hx as [Mx|[->|[Fx Vx]]]; [destruct x; cbn in *; try discriminate; exact I| |].
  { destruct Hy as [My|[->|[Fy _]]]; [destruct y; try discriminate My; exact I|reflexivity|].
    destruct y; try discriminate Fy; reflexivity. }
  destruct Hy as [My|[->|[Fy Vy]]].
  { destruct y; try discriminate My. destruct x; exact I. }
  { destruct x; try discriminate Fx; reflexivity. }
  pose proof (Bplus_correct prec emax _ _ mode_NE x y Fx Fy) as C. fold (val x) (val y) in C.
  change (round radix2 fexp64 (round_mode mode_NE)) with rn in C.
  destruct (Rlt_bool_spec (Rabs (rn (val x + val y))) (bpow radix2 emax)) as [L|L].
  - destruct C as (E & F & _). apply finite_nonneg; [exact F|]. unfold val at 1. cbn [vadd NumF]. rewrite E.
    apply rn_nonneg. lra.
  - destruct C as (E & S). apply overflow_inf in E. cbn [vadd NumF]. rewrite E. cbn.
    destruct (Req_dec (val x) 0) as [Z|Z]; [destruct (Req_dec (val y) 0) as [Z'|Z']|].
    + exfalso. rewrite Z, Z', Rplus_0_r, rn_0, Rabs_R0 in L. pose proof bpow_pos_emax. lra.
    + rewrite S. apply sign_pos. lra.
    + apply sign_pos. lra.
Qed.
Lemma nonneg_mul x y : nonneg x -> nonneg y -> nonneg (vmul x y).
Proof.
  intros Hx Hy.
  destruct x as [sx|sx| |sx mx ex Ex], y as [sy|sy| |sy my ey Ey]; try exact I;
    try (cbn in *; subst; reflexivity).
  set (x := B754_finite sx mx ex Ex) in *. set (y := B754_finite sy my ey Ey) in *.
  assert (Vx : 0 <= val x) by (apply nonneg_iff in Hx; destruct Hx as [H|[H|[_ H]]]; try discriminate; exact H).
  assert (Vy : 0 <= val y) by (apply nonneg_iff in Hy; destruct Hy as [H|[H|[_ H]]]; try discriminate; exact H).
  pose proof (Bmult_correct prec emax _ _ mode_NE x y) as C. fold (val x) (val y) in C.
  change (round radix2 fexp64 (round_mode mode_NE)) with rn in C.
  destruct (Rlt_bool_spec (Rabs (rn (val x * val y))) (bpow radix2 emax)) as [L|L].
  - destruct C as (E & F & _). apply finite_nonneg; [exact F|]. unfold val at 1. cbn [vmul NumF]. rewrite E.
    apply rn_nonneg. now apply Rmult_le_pos.
  - apply overflow_inf in C. cbn [vmul NumF]. rewrite C. cbn in Hx, Hy |- *. now subst.
Qed.
Lemma nonneg_div x y : nonneg x -> unsigned y -> nonneg (vdiv x y).
Proof.
  intros Hx Hy.
  destruct x as [sx|sx| |sx mx ex Ex], y as [sy|sy| |sy my ey Ey]; try exact I;
    try (destruct Hy as [Hy|Hy]; [discriminate|]; cbn in *; subst; reflexivity).
  destruct Hy as [Hy|Hy]; [discriminate|].
  set (x := B754_finite sx mx ex Ex) in *. set (y := B754_finite sy my ey Ey) in *.
  assert (Vx : 0 <= val x) by (apply nonneg_iff in Hx; destruct Hx as [H|[H|[_ H]]]; try discriminate; exact H).
  assert (Vy : 0 < val y) by (cbn in Hy; subst y sy; apply F2R_gt_0; reflexivity).
  pose proof (Bdiv_correct prec emax _ _ mode_NE x y) as C. fold (val x) (val y) in C.
  specialize (C ltac:(lra)).
  change (round radix2 fexp64 (round_mode mode_NE)) with rn in C.
  destruct (Rlt_bool_spec (Rabs (rn (val x / val y))) (bpow radix2 emax)) as [L|L].
  - destruct C as (E & F & _). apply finite_nonneg; [exact F|]. unfold val at 1. cbn [vdiv NumF]. rewrite E.
    apply rn_nonneg. now apply Rle_mult_inv_pos.
  - apply overflow_inf in C. cbn [vdiv NumF]. rewrite C. cbn in Hx, Hy |- *. now subst.
Qed.

Lemma nonneg_0 : nonneg v0. Proof. exact I. Qed.
Lemma nonneg_nan : nonneg vnan. Proof. exact I. Qed.
Lemma unsigned_nan : unsigned vnan. Proof. now left. Qed.
Lemma unsigned_nonneg x : unsigned x -> nonneg x.
Proof. intros [H|H]; destruct x; cbn in *; try discriminate; auto. Qed.

(** ** 100 - 100 / (1 + r) *)
Lemma strength_pt r : nonneg r \/ r = B754_infinity true ->
  nan_or_within 0 100 (vsub (vofZ 100) (vdiv (vofZ 100) (vadd v1 r))).
Proof.
  assert (I100 : nan_or_within 0 100 (vsub (vofZ 100) (vdiv (vofZ 100) (B754_infinity false)))
               /\ nan_or_within 0 100 (vsub (vofZ 100) (vdiv (vofZ 100) (B754_infinity true)))).
  { split; right.
    - replace (vsub (vofZ 100) (vdiv (vofZ 100) (B754_infinity false))) with (vofZ 100 : float) by (apply B2SF_inj; vm_compute; reflexivity).
      destruct val100 as [F E]. split; [exact F|]. rewrite E. lra.
    - replace (vsub (vofZ 100) (vdiv (vofZ 100) (B754_infinity true))) with (vofZ 100 : float) by (apply B2SF_inj; vm_compute; reflexivity).
      destruct val100 as [F E]. split; [exact F|]. rewrite E. lra. }
  destruct I100 as [IP IM].
  intros [H|H]; [|subst; exact IM]. apply nonneg_iff in H. destruct H as [M|[->|[F V]]].
  - left. destruct r; try discriminate M. reflexivity.
  - exact IP.
  - destruct val1 as [F1 V1], val100 as [F100 V100].
    unfold v1. set (one := vofZ 1 : float) in *.
    pose proof (Bplus_correct prec emax _ _ mode_NE one r F1 F) as C. fold (val one) (val r) in C.
    change (round radix2 fexp64 (round_mode mode_NE)) with rn in C. rewrite V1 in C.
    change (Bplus mode_NE one r) with (vadd one r) in C.
    destruct (Rlt_bool_spec (Rabs (rn (1 + val r))) (bpow radix2 emax)) as [L|L].
    + destruct C as (E & Fu & _). set (u := vadd one r) in *. fold (val u) in E.
      assert (U : 1 <= val u).
      { rewrite E. apply rn_ge; [rewrite <- V1; apply fmt_val|lra]. }
      assert (D : val (vofZ 0) <= val (vofZ 100) / val u <= val (vofZ 100)).
      { rewrite val0, V100. split; [apply Rle_mult_inv_pos; lra|].
        apply Rmult_le_reg_r with (val u); [lra|]. unfold Rdiv. rewrite Rmult_assoc, Rinv_l by lra. nra. }
      destruct (@div_in (vofZ 0) (vofZ 100) (vofZ 100) u F100 ltac:(lra) D) as (_ & Fd & Vd).
      rewrite val0, V100 in Vd.
      destruct (@sub_in (vofZ 0) (vofZ 100) (vofZ 100) _ F100 Fd) as (_ & Fs & Vs).
      { rewrite val0, V100. lra. }
      right. split; [exact Fs|]. rewrite val0, V100 in Vs. exact Vs.
    + destruct C as (E & _). apply overflow_inf in E. rewrite E. change (Bsign one) with false. exact IP.
Qed.
Lemma nonneg_div2 x y : nonneg x -> nonneg y -> nonneg (vdiv x y) \/ vdiv x y = B754_infinity true.
Proof.
  intros Hx Hy.
  destruct y as [sy|sy| |sy my ey Ey].
  - destruct sy; [|left; apply nonneg_div; [exact Hx|right; reflexivity]].
    destruct x as [sx|sx| |sx mx ex Ex]; try (left; exact I); right; cbn in Hx; subst; reflexivity.
  - left. apply nonneg_div; [exact Hx|]. right. exact Hy.
  - left. apply nonneg_div; [exact Hx|]. left. reflexivity.
  - left. apply nonneg_div; [exact Hx|]. right. exact Hy.
Qed.
Lemma nonneg_clip x : nonneg (clip_lo v0 x).
Proof.
  unfold clip_lo. cbn [visnan NumF]. destruct (is_nan x) eqn:E; [destruct x; try discriminate; exact I|].
  destruct (vleb v0 x) eqn:L; [|exact I]. destruct x as [s|s| |s m e H]; try exact I; destruct s; try reflexivity; discriminate L.
Qed.
Lemma nonneg_abs x : nonneg (vabs x).
Proof. destruct x; cbn; auto. Qed.

(** ** Percentages *)
Definition emin : Z := (3 - emax - prec)%Z.
Lemma fexp_flt : fexp64 = FLT_exp emin prec.
Proof. reflexivity. Qed.
(** an integer multiple of a double is rounded with a relative error of at most 2^-53, also among the subnormals *)
Lemma rn_times (c : Z) (b : float) : Rabs (rn (IZR c * val b) - IZR c * val b) <= bpow radix2 (-53) * Rabs (IZR c * val b).
Proof.
  destruct (Rle_or_lt (bpow radix2 (emin + prec - 1)) (Rabs (IZR c * val b))) as [L|L].
  - pose proof (relative_error_N_FLT radix2 emin prec ltac:(reflexivity) (fun x => negb (Z.even x)) _ L) as E.
    unfold rn. rewrite fexp_flt.
    replace (/ 2 * bpow radix2 (- prec + 1)) with (bpow radix2 (-53)) in E; [exact E|].
    change (/ 2) with (bpow radix2 (-1)). rewrite <- bpow_plus. reflexivity.
  - assert (G : fmt (IZR c * val b)).
    { pose proof (fmt_val b) as Fb. unfold fmt in Fb |- *. rewrite fexp_flt in Fb |- *.
      apply FLT_format_generic in Fb; [|reflexivity]. destruct Fb as [[m e] E _ He]. cbn [Fnum Fexp] in He.
      apply generic_format_FLT. exists (Float radix2 (c * (m * Zpower radix2 (e - emin))) emin); cbn [Fnum Fexp]; [| |lia].
      - rewrite E. unfold F2R; cbn [Fnum Fexp]. rewrite !mult_IZR, IZR_Zpower by lia.
        replace e with (e - emin + emin)%Z at 1 by lia. rewrite bpow_plus. ring.
      - assert (X : IZR c * val b = IZR (c * (m * Zpower radix2 (e - emin))) * bpow radix2 emin).
        { rewrite E. unfold F2R; cbn [Fnum Fexp]. rewrite !mult_IZR, IZR_Zpower by lia.
          replace e with (e - emin + emin)%Z at 1 by lia. rewrite bpow_plus. ring. }
        rewrite X, Rabs_mult, (Rabs_pos_eq (bpow _ _)) in L by apply bpow_ge_0.
        replace (emin + prec - 1)%Z with (52 + emin)%Z in L by (unfold prec; lia).
        rewrite bpow_plus in L. apply Rmult_lt_reg_r in L; [|apply bpow_gt_0].
        rewrite <- abs_IZR in L. change (bpow radix2 52) with (IZR (2 ^ 52)) in L. apply lt_IZR in L.
        eapply Z.lt_trans; [exact L|reflexivity]. }
    rewrite (rn_fmt G). unfold Rminus. rewrite Rplus_opp_r, Rabs_R0.
    apply Rmult_le_pos; [apply bpow_ge_0|apply Rabs_pos].
Qed.

(** the double next to 100 *)
Definition above100 : float := vofQ (QArith_base.Qmake 7036874417766401 70368744177664).
Lemma val_above100 : val above100 = 100 + bpow radix2 (-46).
Proof.
  assert (F : B2SF above100 = SpecFloat.S754_finite false 7036874417766401 (-46)) by (vm_compute; reflexivity).
  unfold val. rewrite <- SF2R_B2SF, F. cbn [SF2R]. unfold F2R. cbn [Fnum Fexp cond_Zopp].
  change (bpow radix2 (-46)) with (/ IZR 70368744177664). lra.
Qed.
Definition big (e : Z) : float := binary_normalize prec emax _ _ mode_NE 1 e false.
Lemma big1010 : finite (big 1010) /\ val (big 1010) = bpow radix2 1010.
Proof.
  assert (F : B2SF (big 1010) = SpecFloat.S754_finite false (2 ^ 52) 958) by (vm_compute; reflexivity).
  split; [unfold finite; rewrite <- is_finite_SF_B2SF, F; reflexivity|].
  unfold val. rewrite <- SF2R_B2SF, F. cbn [SF2R]. unfold F2R. cbn [Fnum Fexp cond_Zopp].
  change (IZR (Z.pos (2 ^ 52))) with (bpow radix2 52). rewrite <- bpow_plus. reflexivity.
Qed.
Definition opp (x : float) : float := Bopp x.
Lemma val_opp x : val (opp x) = - val x. Proof. apply B2R_Bopp. Qed.

(** 100 a / b for 0 <= a <= b, 0 < b: at most one step above 100 *)
Lemma pct_in a b : finite a -> 0 <= val a <= val b -> 0 < val b <= bpow radix2 1000 ->
  within 0 (100 + bpow radix2 (-46)) (vdiv (vmul (vofZ 100) a) b).
Proof.
  intros Fa [A0 A1] [B0 B1]. destruct val100 as [F100 V100]. destruct big1010 as [Fg Vg].
  assert (G : 100 * bpow radix2 1000 <= bpow radix2 1010).
  { replace 1010%Z with (10 + 1000)%Z by reflexivity. rewrite bpow_plus. apply Rmult_le_compat_r; [apply bpow_ge_0|].
    change (bpow radix2 10) with 1024. lra. }
  destruct (@mul_in (vofZ 0) (big 1010) (vofZ 100) a F100 Fa) as (Em & Fm & Vm).
  { rewrite val0, V100, Vg. split; [nra|]. nra. }
  set (m := vmul (vofZ 100) a) in *. rewrite val0, V100 in *.
  assert (M : val m <= 100 * val b * (1 + bpow radix2 (-53))).
  { rewrite Em. apply Rle_trans with (rn (100 * val b)); [apply rn_le; nra|].
    pose proof (rn_times 100 b) as T. rewrite (Rabs_pos_eq (100 * val b)) in T by nra.
    apply Rabs_le_inv in T. nra. }
  assert (Q : val (vofZ 0) <= val m / val b <= val above100).
  { rewrite val0, val_above100. split; [apply Rle_mult_inv_pos; lra|].
    apply Rmult_le_reg_r with (val b); [lra|]. unfold Rdiv. rewrite Rmult_assoc, Rinv_l, Rmult_1_r by lra.
    eapply Rle_trans; [exact M|].
    assert (E : 100 * (1 + bpow radix2 (-53)) <= 100 + bpow radix2 (-46)).
    { replace (-46)%Z with (7 + -53)%Z by reflexivity. rewrite bpow_plus. change (bpow radix2 7) with 128.
      pose proof (bpow_ge_0 radix2 (-53)). lra. }
    nra. }
  destruct (@div_in _ _ m b Fm ltac:(lra) Q) as (_ & Fd & Vd). rewrite val0, val_above100 in Vd. split; assumption.
Qed.
(** the same with -100 *)
Lemma valm100 : finite (vofZ (-100)) /\ val (vofZ (-100)) = -100. Proof. apply fofZ_exact. vm_compute. discriminate. Qed.
Lemma pct_in_neg a b : finite a -> 0 <= val a <= val b -> 0 < val b <= bpow radix2 1000 ->
  within (- (100 + bpow radix2 (-46))) 0 (vdiv (vmul (vofZ (-100)) a) b).
Proof.
  intros Fa [A0 A1] [B0 B1]. destruct valm100 as [F100 V100]. destruct big1010 as [Fg Vg].
  assert (G : 100 * bpow radix2 1000 <= bpow radix2 1010).
  { replace 1010%Z with (10 + 1000)%Z by reflexivity. rewrite bpow_plus. apply Rmult_le_compat_r; [apply bpow_ge_0|].
    change (bpow radix2 10) with 1024. lra. }
  destruct (@mul_in (opp (big 1010)) (vofZ 0) (vofZ (-100)) a F100 Fa) as (Em & Fm & Vm).
  { rewrite val0, val_opp, V100, Vg. split; nra. }
  set (m := vmul (vofZ (-100)) a) in *. rewrite val0, V100 in *.
  assert (M : - (100 * val b * (1 + bpow radix2 (-53))) <= val m).
  { rewrite Em. apply Rle_trans with (rn (-100 * val b)); [|apply rn_le; nra].
    pose proof (rn_times (-100) b) as T. rewrite (Rabs_left1 (-100 * val b)) in T by nra.
    apply Rabs_le_inv in T. nra. }
  assert (Q : val (opp above100) <= val m / val b <= val (vofZ 0)).
  { rewrite val0, val_opp, val_above100. split.
    - apply Rmult_le_reg_r with (val b); [lra|]. unfold Rdiv. rewrite Rmult_assoc, Rinv_l, Rmult_1_r by lra.
      eapply Rle_trans; [|exact M].
      assert (E : 100 * (1 + bpow radix2 (-53)) <= 100 + bpow radix2 (-46)).
      { replace (-46)%Z with (7 + -53)%Z by reflexivity. rewrite bpow_plus. change (bpow radix2 7) with 128.
        pose proof (bpow_ge_0 radix2 (-53)). lra. }
      nra.
    - apply Rmult_le_reg_r with (val b); [lra|]. unfold Rdiv. rewrite Rmult_assoc, Rinv_l, Rmult_1_r by lra. lra. }
  destruct (@div_in _ _ m b Fm ltac:(lra) Q) as (_ & Fd & Vd). rewrite val0, val_opp, val_above100 in Vd. split; assumption.
Qed.
(** a plain quotient does not leave the range *)
Lemma quot_in a b : finite a -> Rabs (val a) <= val b -> 0 < val b -> within (-1) 1 (vdiv a b).
Proof.
  intros Fa A B. destruct val1 as [F1 V1]. apply Rabs_le_inv in A.
  destruct (@div_in (opp (vofZ 1)) (vofZ 1) a b Fa ltac:(lra)) as (_ & F & V).
  - rewrite val_opp, V1. split; apply Rmult_le_reg_r with (val b); try lra; unfold Rdiv;
      rewrite Rmult_assoc, Rinv_l, Rmult_1_r by lra; lra.
  - rewrite val_opp, V1 in V. split; [exact F|lra].
Qed.

(** ** Differences have the right sign *)
Lemma not_FTZ : Exp_not_FTZ fexp64.
Proof. apply monotone_exp_not_FTZ; [exact valid64|]. rewrite fexp_flt. apply FLT_exp_monotone. Qed.
Lemma rn_sub_0 (x y : float) : rn (val x - val y) = 0 -> val x = val y.
Proof.
  intro H. apply Rminus_diag_uniq. unfold Rminus in *.
  refine (round_plus_eq_0 radix2 fexp64 ZnearestE _ _ _ _ H); auto using not_FTZ with typeclass_instances.
  - apply fmt_val.
  - apply generic_format_opp, fmt_val.
Qed.

Lemma ltb_iff x y : finite x -> finite y -> (vltb x y = true <-> val x < val y).
Proof.
  intros Fx Fy. cbn [vltb NumF]. rewrite (Bltb_correct _ _ x y Fx Fy). fold (val x) (val y).
  destruct (Rlt_bool_spec (val x) (val y)); split; intro; try lra; try discriminate; reflexivity.
Qed.
Lemma leb_iff x y : finite x -> finite y -> (vleb x y = true <-> val x <= val y).
Proof.
  intros Fx Fy. cbn [vleb NumF]. rewrite (Bleb_correct _ _ x y Fx Fy). fold (val x) (val y).
  destruct (Rle_bool_spec (val x) (val y)); split; intro; try lra; try discriminate; reflexivity.
Qed.
Lemma eqb_iff x y : finite x -> finite y -> (veqb x y = true <-> val x = val y).
Proof.
  intros Fx Fy. cbn [veqb NumF]. rewrite (Beqb_correct _ _ x y Fx Fy). fold (val x) (val y).
  destruct (Req_bool_spec (val x) (val y)); split; intro; try lra; try discriminate; reflexivity.
Qed.
Lemma bool_iff a b (P : Prop) : (a = true <-> P) -> (b = true <-> P) -> a = b.
Proof. destruct a, b; intros [] []; auto. - symmetry. auto. Qed.
Lemma ltb_false x y : finite x -> finite y -> (vltb x y = false <-> val y <= val x).
Proof.
  intros Fx Fy. pose proof (ltb_iff Fx Fy). destruct (vltb x y); split; intro; try discriminate; auto.
  - destruct H as [H _]. specialize (H eq_refl). lra.
  - apply Rnot_lt_le. intro L. apply H in L. discriminate.
Qed.

(** a difference of finite doubles, rounded, compares to 0 like its operands compare *)
Lemma sub_sign x y : finite x -> finite y ->
  vltb (vsub x y) v0 = vltb x y /\ vltb v0 (vsub x y) = vltb y x /\ veqb (vsub x y) v0 = veqb x y.
Proof.
  intros Fx Fy.
  pose proof (Bminus_correct prec emax _ _ mode_NE x y Fx Fy) as C. fold (val x) (val y) in C.
  change (round radix2 fexp64 (round_mode mode_NE)) with rn in C. change (Bminus mode_NE x y) with (vsub x y) in C.
  assert (F0 : finite v0) by reflexivity.
  destruct (Rlt_bool_spec (Rabs (rn (val x - val y))) (bpow radix2 emax)) as [L|L].
  - destruct C as (E & F & _). change (is_finite (vsub x y) = true) with (finite (vsub x y)) in F. fold (val (vsub x y)) in E.
    pose proof (rn_le) as Mono. pose proof (rn_sub_0 x y) as Z.
    repeat split.
    + apply bool_iff with (val x < val y); [|now apply ltb_iff]. rewrite (ltb_iff F F0), E. change (val v0) with 0. split; intro H.
      * apply Rnot_le_lt. intro G. assert (0 <= rn (val x - val y)) by (apply rn_nonneg; lra). lra.
      * assert (rn (val x - val y) <= 0) by (rewrite <- rn_0; apply rn_le; lra).
        destruct (Req_dec (rn (val x - val y)) 0) as [G|G]; [apply Z in G; lra|lra].
    + apply bool_iff with (val y < val x); [|now apply ltb_iff]. rewrite (ltb_iff F0 F), E. change (val v0) with 0. split; intro H.
      * apply Rnot_le_lt. intro G. assert (rn (val x - val y) <= 0) by (rewrite <- rn_0; apply rn_le; lra). lra.
      * assert (0 <= rn (val x - val y)) by (apply rn_nonneg; lra).
        destruct (Req_dec (rn (val x - val y)) 0) as [G|G]; [apply Z in G; lra|lra].
    + apply bool_iff with (val x = val y); [|now apply eqb_iff]. rewrite (eqb_iff F F0), E. change (val v0) with 0. split; intro H.
      * now apply Z.
      * rewrite H. unfold Rminus. rewrite Rplus_opp_r. apply rn_0.
  - destruct C as (E & S). apply overflow_inf in E. rewrite E.
    assert (N : val x <> val y).
    { intro G. rewrite G in L. unfold Rminus in L. rewrite Rplus_opp_r, rn_0, Rabs_R0 in L. pose proof bpow_pos_emax. lra. }
    assert (X : forall z : float, finite z -> Bsign z = false -> 0 <= val z).
    { intros z Fz Sz. destruct z as [s|s| |s m e B]; try discriminate Fz; [cbn; lra|]. cbn in Sz. subst s. apply F2R_ge_0. cbn. lia. }
    assert (Y : forall z : float, finite z -> Bsign z = true -> val z <= 0).
    { intros z Fz Sz. destruct z as [s|s| |s m e B]; try discriminate Fz; [cbn; lra|]. cbn in Sz. subst s. apply F2R_le_0. cbn. lia. }
    destruct (Bsign x) eqn:Sx; destruct (Bsign y) eqn:Sy; try discriminate S.
    + pose proof (Y _ Fx Sx). pose proof (X _ Fy Sy). repeat split.
      * symmetry. apply ltb_iff; auto. lra.
      * symmetry. apply ltb_false; auto. lra.
      * symmetry. apply Bool.not_true_is_false. rewrite eqb_iff by auto. lra.
    + pose proof (X _ Fx Sx). pose proof (Y _ Fy Sy). repeat split.
      * symmetry. apply ltb_false; auto. lra.
      * symmetry. apply ltb_iff; auto. lra.
      * symmetry. apply Bool.not_true_is_false. rewrite eqb_iff by auto. lra.
Qed.

(** ** Maxima and minima are exact *)
Lemma max_exact l x : finite x -> Forall finite l ->
  let m := fold_left vmax2 l x in In m (x :: l) /\ finite m /\ Forall (fun y => val y <= val m) (x :: l).
Proof.
  revert x. induction l as [|y l IH]; intros x Fx Fl; cbn [fold_left].
  - cbn. repeat split; auto. constructor; [lra|constructor].
  - inversion Fl as [|? ? Fy Fl']; subst. unfold vmax2 at 2 4 6. destruct (vltb x y) eqn:L.
    + apply (ltb_iff Fx Fy) in L. destruct (IH y Fy Fl') as (I & F & A). split; [destruct I; [right; left|right; right]; assumption|].
      split; [exact F|]. constructor; [inversion A; subst; lra|exact A].
    + apply (ltb_false Fx Fy) in L. destruct (IH x Fx Fl') as (I & F & A).
      split; [destruct I; [left|right; right]; assumption|]. split; [exact F|]. inversion A; subst.
      constructor; [assumption|]. constructor; [lra|assumption].
Qed.
Lemma min_exact l x : finite x -> Forall finite l ->
  let m := fold_left vmin2 l x in In m (x :: l) /\ finite m /\ Forall (fun y => val m <= val y) (x :: l).
Proof.
  revert x. induction l as [|y l IH]; intros x Fx Fl; cbn [fold_left].
  - cbn. repeat split; auto. constructor; [lra|constructor].
  - inversion Fl as [|? ? Fy Fl']; subst. unfold vmin2 at 2 4 6. destruct (vltb y x) eqn:L.
    + apply (ltb_iff Fy Fx) in L. destruct (IH y Fy Fl') as (I & F & A). split; [destruct I; [right; left|right; right]; assumption|].
      split; [exact F|]. constructor; [inversion A; subst; lra|exact A].
    + apply (ltb_false Fy Fx) in L. destruct (IH x Fx Fl') as (I & F & A).
      split; [destruct I; [left|right; right]; assumption|]. split; [exact F|]. inversion A; subst.
      constructor; [assumption|]. constructor; [lra|assumption].
Qed.
