(** Indicators on doubles. *)
From Coq Require Import ZArith Reals List Bool Lia Lra Psatz.
From Flocq Require Import Core IEEE754.BinarySingleNaN.
From Verif Require Import Num Series Line Spec LineFacts OpFacts RFacts WarmFacts IndMA IndBasic IndStat IndRange IndOsc
  Float64 FloatSpec FloatFacts FloatLine FloatAvg FloatExact
  Apply Catalog CatalogSpec PropCatalogFacts.
Import ListNotations.
Set Implicit Arguments.
Local Open Scope R_scope.

Lemma nan_laws_float : nan_laws NumF.
Proof. repeat split; intros [s|[]| |s m e B]; reflexivity. Qed.
Lemma now_nan lo hi : nan_or_within lo hi vnan. Proof. left. reflexivity. Qed.

(** ** RSI and MFI *)
Definition quotient_like (r : float) : Prop := nonneg r \/ r = B754_infinity true.
Lemma strength_in (rs : line float) : every quotient_like rs -> every (nan_or_within 0 100) (strength rs).
Proof.
  intro H. unfold strength.
  apply every_rbinop_s with (P := fun d : float => nan_or_within 0 100 (vsub (vofZ 100) d)); [apply now_nan|auto|].
  apply every_rbinop_s with (P := fun u : float => nan_or_within 0 100 (vsub (vofZ 100) (vdiv (vofZ 100) u)));
    [left; reflexivity|auto|].
  apply every_rbinop_s with (P := quotient_like); [left; reflexivity|apply strength_pt|exact H].
Qed.
Lemma ldiv_quotient (a b : line float) : every nonneg a -> every nonneg b -> every quotient_like (ldiv a b).
Proof.
  intros Ha Hb. apply every_binop with (P := nonneg) (Q := nonneg); auto; [left; exact nonneg_nan|]. intros. now apply nonneg_div2.
Qed.
Lemma updays_nonneg q (a : line float) : every nonneg (updays q a).
Proof. apply every_clip_lo with (P := fun _ => True); [exact nonneg_nan|intros; apply nonneg_clip|apply every_True]. Qed.
Lemma downdays_nonneg q (a : line float) : every nonneg (downdays q a).
Proof. apply every_mapop with (P := fun _ => True); [exact nonneg_nan|intros; apply nonneg_abs|apply every_True]. Qed.
Lemma rsi_in (ma : ma_fun float) p q a y :
  keeps_nonneg ma -> (1 <= p)%nat -> rsi ma p q a = Ok y -> every (nan_or_within 0 100) y.
Proof.
  intros K Hp E. unfold rsi in E. destruct (ma p (updays q a)) as [u|] eqn:Eu; [|discriminate]. cbn [bind] in E.
  destruct (ma p (downdays q a)) as [d|] eqn:Ed; [|discriminate]. injection E as <-.
  apply strength_in, ldiv_quotient; [exact (K _ _ _ Hp (updays_nonneg q a) Eu)|exact (K _ _ _ Hp (downdays_nonneg q a) Ed)].
Qed.
Lemma nonneg_bool (b : bool) : nonneg (vofbool b).
Proof. destruct b; [apply unsigned_nonneg, unsigned_ofZ; lia|exact I]. Qed.
Lemma mfi_in p (h l c v : line float) : (1 <= p)%nat ->
  every nonneg h -> every nonneg l -> every nonneg c -> every nonneg v -> every (nan_or_within 0 100) (mfi p h l c v).
Proof.
  intros Hp Hh Hl Hc Hv. unfold mfi.
  assert (A : forall a b : line float, every nonneg a -> every nonneg b -> every nonneg (ladd a b))
    by (intros; apply every_binop with (P := nonneg) (Q := nonneg); auto using nonneg_nan, nonneg_add).
  set (t := binop_s vdiv _ _).
  assert (Ht : every nonneg t).
  { apply every_binop_s with (P := nonneg); [exact nonneg_nan| |auto]. intros x Hx. apply nonneg_div; [exact Hx|apply unsigned_ofZ; lia]. }
  assert (Hm : every nonneg (lmul t v)) by (apply every_binop with (P := nonneg) (Q := nonneg); auto using nonneg_nan, nonneg_mul).
  assert (S : forall b, every nonneg (sumn p (mul_b (lmul t v) b))).
  { intro b. refine (nonneg_sumn Hp _ (eq_refl (Ok _))).
    apply every_mul_b with (P := nonneg); auto using nonneg_nan. intros. apply nonneg_mul; auto using nonneg_bool. }
  apply strength_in, ldiv_quotient; apply S.
Qed.

(** ** Windows *)
Lemma feeds_self (a : line float) : (1 <= lmp a)%Z ->
  feeds a (length (lser a)) (Z.to_nat (lmp a - 1)) (fun i => nth i (lser a) vnan).
Proof. intro H. split; [lia|]. split; [reflexivity|]. intros i Hi. apply nth_error_nth'. lia. Qed.
Lemma delivers_every (P : float -> Prop) a n k f :
  delivers a n k f -> P vnan -> (forall i, (k <= i < n)%nat -> P (f i)) -> every P a.
Proof.
  intros [[_ [L F]] B] Hn H. apply Forall_forall. intros x Hx. apply In_nth_error in Hx. destruct Hx as [i Hi].
  assert (i < n)%nat by (rewrite <- L; apply nth_error_Some; congruence).
  destruct (Nat.lt_ge_cases i k) as [G|G].
  - rewrite (B i G H0) in Hi. now inversion Hi.
  - rewrite (F i) in Hi by lia. inversion Hi; subst. apply H. lia.
Qed.
Lemma finite_clean x : finite x -> visnan x = false /\ prep x = x.
Proof. destruct x as [s|s| |s m e B]; intro F; try discriminate F; split; reflexivity. Qed.
Lemma guard_finite (G : list float -> float) l : Forall finite l -> guard_win G l = G l.
Proof.
  intro H. unfold guard_win. assert (E : map prep l = l).
  { induction H; cbn; [reflexivity|]. now rewrite (proj2 (finite_clean H)), IHForall. }
  rewrite E. replace (existsb visnan l) with false; [reflexivity|]. clear E. symmetry. induction H; [reflexivity|].
  cbn [existsb]. now rewrite (proj1 (finite_clean H)), IHForall.
Qed.
Lemma guard_cases l : Forall (fun x : float => missing x \/ finite x) l ->
  Forall finite l \/ (forall G, guard_win G l = vnan).
Proof.
  intro H. assert (D : Forall finite l \/ exists x, In x l /\ missing x).
  { induction H as [|x l [M|F] Hl IH]; [left; constructor|right; exists x; split; [now left|exact M]|].
    destruct IH as [IH|(y & I & M)]; [left; now constructor|right; exists y; split; [now right|exact M]]. }
  destruct D as [D|(x & I & M)]; [now left|]. right. intro G. unfold guard_win.
  replace (existsb visnan (map prep l)) with true; [reflexivity|]. symmetry. apply existsb_exists.
  exists (prep x). split; [now apply in_map|]. destruct x; try discriminate M. reflexivity.
Qed.
Lemma win_bars {P : float -> Prop} (f : nat -> float) i p :
  (forall j, (S i - p <= j < S i - p + p)%nat -> P (f j)) -> Forall P (win f i p).
Proof. intro H. apply Forall_forall. intros x Hx. apply in_win in Hx. destruct Hx as (j & Hj & ->). auto. Qed.
Lemma win_max_bar (f : nat -> float) i p : (1 <= p)%nat ->
  (forall j, (S i - p <= j < S i - p + p)%nat -> finite (f j)) ->
  exists j, (S i - p <= j < S i - p + p)%nat /\ guard_win win_max (win f i p) = f j /\
    forall j', (S i - p <= j' < S i - p + p)%nat -> val (f j') <= val (f j).
Proof.
  intros Hp F. pose proof (win_bars _ _ _ F) as W. rewrite (guard_finite _ W).
  destruct (win f i p) as [|x l] eqn:E; [unfold win in E; destruct p; [lia|discriminate]|].
  inversion W; subst. destruct (max_exact H1 H2) as (I & _ & A). cbn [win_max]. set (m := fold_left _ _ _) in *. clearbody m.
  rewrite <- E in I, A. apply in_win in I. destruct I as (j & Hj & ->). exists j. split; [exact Hj|]. split; [reflexivity|].
  intros j' Hj'. rewrite Forall_forall in A. apply A. apply in_win. now exists j'.
Qed.
Lemma win_min_bar (f : nat -> float) i p : (1 <= p)%nat ->
  (forall j, (S i - p <= j < S i - p + p)%nat -> finite (f j)) ->
  exists j, (S i - p <= j < S i - p + p)%nat /\ guard_win win_min (win f i p) = f j /\
    forall j', (S i - p <= j' < S i - p + p)%nat -> val (f j) <= val (f j').
Proof.
  intros Hp F. pose proof (win_bars _ _ _ F) as W. rewrite (guard_finite _ W).
  destruct (win f i p) as [|x l] eqn:E; [unfold win in E; destruct p; [lia|discriminate]|].
  inversion W; subst. destruct (min_exact H1 H2) as (I & _ & A). cbn [win_min]. set (m := fold_left _ _ _) in *. clearbody m.
  rewrite <- E in I, A. apply in_win in I. destruct I as (j & Hj & ->). exists j. split; [exact Hj|]. split; [reflexivity|].
  intros j' Hj'. rewrite Forall_forall in A. apply A. apply in_win. now exists j'.
Qed.

(** ** Stochastic and Williams %R *)
Lemma big1000 : exists b : float, finite b /\ val b = bpow radix2 1000.
Proof.
  exists (binary_normalize prec emax _ _ mode_NE 1 1000 false).
  assert (F : B2SF (binary_normalize prec emax prec_gt_0 prec_lt_emax mode_NE 1 1000 false) = SpecFloat.S754_finite false (2 ^ 52) 948)
    by (vm_compute; reflexivity).
  split; [unfold finite; rewrite <- is_finite_SF_B2SF, F; reflexivity|].
  unfold val. rewrite <- SF2R_B2SF, F. cbn [SF2R]. unfold F2R. cbn [Fnum Fexp cond_Zopp].
  change (IZR (Z.pos (2 ^ 52))) with (bpow radix2 52). rewrite <- bpow_plus. reflexivity.
Qed.
Lemma bpow_double : bpow radix2 999 + bpow radix2 999 = bpow radix2 1000.
Proof. replace 1000%Z with (1 + 999)%Z by reflexivity. rewrite bpow_plus. change (bpow radix2 1) with 2. lra. Qed.
(** a difference of usual numbers *)
Lemma usual_sub x y : usual x -> usual y ->
  finite (vsub x y) /\ val (vsub x y) = rn (val x - val y) /\ Rabs (val (vsub x y)) <= bpow radix2 1000.
Proof.
  intros [Fx Vx] [Fy Vy]. destruct big1000 as (b & Fb & Vb). pose proof bpow_double.
  destruct (@sub_in (opp b) b x y Fx Fy) as (E & F & V); [rewrite val_opp, Vb; lra|].
  rewrite val_opp, Vb in V. repeat split; auto. apply Rabs_le. lra.
Qed.
Lemma zero_over_zero (c x y : float) : finite c -> finite x -> val x = 0 -> finite y -> val y = 0 -> missing (vdiv (vmul c x) y).
Proof.
  intros Fc Fx Vx Fy Vy.
  assert (Z : forall z : float, finite z -> val z = 0 -> exists s, z = B754_zero s).
  { intros z Fz Vz. destruct z as [s|s| |s m e B]; try discriminate Fz; [now exists s|].
    exfalso. unfold val in Vz. cbn in Vz. apply eq_0_F2R in Vz. destruct s; discriminate. }
  destruct (Z _ Fx Vx) as [s ->]. destruct (Z _ Fy Vy) as [t ->].
  destruct c as [u|u| |u m e B]; try discriminate Fc; reflexivity.
Qed.
(** 100 (x - lo) / (hi - lo) for lo <= x <= hi *)
Lemma position_pct lo x hi : usual lo -> usual x -> usual hi -> val lo <= val x <= val hi ->
  let q := vdiv (vmul (vofZ 100) (vsub x lo)) (vsub hi lo) in
  (val hi = val lo -> missing q) /\ (val lo < val hi -> within 0 (100 + bpow radix2 (-46)) q).
Proof.
  intros Ul Ux Uh L. destruct (usual_sub Ux Ul) as (Fa & Ea & _). destruct (usual_sub Uh Ul) as (Fb & Eb & Bb). cbv zeta. split.
  - intro E. apply zero_over_zero; auto; [apply val100|rewrite Ea|rewrite Eb].
    + replace (val x - val lo) with 0 by lra. apply rn_0.
    + replace (val hi - val lo) with 0 by lra. apply rn_0.
  - intro E. assert (P : 0 < val (vsub hi lo)).
    { rewrite Eb. assert (0 <= rn (val hi - val lo)) by (apply rn_nonneg; lra).
      destruct (Req_dec (rn (val hi - val lo)) 0) as [Z|Z]; [apply rn_sub_0 in Z; lra|lra]. }
    apply pct_in; auto.
    + rewrite Ea, Eb. split; [apply rn_nonneg; lra|apply rn_le; lra].
    + split; [exact P|]. rewrite Rabs_pos_eq in Bb by lra. exact Bb.
Qed.
Lemma position_pct_neg lo x hi : usual lo -> usual x -> usual hi -> val lo <= val x <= val hi ->
  let q := vdiv (vmul (vofZ (-100)) (vsub hi x)) (vsub hi lo) in
  (val hi = val lo -> missing q) /\ (val lo < val hi -> within (- (100 + bpow radix2 (-46))) 0 q).
Proof.
  intros Ul Ux Uh L. destruct (usual_sub Uh Ux) as (Fa & Ea & _). destruct (usual_sub Uh Ul) as (Fb & Eb & Bb). cbv zeta. split.
  - intro E. apply zero_over_zero; auto; [apply valm100|rewrite Ea|rewrite Eb].
    + replace (val hi - val x) with 0 by lra. apply rn_0.
    + replace (val hi - val lo) with 0 by lra. apply rn_0.
  - intro E. assert (P : 0 < val (vsub hi lo)).
    { rewrite Eb. assert (0 <= rn (val hi - val lo)) by (apply rn_nonneg; lra).
      destruct (Req_dec (rn (val hi - val lo)) 0) as [Z|Z]; [apply rn_sub_0 in Z; lra|lra]. }
    apply pct_in_neg; auto.
    + rewrite Ea, Eb. split; [apply rn_nonneg; lra|apply rn_le; lra].
    + split; [exact P|]. rewrite Rabs_pos_eq in Bb by lra. exact Bb.
Qed.

Section Bars.
  Variables (h l c : line float) (n k p : nat) (xh xl xc : nat -> float).
  Hypothesis Hh : feeds h n k xh.
  Hypothesis Hl : feeds l n k xl.
  Hypothesis Hc : feeds c n k xc.
  Hypothesis Hp : (1 <= p)%nat.
  Hypothesis Hu : forall i, (k <= i < n)%nat -> usual (xh i) /\ usual (xl i) /\ usual (xc i) /\ val (xl i) <= val (xc i) <= val (xh i).

  Lemma extremes i : (k + p - 1 <= i < n)%nat ->
    exists hh ll, guard_win win_max (win xh i p) = hh /\ guard_win win_min (win xl i p) = ll /\
      usual hh /\ usual ll /\ val ll <= val (xc i) <= val hh /\
      (val hh = val ll <-> forall j, (S i - p <= j <= i)%nat -> val (xh j) = val (xc i) /\ val (xl j) = val (xc i)).
  Proof.
    intro Hi. assert (R : forall j, (S i - p <= j < S i - p + p)%nat -> (k <= j < n)%nat) by lia.
    destruct (win_max_bar xh i Hp) as (a & Ha & Ea & Ma).
    { intros j Hj. destruct (Hu (R j Hj)) as ((F & _) & _). exact F. }
    destruct (win_min_bar xl i Hp) as (b & Hb & Eb & Mb).
    { intros j Hj. destruct (Hu (R j Hj)) as (_ & (F & _) & _). exact F. }
    exists (xh a), (xl b). split; [exact Ea|]. split; [exact Eb|].
    destruct (Hu (R a Ha)) as (Ua & _ & _ & Ca). destruct (Hu (R b Hb)) as (_ & Ub & _ & Cb).
    split; [exact Ua|]. split; [exact Ub|].
    assert (Hii : (S i - p <= i < S i - p + p)%nat) by lia.
    destruct (Hu (R i Hii)) as (_ & _ & _ & Ci). pose proof (Ma i Hii) as M1. pose proof (Mb i Hii) as M2.
    split; [lra|]. split.
    - intros E j Hj. assert (Hj' : (S i - p <= j < S i - p + p)%nat) by lia.
      destruct (Hu (R j Hj')) as (_ & _ & _ & Cj). pose proof (Ma j Hj'). pose proof (Mb j Hj'). lra.
    - intro E. destruct (E a ltac:(lia)) as [-> _]. destruct (E b ltac:(lia)) as [_ ->]. reflexivity.
  Qed.

  Lemma stoch_in : exists kf, delivers (stoch_k p h l c) n (k + p - 1) kf /\
    forall i, (k + p - 1 <= i < n)%nat ->
      let flat := forall j, (S i - p <= j <= i)%nat -> val (xh j) = val (xc i) /\ val (xl j) = val (xc i) in
      (flat -> missing (kf i)) /\ (~ flat -> within 0 (100 + bpow radix2 (-46)) (kf i)).
  Proof.
    pose proof (rolling_delivers win_max Hp Hh) as DH. pose proof (rolling_delivers win_min Hp Hl) as DL.
    eexists. split.
    - replace (k + p - 1)%nat with (Nat.max (Nat.max k (k + p - 1)) (Nat.max (k + p - 1) (k + p - 1))) at 1 by lia.
      unfold stoch_k. apply binop_delivers; apply delivers_feeds.
      + apply rbinop_s_delivers, delivers_feeds, binop_delivers; [exact Hc|apply delivers_feeds; exact DL].
      + apply binop_delivers; apply delivers_feeds; [exact DH|exact DL].
    - intros i Hi. cbv beta. destruct (extremes Hi) as (hh & ll & -> & -> & Uh & Ul & B & Fl). cbv zeta.
      destruct (Hu (i := i) ltac:(lia)) as (_ & _ & Uc & _).
      destruct (position_pct Ul Uc Uh B) as [M W]. split.
      + intro F. apply M, Fl, F.
      + intro F. apply W. destruct (Req_dec (val hh) (val ll)) as [E|E]; [exfalso; apply F, Fl, E|lra].
  Qed.
  Lemma willr_in : exists wf, delivers (williamsr p h l c) n (k + p - 1) wf /\
    forall i, (k + p - 1 <= i < n)%nat ->
      let flat := forall j, (S i - p <= j <= i)%nat -> val (xh j) = val (xc i) /\ val (xl j) = val (xc i) in
      (flat -> missing (wf i)) /\ (~ flat -> within (- (100 + bpow radix2 (-46))) 0 (wf i)).
  Proof.
    pose proof (rolling_delivers win_max Hp Hh) as DH. pose proof (rolling_delivers win_min Hp Hl) as DL.
    eexists. split.
    - replace (k + p - 1)%nat with (Nat.max (Nat.max (k + p - 1) k) (Nat.max (k + p - 1) (k + p - 1))) at 1 by lia.
      unfold williamsr. apply binop_delivers; apply delivers_feeds.
      + apply rbinop_s_delivers, delivers_feeds, binop_delivers; [apply delivers_feeds; exact DH|exact Hc].
      + apply binop_delivers; apply delivers_feeds; [exact DH|exact DL].
    - intros i Hi. cbv beta. destruct (extremes Hi) as (hh & ll & -> & -> & Uh & Ul & B & Fl). cbv zeta.
      destruct (Hu (i := i) ltac:(lia)) as (_ & _ & Uc & _).
      destruct (position_pct_neg Ul Uc Uh B) as [M W]. split.
      + intro F. apply M, Fl, F.
      + intro F. apply W. destruct (Req_dec (val hh) (val ll)) as [E|E]; [exfalso; apply F, Fl, E|lra].
  Qed.
End Bars.

(** ** Stochastic RSI *)
Lemma within_sub x y : within 0 100 x -> within 0 100 y -> val y <= val x ->
  finite (vsub x y) /\ val (vsub x y) = rn (val x - val y) /\ 0 <= val (vsub x y).
Proof.
  intros [Fx Vx] [Fy Vy] L. destruct val100 as [F100 V100].
  destruct (@sub_in (vofZ 0) (vofZ 100) x y Fx Fy) as (E & F & V); [rewrite val0, V100; lra|].
  rewrite val0 in V. repeat split; auto. lra.
Qed.
Lemma zero_div_zero (x y : float) : finite x -> val x = 0 -> finite y -> val y = 0 -> missing (vdiv x y).
Proof.
  intros Fx Vx Fy Vy.
  assert (Z : forall z : float, finite z -> val z = 0 -> exists s, z = B754_zero s).
  { intros z Fz Vz. destruct z as [s|s| |s m e B]; try discriminate Fz; [now exists s|].
    exfalso. unfold val in Vz. cbn in Vz. apply eq_0_F2R in Vz. destruct s; discriminate. }
  destruct (Z _ Fx Vx) as [s ->]. destruct (Z _ Fy Vy) as [t ->]. reflexivity.
Qed.
(** (x - lo) / (hi - lo) between 0 and 1 *)
Lemma position_unit lo x hi : within 0 100 lo -> within 0 100 x -> within 0 100 hi -> val lo <= val x <= val hi ->
  nan_or_within 0 1 (vdiv (vsub x lo) (vsub hi lo)).
Proof.
  intros Wl Wx Wh L. destruct (within_sub Wx Wl ltac:(lra)) as (Fa & Ea & Pa).
  destruct (within_sub Wh Wl ltac:(lra)) as (Fb & Eb & Pb).
  assert (M : val (vsub x lo) <= val (vsub hi lo)) by (rewrite Ea, Eb; apply rn_le; lra).
  destruct (Req_dec (val (vsub hi lo)) 0) as [Z|Z].
  - left. apply zero_div_zero; auto. lra.
  - right. destruct val1 as [F1 V1]. destruct (@div_in (vofZ 0) (vofZ 1) (vsub x lo) (vsub hi lo) Fa Z) as (_ & F & V).
    { rewrite val0, V1. split; [apply Rle_mult_inv_pos; lra|]. apply Rmult_le_reg_r with (val (vsub hi lo)); [lra|].
      unfold Rdiv. rewrite Rmult_assoc, Rinv_l by lra. lra. }
    rewrite val0, V1 in V. split; assumption.
Qed.
Lemma scaled (s x : float) : finite s -> 0 <= val s -> nan_or_within 0 1 x -> nan_or_within 0 (val s) (vmul x s).
Proof.
  intros Fs Vs [M|[F V]]; [left; destruct x; try discriminate M; reflexivity|]. right.
  destruct (@mul_in (vofZ 0) s x s F Fs) as (_ & Fm & Vm); [rewrite val0; nra|]. rewrite val0 in Vm. split; assumption.
Qed.
Lemma rolled_rsi (r : line float) n k f w : feeds r n k f -> (1 <= w)%nat ->
  (forall i, (k <= i < n)%nat -> nan_or_within 0 100 (f i)) ->
  forall i, (k + w - 1 <= i < n)%nat ->
    nan_or_within 0 1 (vdiv (vsub (f i) (guard_win win_min (win f i w)))
                            (vsub (guard_win win_max (win f i w)) (guard_win win_min (win f i w)))).
Proof.
  intros Hr Hw Hf i Hi. assert (R : forall j, (S i - w <= j < S i - w + w)%nat -> (k <= j < n)%nat) by lia.
  destruct (@guard_cases (win f i w)) as [F|N].
  { apply win_bars. intros j Hj. destruct (Hf j (R j Hj)) as [M|[F _]]; [now left|now right]. }
  2:{ left. rewrite !N. destruct (f i) as [s|[]| |s m e B]; reflexivity. }
  assert (F' : forall j, (S i - w <= j < S i - w + w)%nat -> within 0 100 (f j)).
  { intros j Hj. destruct (Hf j (R j Hj)) as [M|W]; [|exact W]. exfalso. rewrite Forall_forall in F.
    assert (I : In (f j) (win f i w)) by (apply in_win; now exists j). specialize (F _ I).
    unfold missing, finite in *. destruct (f j); discriminate. }
  assert (F'' : forall j, (S i - w <= j < S i - w + w)%nat -> finite (f j)) by (intros j Hj; apply F'; exact Hj).
  destruct (win_max_bar f i Hw F'') as (a & Ha & -> & Ma). destruct (win_min_bar f i Hw F'') as (b & Hb & -> & Mb).
  assert (Hii : (S i - w <= i < S i - w + w)%nat) by lia. apply position_unit; auto.
Qed.
Lemma mp_rbinop op (z : float) a : (1 <= lmp (rbinop_s op z a))%Z.
Proof. unfold rbinop_s, clone; cbn [lmp]. destruct (Z.eqb_spec (Z.max (lmp a) 1) 0); lia. Qed.
Lemma stochrsi_in p philo scale (a y : line float) :
  (1 <= p)%nat -> finite scale -> 0 <= val scale -> stochrsi p philo scale a = Ok y -> every (nan_or_within 0 (val scale)) y.
Proof.
  intros Hp Fs Vs E. unfold stochrsi in E. set (w := if Nat.eqb philo 0 then p else philo) in *.
  assert (Hw : (1 <= w)%nat) by (unfold w; destruct (Nat.eqb_spec philo 0); lia).
  destruct (rsi smma p 1 a) as [r|] eqn:Er; [|discriminate]. injection E as <-.
  assert (Br : every (nan_or_within 0 100) r) by (eapply rsi_in; [exact (nonneg_smma SEED_AVG)|exact Hp|exact Er]).
  assert (Mr : (1 <= lmp r)%Z).
  { unfold rsi, bind in Er. destruct (smma p (updays 1 a)); [|discriminate]. destruct (smma p (downdays 1 a)); [|discriminate].
    injection Er as <-. apply mp_rbinop. }
  pose proof (feeds_self r Mr) as Hr. set (n := length (lser r)) in *. set (k := Z.to_nat (lmp r - 1)) in *.
  set (f := fun i => nth i (lser r) vnan) in *.
  assert (Hf : forall i, (k <= i < n)%nat -> nan_or_within 0 100 (f i)).
  { intros i Hi. unfold every in Br. rewrite Forall_forall in Br. apply Br, nth_In. unfold n in Hi. lia. }
  apply every_binop_s with (P := nan_or_within 0 1); [apply now_nan|intros; now apply scaled|].
  pose proof (rolling_delivers win_max Hw Hr) as DH. pose proof (rolling_delivers win_min Hw Hr) as DL.
  eapply delivers_every with (n := n) (k := Nat.max (Nat.max k (k + w - 1)) (Nat.max (k + w - 1) (k + w - 1)));
    [|apply now_nan|].
  - apply binop_delivers; apply delivers_feeds.
    + apply binop_delivers; [exact Hr|apply delivers_feeds; exact DL].
    + apply binop_delivers; apply delivers_feeds; [exact DH|exact DL].
  - intros i Hi. cbv beta. apply (rolled_rsi Hr Hw Hf). lia.
Qed.

(** ** Balance of power *)
Lemma rn_opp x : rn (- x) = - rn x.
Proof. apply round_NE_opp. Qed.
Lemma bop_in (o h l c : line float) n k xo xh xl xc :
  feeds o n k xo -> feeds h n k xh -> feeds l n k xl -> feeds c n k xc ->
  (forall i, (k <= i < n)%nat -> usual (xo i) /\ usual (xh i) /\ usual (xl i) /\ usual (xc i) /\
     val (xl i) <= val (xo i) <= val (xh i) /\ val (xl i) <= val (xc i) <= val (xh i)) ->
  every (nan_or_within (-1) 1) (bop o h l c).
Proof.
  intros Ho Hh Hl Hc H. unfold bop.
  eapply delivers_every with (n := n) (k := Nat.max (Nat.max k k) (Nat.max k k)); [|apply now_nan|].
  - apply binop_delivers; apply delivers_feeds; apply binop_delivers; eassumption.
  - intros i Hi. cbv beta. destruct (H i ltac:(lia)) as (Uo & Uh & Ul & Uc & L1 & L2).
    destruct (usual_sub Uc Uo) as (Fa & Ea & _). destruct (usual_sub Uh Ul) as (Fb & Eb & _).
    assert (B1 : val (vsub (xc i) (xo i)) <= val (vsub (xh i) (xl i))) by (rewrite Ea, Eb; apply rn_le; lra).
    assert (B2 : - val (vsub (xh i) (xl i)) <= val (vsub (xc i) (xo i)))
      by (rewrite Ea, Eb, <- rn_opp; apply rn_le; lra).
    assert (B0 : 0 <= val (vsub (xh i) (xl i))) by (rewrite Eb; apply rn_nonneg; lra).
    destruct (Req_dec (val (vsub (xh i) (xl i))) 0) as [Z|Z].
    + left. apply zero_div_zero; auto. lra.
    + right. apply quot_in; auto; [apply Rabs_le; lra|lra].
Qed.

(** ** Aroon *)
Lemma aroon_pt p d : (d <= p)%nat -> (1 <= p)%nat -> (Z.of_nat p <= 2 ^ 46)%Z ->
  within 0 100 (vsub (vofZ 100) (vdiv (vmul (vofZ 100) (vofnat d)) (vofnat p))).
Proof.
  intros Hd Hp Hb. unfold vofnat. destruct val100 as [F100 V100].
  assert (P53 : (2 ^ 46 * 128 = 2 ^ 53)%Z) by reflexivity.
  destruct (fofZ_exact (Z.of_nat d)) as [Fd Vd]; [lia|]. destruct (fofZ_exact (Z.of_nat p)) as [Fp Vp]; [lia|].
  destruct (fofZ_exact (100 * Z.of_nat p)) as [Fm Vm]; [lia|].
  assert (Rd : 0 <= IZR (Z.of_nat d) <= IZR (Z.of_nat p)) by (split; apply IZR_le; lia).
  assert (Rp : 1 <= IZR (Z.of_nat p)) by (apply IZR_le; lia).
  destruct (@mul_in (vofZ 0) (vofZ (100 * Z.of_nat p)) (vofZ 100) (vofZ (Z.of_nat d)) F100 Fd) as (_ & Fx & Vx).
  { rewrite val0, V100, Vd, Vm, mult_IZR. lra. }
  rewrite val0, Vm, mult_IZR in Vx. set (x := vmul (vofZ 100) _) in *.
  destruct (@div_in (vofZ 0) (vofZ 100) x (vofZ (Z.of_nat p)) Fx) as (_ & Fq & Vq).
  { rewrite Vp. lra. }
  { rewrite val0, V100, Vp. split; [apply Rle_mult_inv_pos; lra|]. apply Rmult_le_reg_r with (IZR (Z.of_nat p)); [lra|].
    unfold Rdiv. rewrite Rmult_assoc, Rinv_l by lra. lra. }
  rewrite val0, V100 in Vq.
  destruct (@sub_in (vofZ 0) (vofZ 100) (vofZ 100) _ F100 Fq) as (_ & Fs & Vs); [rewrite val0, V100; lra|].
  rewrite val0, V100 in Vs. split; assumption.
Qed.
Lemma aroon_from_in (F : list float -> float) p a : (1 <= p)%nat -> (Z.of_nat p <= 2 ^ 46)%Z ->
  (forall l, (length l <= p + 1)%nat -> exists d, F l = vofnat d /\ (d <= p)%nat) -> every (nan_or_within 0 100) (aroon_from F p a).
Proof.
  intros Hp Hb HF. unfold aroon_from.
  apply every_rbinop_s with (P := fun x : float => missing x \/ within 0 100 (vsub (vofZ 100) x)); [apply now_nan| |].
  { intros x [M|W]; [left; destruct x; try discriminate M; reflexivity|now right]. }
  apply every_binop_s with (P := fun x : float => missing x \/ within 0 100 (vsub (vofZ 100) (vdiv x (vofnat p)))); [now left| |].
  { intros x [M|W]; [left; destruct x; try discriminate M; reflexivity|now right]. }
  apply every_rbinop_s with (P := fun x : float => missing x \/ exists d, x = vofnat d /\ (d <= p)%nat); [now left| |].
  { intros x [M|(d & -> & Hd)]; [left; destruct x; try discriminate M; reflexivity|]. right. now apply aroon_pt. }
  apply every_rolling with (P := fun _ => True); [now left|reflexivity| |apply every_True].
  intros l _ Hl. right. now apply HF.
Qed.
Lemma argbest_le (bt : float -> float -> bool) l : forall b bi i n,
  (bi <= n)%nat -> (i + length l <= S n)%nat -> (argbest_from bt b bi i l <= n)%nat.
Proof.
  induction l as [|x l IH]; intros b bi i n Hb Hi; cbn in *; [exact Hb|]. destruct (bt b x); apply IH; lia.
Qed.
Lemma aroon_up_in p (a : line float) : (1 <= p)%nat -> (Z.of_nat p <= 2 ^ 46)%Z -> every (nan_or_within 0 100) (aroon_up p a).
Proof.
  intros Hp Hb. apply aroon_from_in; auto. intros l Hl. exists (argmax (rev l)). split; [reflexivity|].
  rewrite <- rev_length in Hl. destruct (rev l) as [|x q]; cbn in *; [lia|]. apply argbest_le; lia.
Qed.
Lemma aroon_dn_in p (a : line float) : (1 <= p)%nat -> (Z.of_nat p <= 2 ^ 46)%Z -> every (nan_or_within 0 100) (aroon_dn p a).
Proof.
  intros Hp Hb. apply aroon_from_in; auto. intros l Hl. exists (argmin (rev l)). split; [reflexivity|].
  rewrite <- rev_length in Hl. destruct (rev l) as [|x q]; cbn in *; [lia|]. apply argbest_le; lia.
Qed.
Lemma aroonosc_in p (h l : line float) : (1 <= p)%nat -> (Z.of_nat p <= 2 ^ 46)%Z ->
  every (nan_or_within (-100) 100) (aroonosc p h l).
Proof.
  intros Hp Hb. apply every_binop with (P := nan_or_within 0 100) (Q := nan_or_within 0 100);
    [apply now_nan| |now apply aroon_up_in|now apply aroon_dn_in].
  intros x y [M|[Fx Vx]] Hy; [left; destruct x; try discriminate M; reflexivity|].
  destruct Hy as [M|[Fy Vy]]; [left; destruct y; try discriminate M; destruct x; reflexivity|]. right.
  destruct val100 as [F100 V100]. destruct (@sub_in (opp (vofZ 100)) (vofZ 100) x y Fx Fy) as (_ & F & V);
    [rewrite val_opp, V100; lra|]. rewrite val_opp, V100 in V. split; [exact F|lra].
Qed.

(** ** Prices between low and high *)
Lemma fmt_double x : fmt x -> fmt (2 * x).
Proof.
  unfold fmt. rewrite fexp_flt. intro F. apply FLT_format_generic in F; [|reflexivity]. destruct F as [[m e] E Hm He].
  cbn [Fnum Fexp] in *. apply generic_format_FLT. exists (Float radix2 m (e + 1)); cbn [Fnum Fexp]; [|exact Hm|lia].
  rewrite E. unfold F2R; cbn [Fnum Fexp]. rewrite bpow_plus. change (bpow radix2 1) with 2. ring.
Qed.
Lemma usual_add x y : Rabs (val x) <= bpow radix2 1000 -> Rabs (val y) <= bpow radix2 1000 -> finite x -> finite y ->
  finite (vadd x y) /\ val (vadd x y) = rn (val x + val y).
Proof.
  intros Hx Hy Fx Fy. destruct big1010 as [Fg Vg]. apply Rabs_le_inv in Hx, Hy.
  assert (G : bpow radix2 1000 + bpow radix2 1000 <= bpow radix2 1010).
  { replace 1010%Z with (10 + 1000)%Z by reflexivity. rewrite bpow_plus. change (bpow radix2 10) with 1024.
    pose proof (bpow_ge_0 radix2 1000). lra. }
  destruct (@add_in (opp (big 1010)) (big 1010) x y Fx Fy) as (E & F & _); [rewrite val_opp, Vg; lra|]. split; assumption.
Qed.
Lemma add_between lo hi a b x y : fmt a -> fmt b -> Rabs (val x) <= bpow radix2 1000 -> Rabs (val y) <= bpow radix2 1000 ->
  finite x -> finite y -> a = lo -> b = hi -> lo <= val x + val y <= hi ->
  finite (vadd x y) /\ lo <= val (vadd x y) <= hi.
Proof.
  intros Fa Fb Hx Hy Fx Fy -> -> [H1 H2]. destruct (usual_add Hx Hy Fx Fy) as [F E]. split; [exact F|]. rewrite E.
  split; [now apply rn_ge|now apply rn_le_fmt].
Qed.
Lemma val2 : finite (vofZ 2) /\ val (vofZ 2) = 2. Proof. apply fofZ_exact. vm_compute. discriminate. Qed.
Lemma val4 : finite (vofZ 4) /\ val (vofZ 4) = 4. Proof. apply fofZ_exact. vm_compute. discriminate. Qed.
Lemma usual_abs x : usual x -> finite x /\ Rabs (val x) <= bpow radix2 999 /\ Rabs (val x) <= bpow radix2 1000.
Proof. intros [F V]. pose proof bpow_double. pose proof (bpow_ge_0 radix2 999). repeat split; auto; apply Rabs_le; lra. Qed.
Lemma half_sum (l h : float) : usual l -> usual h -> val l <= val h ->
  within (val l) (val h) (vdiv (vadd h l) (vofZ 2)).
Proof.
  intros Ul Uh L. destruct (usual_abs Ul) as (Fl & _ & Bl). destruct (usual_abs Uh) as (Fh & _ & Bh).
  destruct (add_between (lo := 2 * val l) (hi := 2 * val h) (fmt_double (fmt_val l)) (fmt_double (fmt_val h)) Bh Bl Fh Fl
    eq_refl eq_refl ltac:(lra)) as [F V].
  destruct val2 as [F2 V2]. destruct (@div_in l h (vadd h l) (vofZ 2) F) as (_ & Fd & Vd); [rewrite V2; lra|rewrite V2; lra|].
  split; assumption.
Qed.
Lemma medprice_in (h l : line float) n k xh xl : feeds h n k xh -> feeds l n k xl ->
  (forall i, (k <= i < n)%nat -> usual (xh i) /\ usual (xl i) /\ val (xl i) <= val (xh i)) ->
  exists f, delivers (medprice (vofZ 2) h l) n k f /\
    forall i, (k <= i < n)%nat -> within (val (xl i)) (val (xh i)) (f i).
Proof.
  intros Hh Hl H. eexists. split.
  - replace k with (Nat.max k k) at 1 by lia. apply binop_s_delivers, delivers_feeds, binop_delivers; eassumption.
  - intros i Hi. cbv beta. destruct (H i Hi) as (Uh & Ul & L). now apply half_sum.
Qed.
Lemma midprice_in (h l : line float) n k p xh xl : feeds h n k xh -> feeds l n k xl -> (1 <= p)%nat ->
  (forall i, (k <= i < n)%nat -> usual (xh i) /\ usual (xl i) /\ val (xl i) <= val (xh i)) ->
  exists f, delivers (midprice p h l) n (k + p - 1) f /\
    forall i, (k + p - 1 <= i < n)%nat ->
      exists a b, (S i - p <= a <= i)%nat /\ (S i - p <= b <= i)%nat /\
        (forall j, (S i - p <= j <= i)%nat -> val (xl b) <= val (xl j) /\ val (xh j) <= val (xh a)) /\
        within (val (xl b)) (val (xh a)) (f i).
Proof.
  intros Hh Hl Hp H.
  pose proof (rolling_delivers win_max Hp Hh) as DH. pose proof (rolling_delivers win_min Hp Hl) as DL.
  eexists. split.
  - replace (k + p - 1)%nat with (Nat.max (k + p - 1) (k + p - 1)) at 1 by lia.
    apply binop_s_delivers, delivers_feeds, binop_delivers; apply delivers_feeds; [exact DH|exact DL].
  - intros i Hi. cbv beta. assert (R : forall j, (S i - p <= j < S i - p + p)%nat -> (k <= j < n)%nat) by lia.
    destruct (win_max_bar xh i Hp) as (a & Ha & -> & Ma).
    { intros j Hj. destruct (H j (R j Hj)) as ((F & _) & _). exact F. }
    destruct (win_min_bar xl i Hp) as (b & Hb & -> & Mb).
    { intros j Hj. destruct (H j (R j Hj)) as (_ & (F & _) & _). exact F. }
    exists a, b. split; [lia|]. split; [lia|]. split.
    + intros j Hj. split; [apply Mb|apply Ma]; lia.
    + destruct (H a (R a Ha)) as (Ua & _ & La). destruct (H b (R b Hb)) as (_ & Ub & Lb).
      apply half_sum; auto. pose proof (Mb a ltac:(lia)). lra.
Qed.
Lemma wclprice_in (h l c : line float) n k xh xl xc : feeds h n k xh -> feeds l n k xl -> feeds c n k xc ->
  (forall i, (k <= i < n)%nat -> usual (xh i) /\ usual (xl i) /\ usual (xc i) /\ val (xl i) <= val (xc i) <= val (xh i)) ->
  exists f, delivers (wclprice (vofZ 2) (vofZ 4) h l c) n k f /\
    forall i, (k <= i < n)%nat -> within (val (xl i)) (val (xh i)) (f i).
Proof.
  intros Hh Hl Hc H. eexists. split.
  - replace k with (Nat.max (Nat.max k k) k) at 1 by lia. apply binop_s_delivers, delivers_feeds, binop_delivers; apply delivers_feeds.
    + apply binop_delivers; eassumption.
    + apply binop_s_delivers; eassumption.
  - intros i Hi. cbv beta. destruct (H i Hi) as (Uh & Ul & Uc & L).
    destruct (usual_abs Ul) as (Fl & Bl' & Bl). destruct (usual_abs Uh) as (Fh & Bh' & Bh). destruct (usual_abs Uc) as (Fc & Bc' & Bc).
    destruct (add_between (lo := 2 * val (xl i)) (hi := 2 * val (xh i)) (fmt_double (fmt_val (xl i))) (fmt_double (fmt_val (xh i)))
      Bh Bl Fh Fl eq_refl eq_refl ltac:(lra)) as [Fs Vs].
    destruct val2 as [F2 V2]. destruct val4 as [F4 V4]. pose proof bpow_double.
    destruct big1000 as (g & Fg & Vg). apply Rabs_le_inv in Bc', Bl', Bh'.
    destruct (@mul_in (opp g) g (xc i) (vofZ 2) Fc F2) as (Ew & Fw & Vw); [rewrite val_opp, Vg, V2; lra|].
    rewrite V2 in Ew. rewrite (rn_fmt (x := val (xc i) * 2)) in Ew by (rewrite Rmult_comm; apply fmt_double, fmt_val).
    rewrite val_opp, Vg in Vw.
    destruct (add_between (lo := 2 * (2 * val (xl i))) (hi := 2 * (2 * val (xh i))) (x := vadd (xh i) (xl i)) (y := vmul (xc i) (vofZ 2))
      (fmt_double (fmt_double (fmt_val (xl i)))) (fmt_double (fmt_double (fmt_val (xh i))))
      ltac:(apply Rabs_le; lra) ltac:(apply Rabs_le; lra) Fs Fw eq_refl eq_refl ltac:(lra)) as [Ft Vt].
    destruct (@div_in (xl i) (xh i) (vadd (vadd (xh i) (xl i)) (vmul (xc i) (vofZ 2))) (vofZ 4) Ft) as (_ & Fd & Vd);
      [rewrite V4; lra|rewrite V4; lra|]. split; assumption.
Qed.

(** ** True range *)
Lemma ltb_irrefl (x : float) : vltb x x = false.
Proof.
  destruct x as [s|[]| |s m e B]; try reflexivity. set (x := B754_finite s m e B).
  apply ltb_false; [reflexivity|reflexivity|lra].
Qed.
Lemma nan_false (x y : float) : missing x \/ missing y -> vltb x y = false.
Proof. intros [M|M]; [destruct x; try discriminate M; reflexivity|destruct y; try discriminate M; destruct x as [|[]| |]; reflexivity]. Qed.
Lemma leb_ltb (x y : float) : vleb x y = false -> vltb x y = false.
Proof.
  cbn [vleb vltb NumF]. unfold Bleb, Bltb, SpecFloat.SFleb, SpecFloat.SFltb.
  destruct (SpecFloat.SFcompare (B2SF x) (B2SF y)) as [[]|]; congruence.
Qed.
Lemma nleb_ltb (x y : float) : vleb x y = false -> vltb y x = true \/ missing x \/ missing y.
Proof.
  cbn [vleb vltb NumF]. unfold Bleb, Bltb, SpecFloat.SFleb, SpecFloat.SFltb. intro H.
  destruct x as [s|s| |s m e B]; [| |right; left; reflexivity|];
  destruct y as [t|t| |t m' e' B']; try (right; right; reflexivity); left.
  all: try (destruct s, t; cbn in *; congruence).
  set (x := B754_finite s m e B) in *. set (y := B754_finite t m' e' B') in *.
  apply (ltb_iff (x := y) (y := x)); [reflexivity|reflexivity|].
  destruct (Rlt_le_dec (val y) (val x)) as [L|L]; [exact L|].
  apply (leb_iff (x := x) (y := y)) in L; [|reflexivity|reflexivity]. cbn [vleb NumF] in L. unfold Bleb, SpecFloat.SFleb in L. congruence.
Qed.
Lemma ltb_asym (x y : float) : vltb x y = true -> vltb y x = false.
Proof.
  cbn [vltb NumF]. intro H. destruct (Bltb y x) eqn:E; [|reflexivity].
  destruct x as [s|s| |s m e B], y as [t|t| |t m' e' B']; try (destruct s, t; cbn in *; discriminate); try (destruct s; discriminate); try discriminate.
  set (x := B754_finite s m e B) in *. set (y := B754_finite t m' e' B') in *.
  apply (ltb_iff (x := x) (y := y)) in H; [|reflexivity|reflexivity].
  apply (ltb_iff (x := y) (y := x)) in E; [|reflexivity|reflexivity]. lra.
Qed.
Lemma nonneg_sub x y : vltb x y = false -> nonneg (vsub x y).
Proof.
  intro H.
  destruct (is_finite x) eqn:Fx; [destruct (is_finite y) eqn:Fy|].
  - apply ltb_false in H; auto.
    pose proof (Bminus_correct prec emax _ _ mode_NE x y Fx Fy) as C. fold (val x) (val y) in C.
    change (round radix2 fexp64 (round_mode mode_NE)) with rn in C.
    destruct (Rlt_bool_spec (Rabs (rn (val x - val y))) (bpow radix2 emax)) as [L|L].
    + destruct C as (E & F & _). apply finite_nonneg; [exact F|]. unfold val at 1. cbn [vsub NumF]. rewrite E.
      apply rn_nonneg. lra.
    + destruct C as (E & S). apply overflow_inf in E. cbn [vsub NumF]. rewrite E. cbn.
      destruct (Rlt_le_dec 0 (val x)) as [P|P]; [now apply sign_pos|].
      destruct (Bsign x) eqn:Sx; [|reflexivity]. exfalso.
      assert (0 <= val y).
      { destruct y as [t|t| |t m e B]; try (cbn; lra). symmetry in S. apply negb_true_iff in S. cbn in S. subst t. apply F2R_ge_0. cbn. lia. }
      assert (Z : val x - val y = 0) by lra. rewrite Z, rn_0, Rabs_R0 in L. pose proof bpow_pos_emax. lra.
  - destruct y as [t|t| |t m e B]; try discriminate Fy; destruct x as [s|s| |s m e B]; try discriminate Fx; try exact I;
      destruct t; try discriminate H; reflexivity.
  - destruct x as [s|s| |s m e B]; try discriminate Fx; [|destruct y; exact I].
    destruct y as [t|t| |t m e B]; destruct s; try destruct t; try discriminate H; try exact I; reflexivity.
Qed.
Lemma ltb_between (l c h : float) : vltb l c = true -> vltb c h = true -> vltb h l = false.
Proof.
  rewrite <- !exact_ltb. destruct (exact l), (exact c), (exact h); cbn; intros A B; try discriminate; try reflexivity.
  revert A B. repeat match goal with |- context [Rltb ?x ?y] => destruct (Rltb_spec x y) end; intros A B; try discriminate; [lra|reflexivity].
Qed.
Lemma range_pt (h l c : float) : nonneg (vsub (clip_lo h c) (clip_hi l c)).
Proof.
  unfold clip_lo, clip_hi. destruct (visnan c) eqn:N.
  { destruct c; try discriminate N. exact I. }
  apply nonneg_sub. destruct (vleb h c) eqn:A, (vleb c l) eqn:B.
  - apply ltb_irrefl.
  - apply leb_ltb. exact B.
  - apply leb_ltb. exact A.
  - apply nleb_ltb in A, B. destruct A as [A|[A|A]]; [|apply nan_false; auto|destruct c; discriminate].
    destruct B as [B|[B|B]]; [|destruct c; discriminate|apply nan_false; auto]. now apply ltb_between with c.
Qed.
Lemma truerange_nonneg (h l c : line float) q : (1 <= lmp h)%Z -> (1 <= lmp l)%Z -> (1 <= lmp c)%Z ->
  length (lser h) = length (lser c) -> length (lser l) = length (lser c) -> (1 <= q)%nat ->
  every nonneg (truerange q h l c).
Proof.
  intros Mh Ml Mc Eh El Hq. pose proof (feeds_self h Mh) as Hh. pose proof (feeds_self l Ml) as Hl.
  pose proof (feeds_self c Mc) as Hc. rewrite Eh in Hh. rewrite El in Hl. set (n := length (lser c)) in *.
  unfold truerange, lclip_lo_l, lclip_hi_l. pose proof (at_ago_delivers Hc Hq) as D1. apply delivers_feeds in D1.
  eapply delivers_every with (n := n); [|exact I|].
  - apply binop_delivers; apply delivers_feeds; eapply stdop2_delivers; try eassumption; cbv zeta; apply map2_map_seq.
  - intros i _. cbv beta. apply range_pt.
Qed.
Lemma atr_nonneg ma (h l c y : line float) p q : (1 <= lmp h)%Z -> (1 <= lmp l)%Z -> (1 <= lmp c)%Z ->
  length (lser h) = length (lser c) -> length (lser l) = length (lser c) -> (1 <= p)%nat -> (1 <= q)%nat ->
  keeps_nonneg ma -> atr ma p q h l c = Ok y -> every nonneg y.
Proof. intros Mh Ml Mc Eh El Hp Hq K E. eapply K; [exact Hp| |exact E]. now apply truerange_nonneg. Qed.
Lemma natr_nonneg ma (h l c y : line float) p q : (1 <= lmp h)%Z -> (1 <= lmp l)%Z -> (1 <= lmp c)%Z ->
  length (lser h) = length (lser c) -> length (lser l) = length (lser c) -> (1 <= p)%nat -> (1 <= q)%nat ->
  keeps_nonneg ma -> every unsigned c -> natr ma p q h l c = Ok y -> every nonneg y.
Proof.
  intros Mh Ml Mc Eh El Hp Hq K U E. unfold natr in E. destruct (atr ma p q h l c) as [a|] eqn:Ea; [|discriminate].
  injection E as <-. assert (A : every nonneg a) by exact (@atr_nonneg ma h l c a p q Mh Ml Mc Eh El Hp Hq K Ea).
  apply every_binop with (P := nonneg) (Q := unsigned); [exact I|intros; now apply nonneg_div| |exact U].
  apply every_rbinop_s with (P := nonneg); [exact I| |exact A].
  intros x H. apply nonneg_mul; [reflexivity|exact H].
Qed.
Lemma var_nonneg p ddof (a : line float) : every nonneg (var p ddof a).
Proof.
  apply every_rolling with (P := fun _ => True); [exact I|reflexivity| |apply every_True].
  intros l _ _. unfold win_var. destruct (_ <=? _)%nat; [exact I|]. destruct (_ =? _)%nat; [exact I|].
  destruct (vltb _ v0) eqn:E; [exact I|]. set (r := vdiv _ _) in *. clearbody r.
  destruct r as [s|[]| |[] m e B]; try exact I; try reflexivity; discriminate.
Qed.

(** ** The counterexamples *)
(** value of a computed double *)
Lemma val_SF (x : float) s m e : B2SF x = SpecFloat.S754_finite s m e -> finite x /\ val x = F2R (Float radix2 (cond_Zopp s (Zpos m)) e).
Proof.
  intro E. unfold finite, val. rewrite <- is_finite_SF_B2SF, <- SF2R_B2SF, E. split; reflexivity.
Qed.
Definition q108 : float := vofQ (QArith_base.Qmake 108 10).
Definition q101 : float := vofQ (QArith_base.Qmake 101 10).
Lemma stoch_above : within 0 11 q108 /\ within 0 11 q101 /\ val q101 <= val q108 /\
  exists y, lser (stoch_k 1 (raw [q108]) (raw [q101]) (raw [q108])) = [y] /\ val y = 100 + bpow radix2 (-46).
Proof.
  destruct (@val_SF q108 false 6079859496950170 (-49)) as [F1 V1]; [vm_compute; reflexivity|].
  destruct (@val_SF q101 false 5685794529555251 (-49)) as [F2 V2]; [vm_compute; reflexivity|].
  unfold F2R in V1, V2. cbn [Fnum Fexp cond_Zopp] in V1, V2. change (bpow radix2 (-49)) with (/ 562949953421312) in V1, V2.
  split; [split; [exact F1|rewrite V1; lra]|]. split; [split; [exact F2|rewrite V2; lra]|]. split; [lra|].
  eexists. split; [reflexivity|].
  match goal with |- val ?x = _ => destruct (@val_SF x false 7036874417766401 (-46)) as [_ V]; [vm_compute; reflexivity|] end.
  rewrite V. unfold F2R. cbn. lra.
Qed.
Lemma willr_below :
  exists y, lser (williamsr 1 (raw [q108]) (raw [q101]) (raw [q101])) = [y] /\ val y = - (100 + bpow radix2 (-46)).
Proof.
  eexists. split; [reflexivity|].
  match goal with |- val ?x = _ => destruct (@val_SF x true 7036874417766401 (-46)) as [_ V]; [vm_compute; reflexivity|] end.
  rewrite V. unfold F2R. cbn. lra.
Qed.
Definition q01 : float := vofQ (QArith_base.Qmake 1 10).
Lemma typprice_above : finite q01 /\
  exists y, lser (typprice (vofZ 3) (raw [q01]) (raw [q01]) (raw [q01])) = [y] /\ finite y /\ val q01 < val y.
Proof.
  destruct (@val_SF q01 false 7205759403792794 (-56)) as [F1 V1]; [vm_compute; reflexivity|].
  split; [exact F1|]. eexists. split; [reflexivity|].
  match goal with |- finite ?x /\ _ => destruct (@val_SF x false 7205759403792795 (-56)) as [F V]; [vm_compute; reflexivity|] end.
  split; [exact F|]. rewrite V1, V. unfold F2R. cbn. lra.
Qed.

Lemma small_usual (x : float) : within 0 11 x -> usual x.
Proof.
  intros [F V]. assert (16 <= bpow radix2 999) by (apply Rle_trans with (bpow radix2 4); [cbn; lra|apply bpow_le; lia]).
  split; [exact F|lra].
Qed.
Lemma stoch_refuted : exists high low close : float,
    usual high /\ usual low /\ usual close /\ val low <= val close <= val high /\
    exists y, lser (stoch_k 1 (raw [high]) (raw [low]) (raw [close])) = [y] /\ val y = 100 + bpow radix2 (-46).
Proof.
  destruct stoch_above as (A & B & C & y & E & V). exists q108, q101, q108.
  exact (conj (small_usual A) (conj (small_usual B) (conj (small_usual A) (conj (conj C (Rle_refl _)) (ex_intro _ y (conj E V)))))).
Qed.
Lemma willr_refuted : exists high low close : float,
    usual high /\ usual low /\ usual close /\ val low <= val close <= val high /\
    exists y, lser (williamsr 1 (raw [high]) (raw [low]) (raw [close])) = [y] /\ val y = - (100 + bpow radix2 (-46)).
Proof.
  destruct stoch_above as (A & B & C & _). destruct willr_below as (y & E & V). exists q108, q101, q101.
  exact (conj (small_usual A) (conj (small_usual B) (conj (small_usual B) (conj (conj (Rle_refl _) C) (ex_intro _ y (conj E V)))))).
Qed.
Lemma q01_usual : usual q01.
Proof.
  destruct (@val_SF q01 false 7205759403792794 (-56)) as [F1 V1]; [vm_compute; reflexivity|].
  apply small_usual. split; [exact F1|]. rewrite V1. unfold F2R. cbn. lra.
Qed.
Lemma typprice_refuted : exists x : float, usual x /\
    exists y, lser (typprice (vofZ 3) (raw [x]) (raw [x]) (raw [x])) = [y] /\ finite y /\ val x < val y.
Proof. destruct typprice_above as (_ & y & E & F & L). exists q01. split; [exact q01_usual|]. exact (ex_intro _ y (conj E (conj F L))). Qed.
Lemma sma_refuted : exists x : float, usual x /\
    exists y, nth_error (lser (sma 3 (raw [x; x; x]))) 2 = Some y /\ finite y /\ val x < val y.
Proof.
  exists q01. split; [exact q01_usual|].
  destruct (@val_SF q01 false 7205759403792794 (-56)) as [F1 V1]; [vm_compute; reflexivity|].
  set (r := nth_error (lser (sma 3 (raw [q01; q01; q01]))) 2).
  assert (R : option_map (@B2SF prec emax) r = Some (SpecFloat.S754_finite false 7205759403792795 (-56))) by (vm_compute; reflexivity).
  destruct r as [y|]; [|discriminate]. injection R as R. exists y. split; [reflexivity|].
  destruct (val_SF _ R) as [F V]. split; [exact F|]. rewrite V1, V. unfold F2R. cbn. lra.
Qed.
Lemma aroon_in p (high low : line float) : (1 <= p)%nat -> (Z.of_nat p <= 2 ^ 46)%Z ->
    every (nan_or_within 0 100) (aroon_up p high) /\ every (nan_or_within 0 100) (aroon_dn p low) /\
    every (nan_or_within (-100) 100) (aroonosc p high low).
Proof. intros. split; [now apply aroon_up_in|]. split; [now apply aroon_dn_in|now apply aroonosc_in]. Qed.
Lemma averages_nonneg :
  keeps_nonneg (fun p a => Ok (sma p a)) /\ keeps_nonneg (fun p a => Ok (sumn p a)) /\
  (forall sd, keeps_nonneg (fun p a => ema_full p sd 0 a)) /\
  (forall sd, keeps_nonneg (fun p a => smma_seed p sd a)) /\
  (forall adjust, keeps_nonneg (fun p a => Ok (ewma p adjust a))) /\
  keeps_nonneg (fun p a => Ok (wma p a)) /\
  keeps_nonneg (fun p a => Ok (trima p a)).
Proof.
  exact (conj nonneg_sma (conj nonneg_sumn (conj nonneg_ema (conj nonneg_smma (conj nonneg_ewma_ind (conj nonneg_wma nonneg_trima)))))).
Qed.
Lemma extremes_exact p (a : line float) :
    exact_line (max_ind p a) = max_ind p (exact_line a) /\ exact_line (min_ind p a) = min_ind p (exact_line a).
Proof. split; [apply max_exact_line|apply min_exact_line]. Qed.
Lemma positions_exact p (a : line float) : (Z.of_nat p <= 2 ^ 53)%Z ->
    exact_line (maxindex p a) = maxindex p (exact_line a) /\ exact_line (minindex p a) = minindex p (exact_line a).
Proof. split; [now apply maxindex_exact_line|now apply minindex_exact_line]. Qed.
Lemma crossings_exact strict (a b : line float) :
    exact_line (crossup strict a b) = crossup strict (exact_line a) (exact_line b) /\
    exact_line (crossdown strict a b) = crossdown strict (exact_line a) (exact_line b).
Proof. split; [apply crossup_exact|apply crossdown_exact]. Qed.

(** ** The whole catalogue *)
Definition float_no_repaint (T : NumT float) := @session_no_repaint float NumF T.
Lemma float_minperiods (T : NumT float) n (env : list (line float)) steps outs :
    Forall (fun x => (1 <= lmp x)%Z /\ length (lser x) = n) env ->
    Forall (fun s => valid (fst s)) steps ->
    session env steps = Ok outs ->
    map (@lmp float) outs = session_mps (map (@lmp float) env) steps /\
    Forall (fun l => length (lser l) = n) outs /\
    exists new, outs = env ++ new.
Proof. apply session_minperiods, nan_laws_float. Qed.
Lemma float_warm (T : NumT float) n (env : list (line float)) steps outs :
    Forall (fun x => (1 <= lmp x)%Z /\ length (lser x) = n) env ->
    Forall (fun s => valid (fst s) /\ plain (fst s) = true) steps ->
    session env steps = Ok outs ->
    forall j l, (length env <= j)%nat -> nth_error outs j = Some l ->
    forall i, (Z.of_nat i < lmp l - 1)%Z -> (i < n)%nat ->
    exists x, nth_error (lser l) i = Some x /\ missing x.
Proof.
  intros He Hs E j l Hj Hl i Hi Hn. exists vnan. split; [|reflexivity].
  eapply session_warm; [exact nan_laws_float|exact He|exact Hs|exact E|exact Hj|exact Hl|exact Hi|exact Hn].
Qed.
