(** The averages of doubles that are not negative are not negative. *)
From Coq Require Import ZArith Reals List Bool Lia Lra Psatz.
From Flocq Require Import Core IEEE754.BinarySingleNaN.
From Verif Require Import Num Series Line IndMA IndOsc Float64 FloatSpec FloatFacts FloatLine.
Import ListNotations.
Set Implicit Arguments.
Local Open Scope R_scope.

Lemma sign_false_nonneg x : finite x -> Bsign x = false -> 0 <= val x.
Proof.
  intros F S. destruct x as [s|s| |s m e B]; try discriminate F; [cbn; lra|]. cbn in S. subst s. apply F2R_ge_0. cbn. lia.
Qed.
Lemma unsigned_cases x : unsigned x -> missing x \/ x = B754_infinity false \/ (finite x /\ 0 <= val x /\ Bsign x = false).
Proof.
  intros [H|H]; [left; exact H|]. destruct x as [s|s| |s m e B] eqn:E.
  - right; right. repeat split; [cbn; lra|exact H].
  - right; left. cbn in H. now subst.
  - left. reflexivity.
  - right; right. split; [reflexivity|]. split; [|exact H]. now apply sign_false_nonneg.
Qed.
Lemma unsigned_add x y : unsigned x -> unsigned y -> unsigned (vadd x y).
Proof.
  intros Hx Hy. apply unsigned_cases in Hx, Hy.
  destruct Hx as [M|[->|(Fx & Vx & Sx)]]; [left; destruct x; try discriminate M; reflexivity| |].
  - destruct Hy as [M|[->|(Fy & _)]]; [left; destruct y; try discriminate M; reflexivity|right; reflexivity|].
    right. destruct y; try discriminate Fy; reflexivity.
  - destruct Hy as [M|[->|(Fy & Vy & Sy)]];
      [left; destruct y; try discriminate M; destruct x; reflexivity|right; destruct x; try discriminate Fx; reflexivity|].
    pose proof (Bplus_correct prec emax _ _ mode_NE x y Fx Fy) as C. fold (val x) (val y) in C.
    right. cbn [vadd NumF]. destruct (Rlt_bool _ _).
    + destruct C as (_ & _ & ->). destruct (Rcompare_spec (val x + val y) 0); [lra| |reflexivity]. now rewrite Sx.
    + destruct C as (E & _). apply overflow_inf in E. rewrite E. exact Sx.
Qed.
Lemma unsigned_mul x y : unsigned x -> unsigned y -> unsigned (vmul x y).
Proof.
  intros Hx Hy. pose proof (Bmult_correct prec emax _ _ mode_NE x y) as C.
  destruct (is_nan (vmul x y)) eqn:M; [left; exact M|]. right.
  assert (Sx : Bsign x = false) by (destruct Hx as [Hx|Hx]; [destruct x; discriminate|exact Hx]).
  assert (Sy : Bsign y = false) by (destruct Hy as [Hy|Hy]; [destruct y; try discriminate Hy; destruct x; discriminate|exact Hy]).
  destruct x as [s|s| |s m e B] eqn:Ex, y as [t|t| |t m' e' B'] eqn:Ey; try discriminate M;
    try (cbn in Sx, Sy |- *; subst; reflexivity).
  destruct (Rlt_bool _ _).
  - destruct C as (_ & _ & C). cbn [vmul NumF] in *. rewrite (C M), Sx, Sy. reflexivity.
  - apply overflow_inf in C. cbn [vmul NumF]. rewrite C, Sx, Sy. reflexivity.
Qed.
Lemma unsigned_sub x y : finite x -> finite y -> Bsign x = false -> val y <= val x -> unsigned (vsub x y).
Proof.
  intros Fx Fy S L. pose proof (Bminus_correct prec emax _ _ mode_NE x y Fx Fy) as C. fold (val x) (val y) in C.
  right. cbn [vsub NumF]. destruct (Rlt_bool _ _).
  - destruct C as (_ & _ & ->). destruct (Rcompare_spec (val x - val y) 0); [lra| |reflexivity]. now rewrite S.
  - destruct C as (E & _). apply overflow_inf in E. now rewrite E.
Qed.
Lemma unsigned_ofZ z : (0 <= z)%Z -> unsigned (vofZ z).
Proof. apply fofZ_sign. Qed.
Lemma unsigned_div x y : unsigned x -> unsigned y -> unsigned (vdiv x y).
Proof.
  intros Hx Hy. destruct (is_nan (vdiv x y)) eqn:M; [left; exact M|]. right.
  assert (Sx : Bsign x = false) by (destruct Hx as [Hx|Hx]; [destruct x; discriminate|exact Hx]).
  assert (Sy : Bsign y = false) by (destruct Hy as [Hy|Hy]; [destruct y; try discriminate Hy; destruct x; discriminate|exact Hy]).
  pose proof (Bdiv_correct prec emax _ _ mode_NE x y) as C.
  destruct x as [s|s| |s m e B] eqn:Ex, y as [t|t| |t m' e' B'] eqn:Ey; try discriminate M;
    try (cbn in Sx, Sy |- *; subst; reflexivity).
  specialize (C ltac:(assert (0 < val y) by (subst y; cbn in Sy; subst t; apply F2R_gt_0; reflexivity); subst y; unfold val in H; lra)).
  destruct (Rlt_bool _ _).
  - destruct C as (_ & _ & C). cbn [vdiv NumF] in *. rewrite (C M), Sx, Sy. reflexivity.
  - apply overflow_inf in C. cbn [vdiv NumF]. rewrite C, Sx, Sy. reflexivity.
Qed.

(** 1 / (1 + com) is between 0 and 1 *)
Lemma alpha_01 com : unsigned com -> missing (alpha_com com) \/ (within 0 1 (alpha_com com) /\ Bsign (alpha_com com) = false).
Proof.
  intro H. assert (U : unsigned (alpha_com com)).
  { apply unsigned_div; [apply unsigned_ofZ; lia|apply unsigned_add; [apply unsigned_ofZ; lia|exact H]]. }
  destruct U as [U|U]; [left; exact U|]. destruct val1 as [F1 V1].
  assert (I : alpha_com (B754_infinity false : float) = B754_zero false) by reflexivity.
  apply unsigned_cases in H. destruct H as [M|[->|(F & V & S)]].
  - left. destruct com; try discriminate M. reflexivity.
  - right. split; [|exact U]. rewrite I. split; [reflexivity|cbn; lra].
  - right. split; [|exact U]. unfold alpha_com, v1 in *. set (one := vofZ 1 : float) in *.
    pose proof (Bplus_correct prec emax _ _ mode_NE one com F1 F) as C. fold (val one) (val com) in C.
    change (round radix2 fexp64 (round_mode mode_NE)) with rn in C. rewrite V1 in C.
    change (Bplus mode_NE one com) with (vadd one com) in C.
    destruct (Rlt_bool _ _).
    + destruct C as (E & Fu & _). set (u := vadd one com) in *. fold (val u) in E.
      assert (G : 1 <= val u) by (rewrite E; apply rn_ge; [rewrite <- V1; apply fmt_val|lra]).
      destruct (@div_in (vofZ 0) one one u F1 ltac:(lra)) as (_ & Fd & Vd).
      { rewrite val0, V1. split; [apply Rle_mult_inv_pos; lra|].
        apply Rmult_le_reg_r with (val u); [lra|]. unfold Rdiv. rewrite Rmult_assoc, Rinv_l by lra. nra. }
      rewrite val0, V1 in Vd. split; assumption.
    + destruct C as (E & _). apply overflow_inf in E. rewrite E. split; [reflexivity|cbn; lra].
Qed.
Lemma alpha_weights com : unsigned com -> unsigned (alpha_com com) /\ unsigned (vsub v1 (alpha_com com)).
Proof.
  intro H. destruct (alpha_01 H) as [M|[[F V] S]].
  - split; left; [exact M|]. destruct (alpha_com com); try discriminate M. reflexivity.
  - split; [right; exact S|]. destruct val1 as [F1 V1]. apply unsigned_sub; [exact F1|exact F|reflexivity|].
    change (val v1) with (val (vofZ 1)). rewrite V1. lra.
Qed.
Lemma span_com p : (1 <= p)%nat -> unsigned (vdiv (vsub (vofZ (Z.of_nat p)) v1) (vofZ 2) : float).
Proof.
  intro Hp. apply unsigned_div; [|apply unsigned_ofZ; lia]. destruct val1 as [F1 V1].
  pose proof (unsigned_ofZ (z := Z.of_nat p) ltac:(lia)) as U. apply unsigned_cases in U.
  assert (GE : finite (vofZ (Z.of_nat p) : float) -> 1 <= val (vofZ (Z.of_nat p))).
  { intro F. pose proof (binary_normalize_correct prec emax _ _ mode_NE (Z.of_nat p) 0 false) as C. cbv zeta in C.
    change (round radix2 fexp64 (round_mode mode_NE)) with rn in C.
    destruct (Rlt_bool _ _).
    - destruct C as (E & _). unfold val. cbn [vofZ NumF]. unfold fofZ. rewrite E. apply rn_ge; [rewrite <- V1; apply fmt_val|].
      unfold F2R; cbn [Fnum Fexp bpow]. rewrite Rmult_1_r. apply IZR_le. lia.
    - apply overflow_inf in C. cbn [vofZ NumF] in F. unfold fofZ, finite in F. rewrite C in F. discriminate. }
  destruct U as [M|[E|(F & V & S)]].
  - left. destruct (vofZ (Z.of_nat p) : float); try discriminate M. reflexivity.
  - right. rewrite E. reflexivity.
  - apply unsigned_sub; [exact F|exact F1|exact S|]. change (val v1) with (val (vofZ 1)). rewrite V1. auto.
Qed.

Lemma nonneg_sum l : Forall nonneg l -> nonneg (vsum l).
Proof. apply vsum_keep; [apply nonneg_add|exact nonneg_0]. Qed.
Lemma nonneg_ser_mean l : Forall nonneg l -> nonneg (ser_mean l).
Proof.
  intro H. apply notnan_keep in H. unfold ser_mean. destruct (notnan l) as [|x q] eqn:E; [exact nonneg_nan|].
  apply nonneg_div; [now apply nonneg_sum|apply unsigned_ofZ; lia].
Qed.
Lemma nonneg_ser_sum l : Forall nonneg l -> nonneg (ser_sum l).
Proof. intro H. apply nonneg_sum. now apply notnan_keep. Qed.
Lemma nonneg_ewma alpha adjust s :
  unsigned alpha -> unsigned (vsub v1 alpha) -> Forall nonneg s -> Forall nonneg (ser_ewma alpha adjust s).
Proof.
  intros A B. apply ser_ewma_keep with (W := unsigned); auto using nonneg_nan, unsigned_add, unsigned_mul.
  - apply unsigned_ofZ. lia.
  - intros. apply nonneg_div; [apply nonneg_add; apply nonneg_mul; auto using unsigned_nonneg|now apply unsigned_add].
Qed.
Lemma clean_weaken l : Forall (fun x : float => nonneg x /\ clean x) l -> Forall nonneg l.
Proof. apply Forall_impl. intros x [H _]. exact H. Qed.

Lemma nonneg_sma : keeps_nonneg sma_.
Proof.
  intros p a y Hp Ha E. injection E as <-. apply every_rolling with (P := nonneg); auto using nonneg_nan.
  intros l Hl _. apply nonneg_div; [apply nonneg_sum; now apply clean_weaken|apply unsigned_ofZ; lia].
Qed.
Lemma nonneg_sumn : keeps_nonneg sumn_.
Proof.
  intros p a y Hp Ha E. injection E as <-. apply every_rolling with (P := nonneg); auto using nonneg_nan.
  intros l Hl _. apply nonneg_sum. now apply clean_weaken.
Qed.
Lemma nonneg_ema_full sd po p a y : (1 <= p)%nat -> every nonneg a -> ema_full p sd po a = Ok y -> every nonneg y.
Proof.
  intros Hp Ha E. refine (every_ewm_call (P := nonneg) _ _ _ _ _ _ nonneg_nan nonneg_0 nonneg_ser_mean nonneg_ser_sum _ Ha E).
  intros t r Ht Er. injection Er as <-. destruct (alpha_weights (span_com Hp)). now apply nonneg_ewma.
Qed.
Lemma nonneg_ema sd : keeps_nonneg (fun p a => ema_full p sd 0 a).
Proof. intros p a y. apply nonneg_ema_full. Qed.
Lemma nonneg_smma sd : keeps_nonneg (fun p a => smma_seed p sd a).
Proof.
  intros p a y Hp Ha E. refine (every_ewm_call (P := nonneg) _ _ _ _ _ _ nonneg_nan nonneg_0 nonneg_ser_mean nonneg_ser_sum _ Ha E).
  intros t r Ht Er. injection Er as <-.
  destruct (alpha_weights (unsigned_ofZ (z := Z.of_nat p - 1) ltac:(lia))). now apply nonneg_ewma.
Qed.
Lemma nonneg_ewma_ind adjust : keeps_nonneg (fun p a => Ok (ewma p adjust a)).
Proof.
  intros p a y Hp Ha E. injection E as <-. unfold every, ewma, ewm_mean, clone; cbn [lser].
  apply Forall_set_from; [apply every_nans, nonneg_nan|]. destruct (alpha_weights (span_com Hp)).
  apply nonneg_ewma; auto. now apply Forall_slice_from.
Qed.
Lemma nonneg_wma : keeps_nonneg (fun p a => Ok (wma p a)).
Proof.
  intros p a y Hp Ha E. injection E as <-. apply every_rbinop_s with (P := nonneg); [exact nonneg_nan| |].
  - intros x Hx. apply nonneg_mul; [|exact Hx]. apply unsigned_nonneg, unsigned_div; apply unsigned_ofZ; nia.
  - apply every_rolling with (P := nonneg); auto using nonneg_nan. intros l Hl _. apply nonneg_sum.
    apply Forall_map2 with (R := nonneg) (S := nonneg); [intros; now apply nonneg_mul|now apply clean_weaken|].
    apply Forall_map' with (R := fun _ => True); [|apply Forall_True]. intros i _. apply unsigned_nonneg, unsigned_ofZ. lia.
Qed.
Lemma nonneg_trima : keeps_nonneg (fun p a => Ok (trima p a)).
Proof.
  intros p a y Hp Ha E. injection E as <-.
  assert (H : forall q b, (every nonneg b) -> every nonneg (sma q b)).
  { intros q b Hb. apply every_rolling with (P := nonneg); auto using nonneg_nan.
    intros l Hl _. apply nonneg_div; [apply nonneg_sum; now apply clean_weaken|apply unsigned_ofZ; lia]. }
  unfold trima. destruct (Nat.odd p); auto.
Qed.
