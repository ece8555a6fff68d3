(** Bollinger bands in float64. *)
From Coq Require Import ZArith Reals List Bool Lia Lra Psatz.
From Flocq Require Import Core IEEE754.BinarySingleNaN.
From Verif Require Import Num Series Line Spec LineFacts OpFacts ScanFacts RFacts IndMA IndStat Float64 FloatSpec FloatFacts FloatLine FloatAvg
  PropFloatFacts Running RunFacts RunSpec RunFloat RunMean RunVar RunVarFacts BandSpec64.
Import ListNotations.
Set Implicit Arguments.
Local Open Scope R_scope.

(** ** One bar *)
Lemma sign_true_neg z : finite z -> Bsign z = true -> val z <= 0.
Proof.
  intros Fz Sz. destruct z as [s|s| |s m e B]; try discriminate Fz; [cbn; lra|]. cbn in Sz. subst s. apply F2R_le_0. cbn. lia.
Qed.
Lemma own_round m : rn (val m) = val m.
Proof. apply rn_fmt, fmt_val. Qed.
Lemma missing_not x : ~ missing x -> is_nan x = false.
Proof. unfold missing. destruct (is_nan x); congruence. Qed.
Lemma add_up_finite m d : finite m -> finite d -> 0 <= val d -> at_most m (vadd m d).
Proof.
  intros Fm Fd Vd. pose proof (Bplus_correct prec emax _ _ mode_NE m d Fm Fd) as C. fold (val m) (val d) in C.
  change (round radix2 fexp64 (round_mode mode_NE)) with rn in C. change (Bplus mode_NE m d) with (vadd m d) in C.
  destruct (Rlt_bool_spec (Rabs (rn (val m + val d))) (bpow radix2 emax)) as [L|L].
  - destruct C as (V & F & _). apply leb_iff; [exact Fm|exact F|]. unfold val at 2. rewrite V. apply rn_ge; [apply fmt_val|lra].
  - destruct C as (V & S). apply overflow_inf in V. rewrite V. destruct (Bsign m) eqn:X.
    + exfalso. pose proof (sign_true_neg Fd (eq_sym S)). replace (val m + val d) with (val m) in L by lra.
      rewrite own_round in L. pose proof (val_lt_emax m). lra.
    + destruct m; try discriminate Fm; reflexivity.
Qed.
Lemma sub_down_finite m d : finite m -> finite d -> 0 <= val d -> at_most (vsub m d) m.
Proof.
  intros Fm Fd Vd. pose proof (Bminus_correct prec emax _ _ mode_NE m d Fm Fd) as C. fold (val m) (val d) in C.
  change (round radix2 fexp64 (round_mode mode_NE)) with rn in C. change (Bminus mode_NE m d) with (vsub m d) in C.
  destruct (Rlt_bool_spec (Rabs (rn (val m - val d))) (bpow radix2 emax)) as [L|L].
  - destruct C as (V & F & _). apply leb_iff; [exact F|exact Fm|]. unfold val at 1. rewrite V. apply rn_le_fmt; [apply fmt_val|lra].
  - destruct C as (V & S). apply overflow_inf in V. rewrite V. destruct (Bsign m) eqn:X.
    + destruct m; try discriminate Fm; reflexivity.
    + exfalso. destruct (Bsign d) eqn:Y; [|discriminate S]. pose proof (sign_true_neg Fd Y). replace (val m - val d) with (val m) in L by lra.
      rewrite own_round in L. pose proof (val_lt_emax m). lra.
Qed.
Lemma add_up m d : nonneg d -> ~ missing (vadd m d) -> at_most m (vadd m d).
Proof.
  intros Hd Hn. apply missing_not in Hn. apply nonneg_iff in Hd. destruct Hd as [Hd|[->|[Fd Vd]]].
  - destruct d; try discriminate Hd. destruct m; discriminate Hn.
  - destruct m as [s|[]| |[] mm em B]; try reflexivity; discriminate Hn.
  - destruct (is_finite m) eqn:Fm; [now apply add_up_finite|].
    destruct m as [s|[]| |s mm em B]; try discriminate Fm; try discriminate Hn; destruct d; try discriminate Fd; reflexivity.
Qed.
Lemma sub_down m d : nonneg d -> ~ missing (vsub m d) -> at_most (vsub m d) m.
Proof.
  intros Hd Hn. apply missing_not in Hn. apply nonneg_iff in Hd. destruct Hd as [Hd|[->|[Fd Vd]]].
  - destruct d; try discriminate Hd. destruct m; discriminate Hn.
  - destruct m as [s|[]| |[] mm em B]; try reflexivity; discriminate Hn.
  - destruct (is_finite m) eqn:Fm; [now apply sub_down_finite|].
    destruct m as [s|[]| |s mm em B]; try discriminate Fm; try discriminate Hn; destruct d; try discriminate Fd; reflexivity.
Qed.

(** ** Lines *)
Lemma map2_nth {A B C} (op : A -> B -> C) : forall l m i t, nth_error (map2 op l m) i = Some t ->
  exists a b, nth_error l i = Some a /\ In b m /\ t = op a b.
Proof.
  induction l as [|a l IH]; intros [|b m] i t E; try (destruct i; discriminate E). destruct i as [|i]; cbn in E.
  - injection E as <-. exists a, b. cbn. auto.
  - destruct (IH m i t E) as (a' & b' & H1 & H2 & H3). exists a', b'. cbn. auto.
Qed.
Lemma skipn_In {A} (x : A) n l : In x (skipn n l) -> In x l.
Proof. intro H. rewrite <- (firstn_skipn n l). apply in_app_iff. now right. Qed.
Lemma firstn_In' {A} (x : A) n l : In x (firstn n l) -> In x l.
Proof. intro H. rewrite <- (firstn_skipn n l). apply in_app_iff. now left. Qed.
Lemma binop_pt (op : float -> float -> float) (a b : line float) i t : nth_error (lser (binop op a b)) i = Some t ->
  t = vnan \/ exists m d, nth_error (lser a) i = Some m /\ In d (lser b) /\ t = op m d.
Proof.
  intro E. unfold binop, clone, set_from, slice_from in E; cbn [lser] in E. unfold bars, nans in E. rewrite repeat_length in E.
  set (lo := slice_lo (length (lser a)) _) in E.
  assert (Hl : (lo <= length (lser a))%nat) by (unfold lo, slice_lo; match goal with |- context [(?z <? 0)%Z] => destruct (Z.ltb_spec z 0) end; lia).
  destruct (Nat.lt_ge_cases i lo) as [H|H].
  - rewrite nth_error_app1 in E by (rewrite firstn_length, repeat_length; lia). left. apply nth_error_In in E.
    apply firstn_In' in E. now apply repeat_spec in E.
  - rewrite nth_error_app2 in E by (rewrite firstn_length, repeat_length; lia). rewrite firstn_length, repeat_length, Nat.min_l in E by exact Hl.
    apply map2_nth in E. destruct E as (m & d & E1 & E2 & ->). right. exists m, d. split; [|split; [|reflexivity]].
    + rewrite nth_error_skipn in E1. rewrite <- E1. f_equal. lia.
    + now apply skipn_In in E2.
Qed.
Lemma ordered (mid dev : line float) : every nonneg dev ->
  forall i m t b, nth_error (lser mid) i = Some m -> nth_error (lser (ladd mid dev)) i = Some t -> nth_error (lser (lsub mid dev)) i = Some b ->
  (~ missing t -> at_most m t) /\ (~ missing b -> at_most b m).
Proof.
  intros H i m t b Em Et Eb. unfold every in H. rewrite Forall_forall in H. split; intro Hn.
  - apply binop_pt in Et. destruct Et as [->|(m' & d & E & I & ->)]; [now destruct Hn|]. rewrite Em in E. injection E as <-. apply add_up; auto.
  - apply binop_pt in Eb. destruct Eb as [->|(m' & d & E & I & ->)]; [now destruct Hn|]. rewrite Em in E. injection E as <-. apply sub_down; auto.
Qed.
Lemma nonneg_sqrt x : nonneg x -> nonneg (Bsqrt mode_NE x : float).
Proof.
  intro H. destruct x as [s|s| |s m e B]; try exact I; [cbn in H; subst s; reflexivity|]. cbn in H. subst s.
  apply finite_nonneg.
  - destruct (Bsqrt_correct prec emax _ _ mode_NE (B754_finite false m e B)) as (_ & F & _). exact F.
  - destruct (Bsqrt_correct prec emax _ _ mode_NE (B754_finite false m e B)) as (V & _). unfold val. rewrite V. apply rn_nonneg, sqrt_pos.
Qed.
Lemma nonneg_clipped (r : float) : nonneg (if vltb r v0 then v0 else r).
Proof. destruct (vltb r v0) eqn:E; [exact I|]. destruct r as [s|[]| |[] m e B]; try exact I; try reflexivity; discriminate. Qed.
Section Roots.
  Variable T : NumT float.
  Hypothesis HT : rounded_sqrt T.
  Lemma stddev_nonneg p ddof (a : line float) : every nonneg (stddev p ddof a).
  Proof.
    apply every_rolling with (P := fun _ => True); [exact I|reflexivity| |apply every_True].
    intros l _ _. unfold win_std. rewrite HT. apply nonneg_sqrt. unfold win_var. destruct (_ <=? _)%nat; [exact I|]. destruct (_ =? _)%nat; [exact I|].
    apply nonneg_clipped.
  Qed.
  Lemma walk_every (calc : vstate float -> float) (P : float -> Prop) new : (forall st, P (calc st)) -> forall cnt st old, Forall P (walk calc cnt st old new).
  Proof. intro H. induction new as [|x new IH]; intros; cbn; [constructor|]. destruct cnt; [destruct old|]; constructor; auto. Qed.
  Lemma stddev_run_nonneg p ddof (a : line float) : every nonneg (stddev_run p ddof a).
  Proof.
    unfold every, stddev_run, walking, clone; cbn [lser]. apply Forall_set_from; [apply every_nans; exact I|]. unfold ser_walk. apply walk_every.
    intro st. rewrite HT. apply nonneg_sqrt. unfold calc_var. destruct (_ && _); [|exact I]. destruct (_ =? _)%nat; [exact I|]. apply nonneg_clipped.
  Qed.
  Lemma dist_nonneg devs (s : line float) : nonneg devs -> every nonneg s -> every nonneg (rbinop_s vmul devs s).
  Proof. intros Hd Hs. apply every_rbinop_s with (P := nonneg); [exact I| |exact Hs]. intros x Hx. now apply nonneg_mul. Qed.
  Lemma bands_ordered p devs ma sd (a mid top bot : line float) : nonneg devs -> bbands p devs ma sd a = Ok (mid, top, bot) ->
    forall i m t b, nth_error (lser mid) i = Some m -> nth_error (lser top) i = Some t -> nth_error (lser bot) i = Some b ->
    (~ missing t -> at_most m t) /\ (~ missing b -> at_most b m).
  Proof.
    intros Hd E. unfold bbands in E. destruct (ma p a) as [m0|]; [|discriminate E]. injection E as <- <- <-.
    apply ordered, dist_nonneg, stddev_nonneg. exact Hd.
  Qed.
  Lemma bands_run_ordered p devs ma (a mid top bot : line float) : nonneg devs -> bbands_run p devs ma a = Ok (mid, top, bot) ->
    forall i m t b, nth_error (lser mid) i = Some m -> nth_error (lser top) i = Some t -> nth_error (lser bot) i = Some b ->
    (~ missing t -> at_most m t) /\ (~ missing b -> at_most b m).
  Proof.
    intros Hd E. unfold bbands_run in E. destruct (ma p a) as [m0|]; [|discriminate E]. injection E as <- <- <-.
    apply ordered, dist_nonneg, stddev_run_nonneg. exact Hd.
  Qed.
End Roots.
