(** Prices moved by a constant or mirrored at a level: the averages. *)
From Coq Require Import ZArith QArith List Bool Reals Lia Lra.
From Verif Require Import Num Series Line LineFacts RSpec RFacts StatFacts MAFacts UnitSpec UnitFacts MoveSpec MoveFacts
  IndMA IndBasic IndStat IndRange IndOsc IndVol Apply IndSar Catalog.
Import ListNotations.
Local Open Scope R_scope.
Arguments skipn : simpl never.
Arguments firstn : simpl never.
Local Notation V := (ext R).

Lemma affN m t : aff m t vnan = vnan. Proof. apply aff_nan. Qed.
Global Hint Resolve affN aff_nan aff_prep aff_isnan : aff.

Section Lines.
  Variable m : bool.
  Notation mv t := (mapl (aff m t)).
  Implicit Types (a b : line V).

  Lemma mv_add t t' a b : ladd (mv t a) (mv t' b) = mv (t + t') (ladd a b).
  Proof. apply g_binop; auto with aff. intros. apply aff_add. Qed.
  Lemma mv_sub t t' a b : lsub (mv t a) (mv t' b) = mv (t - t') (lsub a b).
  Proof. apply g_binop; auto with aff. intros. apply aff_sub. Qed.
  Lemma mv_sub_same t a b : lsub (mv t a) (mv t b) = mv 0 (lsub a b).
  Proof. apply g_binop; auto with aff. intros. apply aff_sub_same. Qed.
  Lemma mv_mul_s t a c : binop_s vmul (mv t a) (Fin c) = mv (t * c) (binop_s vmul a (Fin c)).
  Proof. apply g_binop_s; auto with aff. intro. apply aff_mul. Qed.
  Lemma mv_rmul_s t a c : rbinop_s vmul (Fin c) (mv t a) = mv (c * t) (rbinop_s vmul (Fin c) a).
  Proof. apply g_rbinop_s; auto with aff. intro. apply aff_mul_r. Qed.
  Lemma mv_div_s t a c : c <> 0 -> binop_s vdiv (mv t a) (Fin c) = mv (t / c) (binop_s vdiv a (Fin c)).
  Proof. intro. apply g_binop_s; auto with aff. intro. now apply aff_div. Qed.
  Lemma mv0_mul_s a c : binop_s vmul (mv 0 a) c = mv 0 (binop_s vmul a c).
  Proof. apply g_binop_s; auto with aff. intro. apply aff0_mul. Qed.
  Lemma mv0_rmul_s a c : rbinop_s vmul c (mv 0 a) = mv 0 (rbinop_s vmul c a).
  Proof. apply g_rbinop_s; auto with aff. intro. apply aff0_mul_r. Qed.
  Lemma mv0_div_s a c : binop_s vdiv (mv 0 a) c = mv 0 (binop_s vdiv a c).
  Proof. apply g_binop_s; auto with aff. intro. apply aff0_div. Qed.
  Lemma mv0_div a b : ldiv (mv 0 a) b = mv 0 (ldiv a b).
  Proof.
    rewrite <- (mapl_id b) at 1. apply g_binop; auto with aff. intros x y. rewrite aff_id. apply aff0_div.
  Qed.
  Lemma mv0_mul a b : lmul (mv 0 a) b = mv 0 (lmul a b).
  Proof.
    rewrite <- (mapl_id b) at 1. apply g_binop; auto with aff. intros x y. rewrite aff_id. apply aff0_mul.
  Qed.
  Lemma mv0_mul_r a b : lmul b (mv 0 a) = mv 0 (lmul b a).
  Proof.
    rewrite <- (mapl_id b) at 1. apply g_binop; auto with aff. intros x y. rewrite aff_id. apply aff0_mul_r.
  Qed.
  Lemma mv0_abs a : labs (mv 0 a) = labs a.
  Proof. rewrite <- (mapl_id (labs a)). apply g_mapop; auto with aff. intro x. rewrite aff_id. apply aff0_abs. Qed.
  Lemma mv_shift t a p : shift (mv t a) p = mv t (shift a p).
  Proof. apply g_kwop; auto with aff. intro. apply aff_shift. Qed.
  Lemma mv_diff t a p : diff (mv t a) p = mv 0 (diff a p).
  Proof. apply g_kwop; auto with aff. intro. apply aff_diff. Qed.
  Lemma mv_at_ago t a p : at_ago (mv t a) p = mv t (at_ago a p).
  Proof.
    unfold at_ago. destruct (p =? 0)%Z; [|apply mv_shift]. unfold filled, mapl, bars. cbn [lmp lser].
    rewrite map_repeat', map_length. now rewrite aff_nan.
  Qed.
  Lemma mv_clip_lo_l t a b : lclip_lo_l (mv t a) (mv t b) = mv t (mx m lclip_lo_l lclip_hi_l a b).
  Proof.
    unfold lclip_lo_l, lclip_hi_l. transitivity (mv t (stdop2 (map2 (fun x y => mx m (@clip_lo V _) clip_hi y x)) a b)).
    - apply g_stdop2; auto with aff. intros s u. rewrite map2_map, map_map2. apply map2_ext. intros. apply aff_clip_lo.
    - unfold mx. now destruct m.
  Qed.
  Lemma mv_clip_hi_l t a b : lclip_hi_l (mv t a) (mv t b) = mv t (mx m lclip_hi_l lclip_lo_l a b).
  Proof.
    unfold lclip_lo_l, lclip_hi_l. transitivity (mv t (stdop2 (map2 (fun x y => mx m (@clip_hi V _) clip_lo y x)) a b)).
    - apply g_stdop2; auto with aff. intros s u. rewrite map2_map, map_map2. apply map2_ext. intros. apply aff_clip_hi.
    - unfold mx. now destruct m.
  Qed.
  Lemma mv0_cumsum a : stdop ser_cumsum (mv 0 a) = mv 0 (stdop ser_cumsum a).
  Proof. apply g_stdop; auto with aff. intro. apply aff0_ser_cumsum. Qed.
  Lemma mv0_repl0 a : stdop ser_replace0_ffill (mv 0 a) = mv 0 (stdop ser_replace0_ffill a).
  Proof. apply g_stdop; auto with aff. intro s. apply (aff0_repl0 m s None). Qed.

  (** ** windows *)
  Lemma mv_sma t p a : sma p (mv t a) = mv t (sma p a).
  Proof. apply g_rolling; auto with aff. intros. apply aff_win_mean. Qed.
  Lemma mv_sumn t p a : sumn p (mv t a) = mv (t * INR p) (sumn p a).
  Proof. apply g_rolling; auto with aff. intros s E. unfold win_sum. now rewrite aff_vsum, map_length, E. Qed.
  Lemma mv_max t p a : max_ind p (mv t a) = mv t (mx m max_ind min_ind p a).
  Proof.
    transitivity (mv t (rolling p (fun l => mx m (win_max l) (win_min l)) a)).
    - apply g_rolling; auto with aff. intros. apply aff_win_max.
    - unfold mx. now destruct m.
  Qed.
  Lemma mv_min t p a : min_ind p (mv t a) = mv t (mx m min_ind max_ind p a).
  Proof.
    transitivity (mv t (rolling p (fun l => mx m (win_min l) (win_max l)) a)).
    - apply g_rolling; auto with aff. intros. apply aff_win_min.
    - unfold mx. now destruct m.
  Qed.
  Lemma mv_roll_free t p G G' a : (forall s, G' (map (aff m t) (map (@Fin R) s)) = G (map (@Fin R) s)) ->
    rolling p G' (mv t a) = rolling p G a.
  Proof.
    intro H. rewrite <- (mapl_id (rolling p G a)). apply g_rolling; auto with aff. intros s _. rewrite aff_id. apply H.
  Qed.
  Lemma mv_maxindex t p a : maxindex p (mv t a) = mx m maxindex minindex p a.
  Proof.
    transitivity (rolling p (fun l => vofnat (mx m argmax argmin l)) a).
    - apply mv_roll_free. intro s. now rewrite aff_argmax.
    - unfold mx. now destruct m.
  Qed.
  Lemma mv_minindex t p a : minindex p (mv t a) = mx m minindex maxindex p a.
  Proof.
    transitivity (rolling p (fun l => vofnat (mx m argmin argmax l)) a).
    - apply mv_roll_free. intro s. now rewrite aff_argmin.
    - unfold mx. now destruct m.
  Qed.

  (** sums with weights *)
  Lemma aff_dot t (w : nat -> R) : forall s k,
    vsum (map2 vmul (map (aff m t) (map (@Fin R) s)) (map (fun i => Fin (w i)) (seq k (length s)))) =
    aff m (t * Rsum (map w (seq k (length s)))) (vsum (map2 vmul (map (@Fin R) s) (map (fun i => Fin (w i)) (seq k (length s))))).
  Proof.
    intros s k. rewrite map_aff_fin.
    assert (E : forall r k, map2 vmul (map (@Fin R) r) (map (fun i => Fin (w i)) (seq k (length r))) =
                map (@Fin R) (map2 Rmult r (map w (seq k (length r))))).
    { induction r as [|x r IH]; intro j; [reflexivity|]. cbn [map length seq map2]. now rewrite IH. }
    rewrite E. replace (length s) with (length (map (af m t) s)) at 1 by apply map_length. rewrite E, !vsum_fin, aff_fin.
    f_equal. rewrite map_length. revert k. induction s as [|x s IH]; intro k; cbn [map length seq map2].
    - destruct m; cbn; ring.
    - rewrite !Rsum_cons, IH. destruct m; unfold af; ring.
  Qed.
  Lemma aff_win_dot t p0 s : win_dot p0 (map (aff m t) (map (@Fin R) s)) =
    aff m (t * Rsum (map (fun i => IZR (p0 + Z.of_nat i)) (seq 0 (length s)))) (win_dot p0 (map (@Fin R) s)).
  Proof.
    unfold win_dot. rewrite !map_length. exact (aff_dot t (fun i => IZR (p0 + Z.of_nat i)) s 0).
  Qed.
  Lemma aff_win_wma t s : win_wma (map (aff m t) (map (@Fin R) s)) =
    aff m (t * (INR (length s) * (INR (length s) + 1) / 2)) (win_wma (map (@Fin R) s)).
  Proof.
    unfold win_wma. rewrite !map_length. rewrite <- Rsum_INR_seq.
    rewrite (map_ext INR (fun i => IZR (Z.of_nat i))) by (intro; symmetry; apply IZR_nat).
    exact (aff_dot t (fun i => IZR (Z.of_nat i)) s 1).
  Qed.
  Lemma mv_wma t p a : (1 <= p)%nat -> wma p (mv t a) = mv t (wma p a).
  Proof.
    intro H. unfold wma. assert (P := INR_pos H).
    rewrite (g_rolling (aff m t) (aff m (t * (INR p * (INR p + 1) / 2))) (aff_nan _ _) (aff_prep m t) (aff_isnan m t) p win_wma)
      by (intros s E; rewrite aff_win_wma, E; reflexivity).
    rewrite !vofZ_fin, mult_IZR, plus_IZR, IZR_nat. rewrite vdiv_fin by (apply Rmult_integral_contrapositive; split; lra).
    rewrite mv_rmul_s. f_equal. f_equal. field. split; lra.
  Qed.
  Lemma mv_trima t p a : trima p (mv t a) = mv t (trima p a).
  Proof. unfold trima. destruct (Nat.odd p); now rewrite !mv_sma. Qed.

  Lemma aff_dev t l x : vsub (aff m t x) (win_mean (map (aff m t) l)) = aff m 0 (vsub x (win_mean l)).
  Proof. now rewrite aff_win_mean, aff_sub_same. Qed.
  Lemma aff0_sq x : vmul (aff m 0 x) (aff m 0 x) = vmul x x.
  Proof. rewrite aff0_mul, aff0_mul_r. destruct m; [|now rewrite !aff_id]. destruct (vmul x x); cbn; try reflexivity. f_equal. ring. Qed.
  Lemma aff_win_var t d l : win_var d (map (aff m t) l) = win_var d l.
  Proof.
    unfold win_var. rewrite map_length. destruct (length l <=? d)%nat; [reflexivity|].
    destruct (length l =? 1)%nat; [reflexivity|].
    replace (map (fun x => vmul (vsub x (win_mean (map (aff m t) l))) (vsub x (win_mean (map (aff m t) l)))) (map (aff m t) l))
      with (map (fun x => vmul (vsub x (win_mean l)) (vsub x (win_mean l))) l); [reflexivity|].
    rewrite map_map. apply map_ext. intro x. rewrite aff_dev. symmetry. apply aff0_sq.
  Qed.
  Lemma aff_win_mad t l : win_mad (map (aff m t) l) = win_mad l.
  Proof. unfold win_mad. f_equal. rewrite map_map. apply map_ext. intro x. now rewrite aff_dev, aff0_abs. Qed.
  Lemma mv_var t p d a : var p d (mv t a) = var p d a.
  Proof. apply mv_roll_free. intro s. apply aff_win_var. Qed.
  Lemma mv_stddev t p d a : stddev p d (mv t a) = stddev p d a.
  Proof. apply mv_roll_free. intro s. unfold win_std. now rewrite aff_win_var. Qed.
  Lemma mv_mad t p ma a : mad p ma (mv t a) = mad p ma a.
  Proof. apply mv_roll_free. intro s. apply aff_win_mad. Qed.

  (** ** regression lines *)
  Lemma Rsum_ints p0 n : Rsum (map (fun i => IZR (p0 + Z.of_nat i)) (seq 0 n)) = INR n * IZR p0 + INR n * (INR n - 1) / 2.
  Proof.
    rewrite (Rsum_map_ext _ (fun i => IZR p0 + INR i)) by (intros i _; now rewrite plus_IZR, IZR_nat).
    rewrite (Rsum_plus (fun _ => IZR p0) INR), Rsum_const, seq_length. f_equal.
    induction n as [|n IH]; [cbn; lra|]. rewrite seq_S, map_app, Rsum_app, IH, S_INR. cbn. lra.
  Qed.
  Lemma mv_linreg t pm p a : (1 <= p)%nat -> linreg_mb pm p (mv t a) = (mv 0 (fst (linreg_mb pm p a)), mv t (snd (linreg_mb pm p a))).
  Proof.
    intro H. assert (P := INR_pos H). unfold linreg_mb. cbn [fst snd].
    set (p0 := (1 - (if pm then 1 else 0))%Z). set (p1 := (Z.of_nat p - (if pm then 1 else 0))%Z).
    set (S1 := INR p * IZR p0 + INR p * (INR p - 1) / 2).
    rewrite (g_rolling (aff m t) (aff m (t * INR p)) (aff_nan _ _) (aff_prep m t) (aff_isnan m t) p win_sum win_sum)
      by (intros s E; unfold win_sum; rewrite aff_vsum, map_length, E; reflexivity).
    rewrite (g_rolling (aff m t) (aff m (t * S1)) (aff_nan _ _) (aff_prep m t) (aff_isnan m t) p (win_dot p0) (win_dot p0))
      by (intros s E; rewrite aff_win_dot, E, Rsum_ints; reflexivity).
    assert (SX : vdiv (vofZ (p1 * (p1 + 1))) (vofZ 2) = Fin S1).
    { rewrite !vofZ_fin, vdiv_fin by lra. f_equal. unfold S1, p0, p1. destruct pm; rewrite mult_IZR, plus_IZR, !minus_IZR, IZR_nat; field. }
    rewrite SX, !(vofZ_fin (Z.of_nat p)), IZR_nat, !mv_rmul_s, mv_sub.
    replace (INR p * (t * S1) - S1 * (t * INR p)) with 0 by ring. rewrite mv0_div_s, mv_mul_s, mv_sub, mv_div_s by lra.
    f_equal. f_equal. f_equal. field. lra.
  Qed.
  Lemma mv_linearreg t p a : (1 <= p)%nat -> linearreg p (mv t a) = mv t (linearreg p a).
  Proof.
    intro H. unfold linearreg. rewrite mv_linreg by exact H. destruct (linreg_mb true p a). cbn [fst snd].
    rewrite mv0_mul_s, mv_add. now rewrite Rplus_0_r.
  Qed.
  Lemma mv_tsf t p a : (1 <= p)%nat -> tsf p (mv t a) = mv t (tsf p a).
  Proof.
    intro H. unfold tsf. rewrite mv_linreg by exact H. destruct (linreg_mb true p a). cbn [fst snd].
    rewrite mv0_mul_s, mv_add. now rewrite Rplus_0_r.
  Qed.
  Lemma aff0_atan x : vatan (aff m 0 x) = aff m 0 (vatan x).
  Proof.
    destruct m; [|now rewrite !aff_id]. destruct x as [| | |a]; cbn; try reflexivity; f_equal; try lra.
    replace (0 - a) with (- a) by ring. rewrite atan_opp. ring.
  Qed.
  Lemma mv_angle t p a : (1 <= p)%nat -> linearreg_angle p (mv t a) = mv 0 (linearreg_angle p a).
  Proof.
    intro H. unfold linearreg_angle, mathrad, to_radians. rewrite mv_linreg by exact H. cbn [fst].
    rewrite (g_mapop (aff m 0) (aff m 0) (aff_nan m 0) vatan vatan) by exact aff0_atan. apply mv0_mul_s.
  Qed.

  (** ** exponential averages *)
  Lemma mv_ewm_call t a pval po pe alp sd F G : steady_seed sd = true ->
    (forall s, F (map (aff m t) s) = converted (map (aff m t)) (G s)) ->
    ewm_call (mv t a) pval po pe alp sd F = converted (mv t) (ewm_call a pval po pe alp sd G).
  Proof.
    intros Hs H. unfold ewm_call, mf_ewm. cbn [lmp lser mapl].
    set (q := (if (po =? 0)%Z then pval else po)). set (q' := (if negb (pval =? 0)%Z && (q <? alp)%Z then (q + (alp - q - 1))%Z else q)).
    set (p2 := (lmp a - 1 + q' - pe)%Z).
    rewrite !slice_map, slice_from_map, getitem_map.
    assert (P : map (fun _ => vnan) (map (aff m t) (slice (lser a) (p2 - 1) p2)) =
                map (aff m t) (map (fun _ : V => vnan) (slice (lser a) (p2 - 1) p2))).
    { rewrite !map_map. apply map_ext. intro. symmetry. apply aff_nan. }
    rewrite P. set (pre := map (fun _ => vnan) (slice (lser a) (p2 - 1) p2)).
    assert (SL : forall x, match rev (map (aff m t) pre) with [] => Raise IndexError | _ :: r => Ok (rev (aff m t x :: r)) end =
                 converted (map (aff m t)) match rev pre with [] => Raise IndexError | _ :: r => Ok (rev (x :: r)) end).
    { intro x. rewrite <- map_rev. destruct (rev pre) as [|y r]; [reflexivity|]. cbn [map converted].
      f_equal. now rewrite map_rev. }
    assert (K : forall X Y, X = converted (map (aff m t)) Y ->
      (o <- (pre0 <- X ;; Ok (mkMfo (mv t a) (lmp a) (Some pval) pe alp (p2 - 1) (pre0 ++ map (aff m t) (slice_from (lser a) p2)))) ;;
       snd (mf_call o F)) =
      converted (mv t) (o <- (pre0 <- Y ;; Ok (mkMfo a (lmp a) (Some pval) pe alp (p2 - 1) (pre0 ++ slice_from (lser a) p2))) ;;
       snd (mf_call o G))).
    { intros X Y E. rewrite E. destruct Y as [s|e]; [|reflexivity]. cbn [bind converted mf_call snd mf_line mf_mp mf_pval mf_pearly mf_alphap mf_minidx mf_trailer].
      rewrite <- map_app, H. destruct (G _) as [r|e]; [|reflexivity]. cbn [bind converted]. rewrite mapl_bars.
      rewrite (h_nans (aff m t) (aff_nan m t)). reflexivity. }
    apply K. destruct sd; try discriminate.
    - rewrite aff_ser_mean. apply SL.
    - destruct (getitem (lser a) (p2 - 1)); cbn [bind converted]; [apply SL|reflexivity].
    - reflexivity.
  Qed.
  Lemma al_span p : (1 <= p)%nat -> 0 < 2 / (INR p + 1) <= 1.
  Proof.
    intro H. assert (P := INR_pos H). assert (1 <= INR p) by (change 1 with (INR 1); now apply le_INR).
    split; [apply Rdiv_lt_0_compat; lra|]. apply Rmult_le_reg_r with (INR p + 1); [lra|]. unfold Rdiv.
    rewrite Rmult_assoc, Rinv_l; lra.
  Qed.
  Lemma al_com p : (1 <= p)%nat -> 0 < 1 / INR p <= 1.
  Proof.
    intro H. assert (P := INR_pos H). assert (1 <= INR p) by (change 1 with (INR 1); now apply le_INR).
    split; [apply Rdiv_lt_0_compat; lra|]. apply Rmult_le_reg_r with (INR p); [lra|]. unfold Rdiv.
    rewrite Rmult_assoc, Rinv_l; lra.
  Qed.
  Lemma mv_ewm_span t p po sd a : (1 <= p)%nat -> steady_seed sd = true ->
    ewm_span p po sd (mv t a) = converted (mv t) (ewm_span p po sd a).
  Proof.
    intros H Hs. apply mv_ewm_call; [exact Hs|]. intro s. cbn [converted]. rewrite alpha_span_fin by exact H.
    now rewrite aff_ser_ewma by now apply al_span.
  Qed.
  Lemma mv_ewm_com t p sd a : (1 <= p)%nat -> steady_seed sd = true ->
    ewm_com p sd (mv t a) = converted (mv t) (ewm_com p sd a).
  Proof.
    intros H Hs. apply mv_ewm_call; [exact Hs|]. intro s. cbn [converted]. rewrite alpha_com_fin by exact H.
    now rewrite aff_ser_ewma by now apply al_com.
  Qed.
  Lemma mv_ewma t p adj a : (1 <= p)%nat -> ewma p adj (mv t a) = mv t (ewma p adj a).
  Proof.
    intro H. unfold ewma, ewm_mean. rewrite mapl_bars. cbn [lser lmp mapl].
    rewrite slice_from_map, alpha_span_fin, aff_ser_ewma, (h_nans _ (aff_nan m t)) by (assumption || now apply al_span). reflexivity.
  Qed.
  Lemma mv_kama t p pv f s sd a : steady_seed sd = true ->
    kama p pv f s sd (mv t a) = converted (mv t) (kama p pv f s sd a).
  Proof.
    intro Hs. unfold kama, kama_sc, kama_er. rewrite !mv_diff, mv0_abs, mv0_div, mv0_abs. unfold ewm_dyn.
    apply mv_ewm_call; [exact Hs|]. intro r. apply aff_dyn.
  Qed.

  Definition follows t (ma : ma_fun V) p : Prop := forall a, ma p (mv t a) = converted (mv t) (ma p a).
  Ltac step H := rewrite H; match goal with |- context [converted (mapl (aff m _)) ?r] => destruct r; cbn [converted bind]; [|reflexivity] end.
  Lemma mv_dema t ma p : follows t ma p -> follows t (dema ma) p.
  Proof. intros H a. unfold dema. do 2 step H. rewrite vofZ_fin, mv_rmul_s, mv_sub. do 3 f_equal. ring. Qed.
  Lemma mv_tema t ma p : follows t ma p -> follows t (tema ma) p.
  Proof. intros H a. unfold tema. do 3 step H. rewrite vofZ_fin, !mv_rmul_s, mv_sub, mv_add. do 3 f_equal. ring. Qed.
  Lemma mv_gdema t ma vf p : follows t ma p -> follows t (fun p => gdema ma p (Fin vf)) p.
  Proof. intros H a. unfold gdema. do 2 step H. rewrite v1_fin, vadd_fin, !mv_rmul_s, mv_sub. do 3 f_equal. ring. Qed.
  Lemma mv_t3_gd t ma vf p : follows t ma p -> follows t (fun p => t3_gd ma p (Fin vf)) p.
  Proof.
    intros H a. unfold t3_gd. pose proof (mv_gdema t ma vf p H) as G. unfold follows in G. rewrite G.
    destruct (gdema ma p (Fin vf) a) as [e|]; [|reflexivity]. cbn [converted bind]. rewrite G.
    destruct (gdema ma p (Fin vf) e); [|reflexivity]. cbn [converted bind]. apply G.
  Qed.
  Lemma mv_ema t p : (1 <= p)%nat -> follows t ema p.
  Proof. intros H a. now apply mv_ewm_span. Qed.
  Lemma mv_smma t p : (1 <= p)%nat -> follows t smma p.
  Proof. intros H a. now apply mv_ewm_com. Qed.
  Lemma mv_t3 t vf p : (1 <= p)%nat -> follows t (fun p => t3 p (Fin vf)) p.
  Proof.
    intros H a. assert (E := mv_ema t p H). unfold follows in E. unfold t3. do 6 step E.
    rewrite v1_fin, v0_fin, !vofZ_fin. repeat rewrite ?vmul_fin, ?vadd_fin, ?vsub_fin.
    rewrite !mv_rmul_s, !mv_add. do 3 f_equal. ring.
  Qed.

  Lemma binop_swap op op' a b : bars a = bars b -> lmp a = lmp b \/ (1 <= Z.max (lmp a) (lmp b))%Z ->
    (forall x y, op x y = op' y x) -> binop op a b = binop op' b a.
  Proof.
    intros L M H. unfold binop. rewrite L, (Z.max_comm (lmp b)). unfold clone. f_equal.
    - destruct (Z.eqb_spec (Z.max (lmp a) (lmp b)) 0); [|reflexivity]. destruct M; [assumption|lia].
    - f_equal. generalize (slice_from (lser a) (Z.max (lmp a) (lmp b) - 1)), (slice_from (lser b) (Z.max (lmp a) (lmp b) - 1)).
      induction l as [|x l IH]; intros [|y k]; cbn [map2]; try reflexivity. now rewrite H, IH.
  Qed.
  Lemma bars_rolling p G a : bars (rolling p G a) = bars (rolling p (@win_max V _) a).
  Proof. unfold bars, rolling, clone, set_from. cbn [lser]. rewrite !app_length. f_equal. unfold ser_rolling. now rewrite !map_length. Qed.
  Lemma mv_midpoint t p a : midpoint p (mv t a) = mv t (midpoint p a).
  Proof.
    unfold midpoint, midprice. rewrite mv_max, mv_min, mv_add, vofZ_fin, mv_div_s by lra.
    replace ((t + t) / 2) with t by field. f_equal. f_equal. unfold mx. destruct m; [|reflexivity].
    apply binop_swap; [unfold min_ind, max_ind; apply bars_rolling|now left|exact vadd_comm].
  Qed.

  Lemma avg_level t (a : avg V) p : level a = true -> (1 <= p)%nat -> follows t (avg_fun a) p.
  Proof.
    intros H Hp. induction a; cbn [level avg_fun] in *; try discriminate.
    - intro l. unfold sma_. cbn [converted]. now rewrite mv_sma.
    - intro l. cbn [converted]. now rewrite mv_ewma.
    - intro l. now apply mv_ewm_span.
    - intro l. now apply mv_ewm_com.
    - intro l. cbn [converted]. now rewrite mv_wma.
    - now apply mv_dema, IHa.
    - now apply mv_tema, IHa.
    - intro l. cbn [converted]. now rewrite mv_trima.
    - destruct vfactor; rewrite ?andb_false_r in H; try discriminate. rewrite andb_true_r in H. apply mv_gdema, IHa, H.
    - destruct vfactor; try discriminate. now apply mv_t3.
    - destruct vfactor; rewrite ?andb_false_r in H; try discriminate. rewrite andb_true_r in H. apply mv_t3_gd, IHa, H.
    - intro l. now apply mv_kama.
    - intro l. cbn [converted]. unfold linearreg_intercept. now rewrite mv_linreg.
    - intro l. cbn [converted]. now rewrite mv_linearreg.
    - intro l. cbn [converted]. now rewrite mv_tsf.
    - intro l. cbn [converted]. now rewrite mv_midpoint.
  Qed.
  Lemma avg_change t (a : avg V) p l : change a = true -> (1 <= p)%nat ->
    avg_fun a p (mv t l) = converted (mv 0) (avg_fun a p l).
  Proof.
    intros H Hp. destruct a; try discriminate; cbn [avg_fun converted].
    - unfold linearreg_slope. now rewrite mv_linreg.
    - now rewrite mv_angle.
    - unfold mom. now rewrite mv_diff.
  Qed.
  Lemma avg_spread t (a : avg V) p l : spread a = true -> avg_fun a p (mv t l) = avg_fun a p l.
  Proof.
    intros H. destruct a; try discriminate; cbn [avg_fun].
    - now rewrite mv_var.
    - now rewrite mv_stddev.
    - now rewrite mv_mad.
  Qed.
End Lines.
