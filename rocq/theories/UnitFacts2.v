(** Change of unit: the averages and the indicators without a loop of their own. *)
From Coq Require Import ZArith QArith List Bool Reals Lia Lra.
From Verif Require Import Num Series Line LineFacts RFacts UnitSpec UnitFacts IndMA IndBasic IndStat IndRange
  IndOsc IndVol Apply IndSar Catalog.
Import ListNotations.
Local Open Scope R_scope.
Arguments skipn : simpl never.
Arguments firstn : simpl never.
Local Notation V := (ext R).
Notation tl_ u := (map (times u)).

Lemma pos_prod u v : 0 < u -> 0 < v -> 0 < u * v. Proof. apply Rmult_lt_0_compat. Qed.
Lemma pos_quot u v : 0 < u -> 0 < v -> 0 < u / v. Proof. apply Rdiv_lt_0_compat. Qed.

(** ** windows *)
Section Win.
  Variable u : R.
  Hypothesis Hu : 0 < u.
  Implicit Types l : list V.

  Lemma map2_times_l l m : map2 vmul (tl_ u l) m = tl_ u (map2 vmul l m).
  Proof.
    rewrite map_map2. rewrite <- (map_id m) at 1. rewrite map2_map. apply map2_ext. intros. now apply times_mul_l.
  Qed.
  Lemma t_win_wma l : win_wma (tl_ u l) = times u (win_wma l).
  Proof. unfold win_wma. now rewrite map_length, map2_times_l, t_vsum. Qed.
  Lemma t_win_dot p0 l : win_dot p0 (tl_ u l) = times u (win_dot p0 l).
  Proof. unfold win_dot. now rewrite map_length, map2_times_l, t_vsum. Qed.
  Lemma t_win_sum l : win_sum (tl_ u l) = times u (win_sum l).
  Proof. apply t_vsum. Qed.
  Lemma t_win_mad l : win_mad (tl_ u l) = times u (win_mad l).
  Proof.
    unfold win_mad. rewrite t_win_mean by assumption. set (m := win_mean l). rewrite <- t_win_mean by assumption. f_equal.
    rewrite !map_map. apply map_ext. intro x. now rewrite times_sub, times_abs.
  Qed.
  Lemma t_win_var d l : win_var d (tl_ u l) = times (u * u) (win_var d l).
  Proof.
    assert (P := pos_prod u u Hu Hu).
    unfold win_var. rewrite map_length. destruct (length l <=? d)%nat; [reflexivity|].
    destruct (length l =? 1)%nat; [symmetry; apply times_0|]. rewrite t_win_mean by assumption.
    replace (vsum (map (fun x => vmul (vsub x (times u (win_mean l))) (vsub x (times u (win_mean l)))) (tl_ u l)))
      with (times (u * u) (vsum (map (fun x => vmul (vsub x (win_mean l)) (vsub x (win_mean l))) l))).
    - rewrite times_div_s, times_ltb0 by assumption. destruct (vltb _ v0); [symmetry; apply times_0|reflexivity].
    - rewrite <- t_vsum by assumption. f_equal. rewrite !map_map. apply map_ext. intro x.
      rewrite times_sub. symmetry. now apply times_mul.
  Qed.
  Lemma t_sqrt x : vsqrt (times (u * u) x) = times u (vsqrt x).
  Proof.
    assert (P := pos_prod u u Hu Hu).
    destruct x as [| | |a]; try reflexivity. cbn. destruct (Rlt_dec a 0) as [H|H], (Rlt_dec (u * u * a) 0) as [K|K]; try reflexivity.
    - exfalso. apply K. replace 0 with (u * u * 0) by ring. now apply Rmult_lt_compat_l.
    - exfalso. apply H. replace 0 with (u * u * 0) in K by ring. now apply Rmult_lt_reg_l in K.
    - cbn. f_equal. rewrite sqrt_mult; [|lra|lra]. rewrite sqrt_square by lra. reflexivity.
  Qed.
  Lemma t_win_std d l : win_std d (tl_ u l) = times u (win_std d l).
  Proof. unfold win_std. now rewrite t_win_var, t_sqrt. Qed.
  Lemma t_pow_half x : pow_half (times u x) = times (sqrt u) (pow_half x).
  Proof.
    destruct x as [| | |a]; try reflexivity. unfold pow_half. cbn.
    destruct (Rlt_dec a 0) as [H|H], (Rlt_dec (u * a) 0) as [K|K]; try reflexivity.
    - exfalso. apply K. replace 0 with (u * 0) by ring. now apply Rmult_lt_compat_l.
    - exfalso. apply H. replace 0 with (u * 0) in K by ring. now apply Rmult_lt_reg_l in K.
    - cbn. f_equal. apply sqrt_mult; lra.
  Qed.
End Win.
Lemma t_win_cov u v l m : 0 < u -> 0 < v -> win_cov (tl_ u l) (tl_ v m) = times (u * v) (win_cov l m).
Proof.
  intros Hu Hv. assert (P := pos_prod u v Hu Hv). unfold win_cov. rewrite map_length, map2_map, !t_win_mean by assumption.
  rewrite (map2_ext _ (fun x y => times (u * v) (vmul x y))) by (intros; now apply times_mul).
  rewrite <- map_map2, t_win_mean, times_mul, times_sub, times_mul_l by assumption. reflexivity.
Qed.
Lemma t_win_corr u v l m : 0 < u -> 0 < v -> win_corr (tl_ u l) (tl_ v m) = win_corr l m.
Proof.
  intros Hu Hv. assert (P := pos_prod u v Hu Hv). unfold win_corr.
  rewrite t_win_cov, !t_win_std, times_mul, times_ratio by assumption. reflexivity.
Qed.

(** ** averages *)
Definition homog (u : R) (ma : ma_fun V) : Prop :=
  forall p a, ma p (in_unit u a) = converted (in_unit u) (ma p a).

Section Avg.
  Variable u : R.
  Hypothesis Hu : 0 < u.
  Implicit Types (a b : line V) (ma : ma_fun V).

  Lemma in_sma p a : sma p (in_unit u a) = in_unit u (sma p a).
  Proof. apply in_rolling. intro. now apply t_win_mean. Qed.
  Lemma in_sumn p a : sumn p (in_unit u a) = in_unit u (sumn p a).
  Proof. apply in_rolling. intro. apply t_win_sum. Qed.
  Lemma in_max p a : max_ind p (in_unit u a) = in_unit u (max_ind p a).
  Proof. apply in_rolling. intro. now apply t_win_max. Qed.
  Lemma in_min p a : min_ind p (in_unit u a) = in_unit u (min_ind p a).
  Proof. apply in_rolling. intro. now apply t_win_min. Qed.
  Lemma in_roll_free p G a : (forall s, G (tl_ u s) = G s) -> rolling p G (in_unit u a) = rolling p G a.
  Proof. intro H. rewrite <- (in_unit_1 (rolling p G a)). apply in_rolling. intro s. rewrite times_1. apply H. Qed.
  Lemma in_maxindex p a : maxindex p (in_unit u a) = maxindex p a.
  Proof. apply in_roll_free. intro s. now rewrite t_argmax. Qed.
  Lemma in_minindex p a : minindex p (in_unit u a) = minindex p a.
  Proof. apply in_roll_free. intro s. now rewrite t_argmin. Qed.
  Lemma in_wma p a : wma p (in_unit u a) = in_unit u (wma p a).
  Proof. unfold wma. rewrite (in_rolling u u) by (intro; now apply t_win_wma). now apply in_rmul_s. Qed.
  Lemma in_trima p a : trima p (in_unit u a) = in_unit u (trima p a).
  Proof. unfold trima. destruct (Nat.odd p); now rewrite !in_sma. Qed.
  Lemma in_var p d a : var p d (in_unit u a) = in_unit (u * u) (var p d a).
  Proof. apply in_rolling. intro. now apply t_win_var. Qed.
  Lemma in_stddev p d a : stddev p d (in_unit u a) = in_unit u (stddev p d a).
  Proof. apply in_rolling. intro. now apply t_win_std. Qed.
  Lemma in_mad p m a : mad p m (in_unit u a) = in_unit u (mad p m a).
  Proof. apply in_rolling. intro. now apply t_win_mad. Qed.
  Lemma in_linreg pm p a : linreg_mb pm p (in_unit u a) = (in_unit u (fst (linreg_mb pm p a)), in_unit u (snd (linreg_mb pm p a))).
  Proof.
    unfold linreg_mb. cbn [fst snd]. rewrite (in_rolling u u p win_sum) by (intro; apply t_win_sum).
    rewrite (in_rolling u u p (win_dot _)) by (intro; now apply t_win_dot).
    repeat rewrite ?in_rmul_s, ?in_sub, ?in_div_s, ?in_mul_s by assumption. reflexivity.
  Qed.
  Lemma in_linearreg p a : linearreg p (in_unit u a) = in_unit u (linearreg p a).
  Proof. unfold linearreg. rewrite in_linreg. destruct (linreg_mb true p a). cbn [fst snd]. now rewrite in_mul_s, in_add. Qed.
  Lemma in_tsf p a : tsf p (in_unit u a) = in_unit u (tsf p a).
  Proof. unfold tsf. rewrite in_linreg. destruct (linreg_mb true p a). cbn [fst snd]. now rewrite in_mul_s, in_add. Qed.
  Lemma in_midprice p a b : midprice p (in_unit u a) (in_unit u b) = in_unit u (midprice p a b).
  Proof. unfold midprice. now rewrite in_max, in_min, in_add, in_div_s. Qed.
  Lemma in_rocbase p a : rocbase p (in_unit u a) = rocbase p a.
  Proof. unfold rocbase. now rewrite in_at_ago, in_ratio. Qed.
  Lemma in_kama p pv f s sd a : kama p pv f s sd (in_unit u a) = converted (in_unit u) (kama p pv f s sd a).
  Proof.
    unfold kama, kama_sc, kama_er. rewrite !in_diff, in_abs, in_sumn, in_ratio by assumption. now apply in_ewm_dyn.
  Qed.
  Lemma in_smacc p pe sd a : smacc p pe sd (in_unit u a) = converted (in_unit u) (smacc p pe sd a).
  Proof. apply in_ewm_call; [assumption|]. intro t. cbn [converted]. now rewrite t_lfilter. Qed.

  Ltac step H := rewrite H; match goal with |- context [converted (in_unit u) ?r] => destruct r; cbn [converted bind]; [|reflexivity] end.
  Lemma in_dema ma : homog u ma -> homog u (dema ma).
  Proof. intros H p a. unfold dema. do 2 step H. now rewrite in_rmul_s, in_sub. Qed.
  Lemma in_tema ma : homog u ma -> homog u (tema ma).
  Proof. intros H p a. unfold tema. do 3 step H. now rewrite !in_rmul_s, in_sub, in_add. Qed.
  Lemma in_trix ma p a : homog u ma -> trix ma p (in_unit u a) = trix ma p a.
  Proof. intro H. unfold trix. do 3 step H. now rewrite in_at_ago, in_ratio. Qed.
  Lemma in_gdema ma vf : homog u ma -> homog u (fun p => gdema ma p vf).
  Proof. intros H p a. unfold gdema. do 2 step H. now rewrite !in_rmul_s, in_sub. Qed.
  Lemma in_t3_gd ma vf : homog u ma -> homog u (fun p => t3_gd ma p vf).
  Proof.
    intros H p a. unfold t3_gd. pose proof (in_gdema ma vf H p) as G. cbn beta in G. rewrite G.
    destruct (gdema ma p vf a) as [e|]; [|reflexivity]. cbn [converted bind]. rewrite G.
    destruct (gdema ma p vf e); [|reflexivity]. cbn [converted bind]. apply G.
  Qed.
  Lemma in_ema : homog u ema.
  Proof. intros p a. now apply in_ewm_span. Qed.
  Lemma in_smma : homog u smma.
  Proof. intros p a. now apply in_ewm_com. Qed.
  Lemma in_t3 vf : homog u (fun p => t3 p vf).
  Proof. intros p a. unfold t3. do 6 step in_ema. now rewrite !in_rmul_s, !in_add. Qed.

  Lemma avg_same (a : avg V) : same a = true -> homog u (avg_fun a).
  Proof.
    induction a; cbn [same avg_fun]; intro H; try discriminate; try (intros p l; cbn [converted]).
    - unfold sma_. now rewrite in_sma.
    - unfold ewma. now rewrite in_ewm_mean.
    - now apply in_ewm_span.
    - now apply in_ewm_com.
    - now rewrite in_wma.
    - now apply in_dema, IHa.
    - now apply in_tema, IHa.
    - now rewrite in_trima.
    - now apply (in_gdema _ vfactor), IHa.
    - now apply in_t3.
    - now apply (in_t3_gd _ vfactor), IHa.
    - apply in_kama.
    - now rewrite in_sumn.
    - now rewrite in_max.
    - now rewrite in_min.
    - now rewrite in_stddev.
    - now rewrite in_mad.
    - unfold linearreg_slope. now rewrite in_linreg.
    - unfold linearreg_intercept. now rewrite in_linreg.
    - now rewrite in_linearreg.
    - now rewrite in_tsf.
    - unfold midpoint. now rewrite in_midprice.
    - unfold mom. now rewrite in_diff.
    - apply in_smacc.
  Qed.
  Lemma avg_pure (a : avg V) p l : pure a = true -> avg_fun a p (in_unit u l) = avg_fun a p l.
  Proof.
    destruct a; cbn [pure avg_fun]; intro H; try discriminate.
    - apply in_trix. now apply avg_same.
    - now rewrite in_maxindex.
    - now rewrite in_minindex.
    - unfold roc. now rewrite in_rocbase.
    - unfold rocp. now rewrite in_rocbase.
    - unfold rocr. now rewrite in_rocbase.
    - unfold rocr100. now rewrite in_rocbase.
  Qed.

  (** ** indicators *)
  Notation In := (in_unit u).
  Lemma in_avgprice d o h l c : avgprice d (In o) (In h) (In l) (In c) = In (avgprice d o h l c).
  Proof. unfold avgprice. now rewrite !in_add, in_div_s. Qed.
  Lemma in_typprice d h l c : typprice d (In h) (In l) (In c) = In (typprice d h l c).
  Proof. unfold typprice. now rewrite !in_add, in_div_s. Qed.
  Lemma in_wclprice w d h l c : wclprice w d (In h) (In l) (In c) = In (wclprice w d h l c).
  Proof. unfold wclprice. now rewrite in_mul_s, !in_add, in_div_s. Qed.
  Lemma in_medprice d h l : medprice d (In h) (In l) = In (medprice d h l).
  Proof. unfold medprice. now rewrite !in_add, in_div_s. Qed.
  Lemma in_sqrt a : sqrt_ind (In a) = in_unit (sqrt u) (sqrt_ind a).
  Proof. apply in_binop_s. intro. now apply t_pow_half. Qed.

  Lemma t_roll_count p F : (forall c l, F c (tl_ u l) = F c l) ->
    forall is s c, roll_count p F (tl_ u s) is c = roll_count p F s is c.
  Proof.
    intros H is s. induction is as [|i is IH]; intro c; [reflexivity|]. cbn [roll_count].
    rewrite window_map, t_prep, t_isnan, H, !IH. reflexivity.
  Qed.
  Lemma in_rolling_count p F a : (forall c l, F c (tl_ u l) = F c l) -> rolling_count p F (In a) = rolling_count p F a.
  Proof.
    intro H. unfold rolling_count. rewrite in_bars. cbn [lser lmp in_unit]. rewrite slice_from_map, map_length.
    now rewrite t_roll_count.
  Qed.
  Lemma in_maxindex_abs p a : maxindex_abs p (In a) = maxindex_abs p a.
  Proof. unfold maxindex_abs. rewrite in_rolling_count; [reflexivity|]. intros c l. now rewrite t_argmax. Qed.
  Lemma in_minindex_abs p a : minindex_abs p (In a) = minindex_abs p a.
  Proof. unfold minindex_abs. rewrite in_rolling_count; [reflexivity|]. intros c l. now rewrite t_argmin. Qed.
  Lemma in_minmaxindex p ab a : minmaxindex p ab (In a) = minmaxindex p ab a.
  Proof. unfold minmaxindex. now rewrite in_maxindex_abs, in_minindex_abs, in_maxindex, in_minindex. Qed.

  Definition In3 (t : line V * line V * line V) := (In (fst (fst t)), In (snd (fst t)), In (snd t)).
  Definition In2 (t : line V * line V) := (In (fst t), In (snd t)).
  Lemma in_macd_from f s masig psig a :
    (f (In a) = converted In (f a)) -> (s (In a) = converted In (s a)) -> homog u masig ->
    macd_from f s masig psig (In a) = converted In3 (macd_from f s masig psig a).
  Proof.
    intros Hf Hs Hm. unfold macd_from. rewrite Hf, Hs. destruct (f a); [|reflexivity]. cbn [converted bind].
    destruct (s a); [|reflexivity]. cbn [converted bind]. rewrite in_sub. step Hm. now rewrite in_sub.
  Qed.
  Lemma in_posc fast ma pf ps a : homog u ma -> posc fast ma pf ps (In a) = converted In2 (posc fast ma pf ps a).
  Proof. intro H. unfold posc. do 2 step H. now destruct fast. Qed.
  Lemma in_apo ma pf ps a : homog u ma -> apo ma pf ps (In a) = converted In (apo ma pf ps a).
  Proof. intro H. unfold apo. rewrite in_posc by assumption. destruct (posc false ma pf ps a); [|reflexivity]. cbn [converted bind In2 fst snd]. now rewrite in_sub. Qed.
  Lemma in_ppo fast ma masig pf ps psig a : homog u ma ->
    ppo_from fast ma masig pf ps psig (In a) = ppo_from fast ma masig pf ps psig a.
  Proof.
    intro H. unfold ppo_from. rewrite in_posc by assumption. destruct (posc fast ma pf ps a); [|reflexivity].
    cbn [converted bind In2 fst snd]. now rewrite in_ratio.
  Qed.
  Lemma in_idiff s a b : cross_idiff s (In a) (In b) = In (cross_idiff s a b).
  Proof. unfold cross_idiff. rewrite in_sub, in_shift. destruct s; [reflexivity|]. now apply in_repl0. Qed.
  Lemma in_cross_up s a b : cross_up s (In a) (In b) = cross_up s a b.
  Proof. unfold cross_up. now rewrite in_idiff, in_lt0, in_gt. Qed.
  Lemma in_cross_down s a b : cross_down s (In a) (In b) = cross_down s a b.
  Proof. unfold cross_down. now rewrite in_idiff, in_gt0, in_lt. Qed.

  Lemma in_bbands p devs ma sd a : homog u ma -> bbands p devs ma sd (In a) = converted In3 (bbands p devs ma sd a).
  Proof. intro H. unfold bbands. step H. now rewrite in_stddev, in_rmul_s, in_add, in_sub. Qed.
  Lemma in_cci p f ma dev h l c : homog u ma -> cci p f ma dev (In h) (In l) (In c) = cci p f ma dev h l c.
  Proof. intro H. unfold cci. rewrite !in_add, in_div_s by assumption. step H. now rewrite in_sub, in_mad, in_mul_s, in_ratio. Qed.

  Lemma in_truelow lb l c : truelow lb (In l) (In c) = In (truelow lb l c).
  Proof. unfold truelow. now rewrite in_at_ago, in_clip_hi_l. Qed.
  Lemma in_truerange lb h l c : truerange lb (In h) (In l) (In c) = In (truerange lb h l c).
  Proof. unfold truerange. now rewrite in_at_ago, in_clip_hi_l, in_clip_lo_l, in_sub. Qed.
  Lemma in_atr ma p lb h l c : homog u ma -> atr ma p lb (In h) (In l) (In c) = converted In (atr ma p lb h l c).
  Proof. intro H. unfold atr. now rewrite in_truerange, H. Qed.
  Lemma in_natr ma p lb h l c : homog u ma -> natr ma p lb (In h) (In l) (In c) = natr ma p lb h l c.
  Proof.
    intro H. unfold natr. rewrite in_atr by assumption. destruct (atr ma p lb h l c); [|reflexivity]. cbn [converted bind].
    now rewrite in_rmul_s, in_ratio.
  Qed.
  Lemma in_dm_smoother alt pe ma p a : (alt = true -> homog u ma) ->
    dm_smoother alt pe ma p (In a) = converted In (dm_smoother alt pe ma p a).
  Proof. intro H. unfold dm_smoother. destruct alt; [now apply H|apply in_smacc]. Qed.
  Lemma in_pdm1 lb h l : pdm1 lb (In h) (In l) = In (pdm1 lb h l).
  Proof. unfold pdm1, upmove, downmove. now rewrite in_diff, in_at_ago, in_sub, in_gt, in_clip_lo0, in_mul_b. Qed.
  Lemma in_mdm1 lb h l : mdm1 lb (In h) (In l) = In (mdm1 lb h l).
  Proof. unfold mdm1, upmove, downmove. now rewrite in_diff, in_at_ago, in_sub, in_gt, in_clip_lo0, in_mul_b. Qed.
  Section Dm.
    Variable sm : line V -> res (line V).
    Hypothesis Hsm : forall a, sm (In a) = converted In (sm a).
    Variable lb : nat.
    Variables h l c : line V.
    Lemma in_plus_dm : plus_dm sm lb (In h) (In l) = converted In (plus_dm sm lb h l).
    Proof. unfold plus_dm. now rewrite in_pdm1. Qed.
    Lemma in_minus_dm : minus_dm sm lb (In h) (In l) = converted In (minus_dm sm lb h l).
    Proof. unfold minus_dm. now rewrite in_mdm1. Qed.
    Lemma in_dm : dm sm lb (In h) (In l) = converted In2 (dm sm lb h l).
    Proof.
      unfold dm. rewrite in_plus_dm, in_minus_dm. destruct (plus_dm sm lb h l); [|reflexivity]. cbn [converted bind].
      now destruct (minus_dm sm lb h l).
    Qed.
    Lemma in_di_range : di_range sm lb (In h) (In l) (In c) = converted In (di_range sm lb h l c).
    Proof. unfold di_range. rewrite in_truerange, Hsm. now destruct (sm (truerange lb h l c)). Qed.
    Lemma in_di : di sm lb (In h) (In l) (In c) = di sm lb h l c.
    Proof.
      unfold di. rewrite in_dm, in_di_range. destruct (dm sm lb h l); [|reflexivity]. cbn [converted bind].
      destruct (di_range sm lb h l c); [|reflexivity]. cbn [converted bind In2 fst snd]. now rewrite !in_rmul_s, !in_ratio.
    Qed.
    Lemma in_plus_di : plus_di sm lb (In h) (In l) (In c) = plus_di sm lb h l c.
    Proof.
      unfold plus_di. rewrite in_plus_dm, in_di_range. destruct (plus_dm sm lb h l); [|reflexivity]. cbn [converted bind].
      destruct (di_range sm lb h l c); [|reflexivity]. cbn [converted bind fst snd]. now rewrite !in_rmul_s, !in_ratio.
    Qed.
    Lemma in_minus_di : minus_di sm lb (In h) (In l) (In c) = minus_di sm lb h l c.
    Proof.
      unfold minus_di. rewrite in_minus_dm, in_di_range. destruct (minus_dm sm lb h l); [|reflexivity]. cbn [converted bind].
      destruct (di_range sm lb h l c); [|reflexivity]. cbn [converted bind fst snd]. now rewrite !in_rmul_s, !in_ratio.
    Qed.
    Lemma in_dx : dx sm lb (In h) (In l) (In c) = dx sm lb h l c.
    Proof. unfold dx. now rewrite in_di. Qed.
    Lemma in_adx ma p : adx ma p sm lb (In h) (In l) (In c) = adx ma p sm lb h l c.
    Proof. unfold adx. now rewrite in_dx. Qed.
    Lemma in_adxr t pr ma p : adxr t pr ma p sm lb (In h) (In l) (In c) = adxr t pr ma p sm lb h l c.
    Proof. unfold adxr. now rewrite in_adx. Qed.
  End Dm.

  Lemma in_updays lb a : updays lb (In a) = In (updays lb a).
  Proof. unfold updays. now rewrite in_diff, in_clip_lo0. Qed.
  Lemma in_downdays lb a : downdays lb (In a) = In (downdays lb a).
  Proof. unfold downdays. now rewrite in_diff, in_clip_hi0, in_abs. Qed.
  Lemma in_rsi ma p lb a : homog u ma -> rsi ma p lb (In a) = rsi ma p lb a.
  Proof. intro H. unfold rsi. rewrite in_updays, in_downdays. do 2 step H. now rewrite in_ratio. Qed.
  Lemma in_cmo sm p a : homog u sm -> cmo sm p (In a) = cmo sm p a.
  Proof. intro H. unfold cmo. rewrite in_updays, in_downdays. do 2 step H. now rewrite in_sub, in_add, in_rmul_s, in_ratio. Qed.
  Lemma in_stoch_k p h l c : stoch_k p (In h) (In l) (In c) = stoch_k p h l c.
  Proof. unfold stoch_k. now rewrite in_max, in_min, !in_sub, in_rmul_s, in_ratio. Qed.
  Lemma in_williamsr p h l c : williamsr p (In h) (In l) (In c) = williamsr p h l c.
  Proof. unfold williamsr. now rewrite in_max, in_min, !in_sub, in_rmul_s, in_ratio. Qed.
  Lemma in_aroon_from F p a : (forall s, F (tl_ u s) = F s) -> aroon_from F p (In a) = aroon_from F p a.
  Proof. intro H. unfold aroon_from. now rewrite in_roll_free. Qed.
  Lemma in_aroon_up p a : aroon_up p (In a) = aroon_up p a.
  Proof. apply in_aroon_from. intro s. unfold first_idx_highest. now rewrite <- map_rev, t_argmax. Qed.
  Lemma in_aroon_dn p a : aroon_dn p (In a) = aroon_dn p a.
  Proof. apply in_aroon_from. intro s. unfold first_idx_lowest. now rewrite <- map_rev, t_argmin. Qed.
  Lemma in_ultosc p1 p2 p3 f1 f2 f3 h l c : ultosc p1 p2 p3 f1 f2 f3 (In h) (In l) (In c) = ultosc p1 p2 p3 f1 f2 f3 h l c.
  Proof. unfold ultosc. now rewrite in_truelow, in_sub, in_truerange, !in_sumn, !in_ratio. Qed.
  Lemma in_bop o h l c : bop (In o) (In h) (In l) (In c) = bop o h l c.
  Proof. unfold bop. now rewrite !in_sub, in_ratio. Qed.
  Lemma in_stochrsi p ph sc a : stochrsi p ph sc (In a) = stochrsi p ph sc a.
  Proof. unfold stochrsi. rewrite in_rsi; [reflexivity|exact in_smma]. Qed.
End Avg.

(** ** two units *)
Section Two.
  Variables u v : R.
  Hypothesis Hu : 0 < u.
  Hypothesis Hv : 0 < v.
  Let Huv : 0 < u * v := pos_prod u v Hu Hv.
  Lemma in_mul a b : lmul (in_unit u a) (in_unit v b) = in_unit (u * v) (lmul a b).
  Proof. apply in_binop. intros. now apply times_mul. Qed.
  Lemma in_div a b : ldiv (in_unit u a) (in_unit v b) = in_unit (u / v) (ldiv a b).
  Proof. apply in_binop. intros. now apply times_div. Qed.
  Lemma in_free_mul a b : lmul a (in_unit v b) = in_unit v (lmul a b).
  Proof. rewrite <- (in_unit_1 a) at 1. apply in_binop. intros. rewrite times_1. now apply times_mul_r. Qed.
  Lemma in_mul_free a b : lmul (in_unit v a) b = in_unit v (lmul a b).
  Proof. rewrite <- (in_unit_1 b) at 1. apply in_binop. intros. rewrite times_1. now apply times_mul_l. Qed.
  Lemma in_correl p pr r a b : correl p pr r (in_unit u a) (in_unit v b) = correl p pr r a b.
  Proof.
    rewrite <- (in_unit_1 (correl p pr r a b)). apply in_rolling2. intros. rewrite times_1. now apply t_win_corr.
  Qed.
  Lemma in_pow2 a : 0 < u -> pow2 (in_unit u a) = in_unit (u * u) (pow2 a).
  Proof. intros. apply in_binop_s. intros. now apply times_mul. Qed.
  Lemma in_beta p pr a b : beta p pr true (in_unit u a) (in_unit v b) = beta p pr true a b.
  Proof. unfold beta. now rewrite !in_pct. Qed.
  Lemma in_beta_raw p pr a b : beta p pr false (in_unit u a) (in_unit v b) = in_unit (v / u) (beta p pr false a b).
  Proof.
    assert (Huu := pos_prod u u Hu Hu). unfold beta. rewrite in_pow2, in_mul by assumption.
    change (rolling p win_sum) with (@sumn V _ p). rewrite !in_sumn, in_mul, in_pow2, !in_rmul_s, !in_sub by assumption.
    replace (v / u) with (u * v / (u * u)) by (field; lra). apply in_binop. intros. now apply times_div.
  Qed.
  Lemma in_mfi p h l c vol : mfi p (in_unit u h) (in_unit u l) (in_unit u c) (in_unit v vol) = mfi p h l c vol.
  Proof.
    unfold mfi. rewrite !in_add, in_div_s, in_mul, in_at_ago, in_gt, in_lt, !in_mul_b, !in_sumn, in_ratio by assumption. reflexivity.
  Qed.
  Lemma in_ad h l c vol : ad (in_unit u h) (in_unit u l) (in_unit u c) (in_unit v vol) = in_unit v (ad h l c vol).
  Proof. unfold ad. now rewrite in_rmul_s, !in_sub, in_ratio, in_free_mul, in_cumsum. Qed.
  Lemma in_adosc ma pf ps h l c vol : homog v ma ->
    adosc ma pf ps (in_unit u h) (in_unit u l) (in_unit u c) (in_unit v vol) = converted (in_unit v) (adosc ma pf ps h l c vol).
  Proof.
    intro H. unfold adosc. rewrite in_ad, !H. destruct (ma pf _); [|reflexivity]. cbn [converted bind].
    destruct (ma ps _); [|reflexivity]. cbn [converted bind]. now rewrite in_sub.
  Qed.
  Lemma t_sign x : vsign (times u x) = vsign x.
  Proof. unfold vsign. now rewrite times_isnan, times_0ltb, times_ltb0. Qed.
  Lemma in_sign a : mapop vsign (in_unit u a) = mapop vsign a.
  Proof. rewrite <- (in_unit_1 (mapop vsign a)). apply in_mapop. intro. rewrite times_1. apply t_sign. Qed.
  Lemma set_slice_sign s i j : map vsign (set_slice (tl_ u s) i j v1) = map vsign (set_slice s i j (v1 : V)).
  Proof.
    rewrite <- (set_slice_map vsign (tl_ u s)), <- (set_slice_map vsign s). f_equal. rewrite map_map. apply map_ext, t_sign.
  Qed.
  Lemma in_sign_period a n : mapop vsign (period_ (in_unit u a) n false (Some v1)) = mapop vsign (period_ a n false (Some v1)).
  Proof.
    unfold period_. destruct (_ =? 0)%Z; [apply in_sign|]. cbn [lmp lser in_unit].
    set (m := lmp a). set (k := (n - 0)%Z).
    assert (S : forall s s' : list V, map vsign s = map vsign s' ->
      mapop vsign (mkLine (m + k) s) = mapop vsign (mkLine (m + k) s')).
    { intros s s' E. assert (L : length s = length s') by (rewrite <- (map_length vsign s), E; apply map_length).
      unfold mapop, stdop, clone, bars. cbn [lmp lser]. rewrite L. rewrite <- !slice_from_map, E. reflexivity. }
    apply S. destruct (_ <? _)%Z; apply set_slice_sign.
  Qed.
  Lemma in_obv t p c vol : obv t p (in_unit u c) (in_unit v vol) = in_unit v (obv t p c vol).
  Proof.
    unfold obv. rewrite in_diff. destruct t.
    - now rewrite in_sign_period, in_mul_free, in_cumsum.
    - now rewrite in_sign, in_mul_free, in_cumsum.
  Qed.
End Two.
