(** Facts about the statistical indicators, continued: linear regression, correlation, beta,
    mean deviation, CCI (proofs). *)
From Coq Require Import ZArith List Bool Reals Lra Lia Psatz.
From Verif Require Import Num Series Line Spec RSpec StatSpec LineFacts RFacts OpFacts IndMA MAFacts
  RLineFacts IndBasic BasicFacts PropBasicFacts IndStat StatFacts ScanFacts.
Import ListNotations.
Set Implicit Arguments.
Local Open Scope R_scope.

Lemma linreg_all (a : lineR) n k x p :
  feeds a n k (fin x) -> (2 <= p)%nat ->
  exists b m : nat -> R,
    (forall i, least_squares (by_position (lastp x i p)) (b i) (m i)) /\
    delivers (linearreg_slope p a) n (k + p - 1) (fin m) /\
    delivers (linearreg_angle p a) n (k + p - 1) (fin (fun i => atan (m i) * (180 / PI))) /\
    delivers (linearreg_intercept true p a) n (k + p - 1) (fin b) /\
    delivers (linearreg_intercept false p a) n (k + p - 1) (fin (fun i => b i + m i * -1)) /\
    delivers (linearreg p a) n (k + p - 1) (fin (fun i => b i + m i * (INR p - 1))) /\
    delivers (tsf p a) n (k + p - 1) (fin (fun i => b i + m i * INR p)).
Proof.
  intros H Hp.
  exists (fun i => fit_b (by_position (lastp x i p))), (fun i => fit_m (by_position (lastp x i p))).
  destruct (linreg_fin true H Hp) as [Tm Tb]. destruct (linreg_fin false H Hp) as [Fm Fb].
  cbv zeta in *.
  split.
  { intros i. apply fit_least. pose proof (@pos_DET_pos (lastp x i p)) as Q.
    rewrite lastp_length in Q. specialize (Q Hp). lra. }
  split; [exact Fm|]. split.
  { unfold linearreg_angle.
    pose proof (proj1 (math_pointwise vatan (delivers_feeds Fm))) as Da.
    pose proof PI_RGT_0.
    rewrite vofZ_fin. change (vpi : ext R) with (Fin PI). rewrite vdiv_fin by lra.
    eapply fin_ext; [reflexivity|intros; reflexivity|]. apply muls_fin. eapply delivers_feeds.
    exact Da. }
  split; [eapply fin_ext; [reflexivity| |exact Tb]; intros; cbv beta; ring|].
  split; [eapply fin_ext; [reflexivity| |exact Fb]; intros; cbv beta; ring|].
  split.
  - unfold linearreg. destruct (linreg_mb true p a) as [m b]. cbn [fst snd] in *.
    rewrite vofZ_fin, minus_IZR, IZR_nat.
    eapply fin_ext; [| |eapply ladd_fin; [eapply delivers_feeds; exact Tb|
      eapply delivers_feeds, muls_fin, delivers_feeds; exact Tm]]; [lia|]. intros; cbv beta; ring.
  - unfold tsf. destruct (linreg_mb true p a) as [m b]. cbn [fst snd] in *.
    rewrite vofZ_fin, IZR_nat.
    eapply fin_ext; [| |eapply ladd_fin; [eapply delivers_feeds; exact Tb|
      eapply delivers_feeds, muls_fin, delivers_feeds; exact Tm]]; [lia|]. intros; cbv beta; ring.
Qed.

(** a window of one bar has no regression line *)
Lemma linreg_one (a : lineR) n k x :
  feeds a n k (fin x) -> delivers (linearreg_slope 1 a) n k (fun _ => NaN).
Proof.
  intros H. unfold linearreg_slope, linreg_mb. cbn [fst].
  assert (Dy : delivers (rolling 1 win_sum a) n k (fin x)).
  { eapply fin_ext; [| |apply (@rolling_fin win_sum Rsum a n k x 1); auto]; [lia| |].
    - intros i Hi. unfold lastp, win. cbn. replace (i - 0)%nat with i by lia. ring.
    - intros; apply vsum_fin. }
  assert (Dxy : delivers (rolling 1 (win_dot 1) a) n k (fin x)).
  { eapply fin_ext; [| |apply (@rolling_fin (win_dot 1)
       (fun l => SXY (shiftx (IZR 1) (by_position l))) a n k x 1); auto]; [lia| |].
    - intros i Hi. unfold lastp, win, SXY, shiftx, by_position. cbn. replace (i - 0)%nat with i by lia. ring.
    - intros; apply win_dot_fin. }
  change (1 - 0)%Z with 1%Z. change (Z.of_nat 1 - 0)%Z with 1%Z. change (Z.of_nat 1) with 1%Z.
  rewrite !vofZ_fin, !vdiv_fin by lra. rewrite !vmul_fin, vsub_fin.
  pose proof (@rmuls_fin n _ _ _ (IZR 1) (delivers_feeds Dxy)) as D1.
  pose proof (@rmuls_fin n _ _ _ (IZR (1 * (1 + 1)) / 2) (delivers_feeds Dy)) as D2.
  pose proof (@lsub_fin n _ _ _ _ _ _ (delivers_feeds D1) (delivers_feeds D2)) as D3.
  eapply del_ext; [| |apply (@binop_s_delivers _ _ vdiv); eapply delivers_feeds; exact D3]; [lia|].
  intros i Hi. unfold fin. rewrite vdiv_quot.
  match goal with |- quot ?u ?v = _ => replace u with 0; [replace v with 0|] end.
  - apply quot_00.
  - cbn; lra.
  - cbn; lra.
Qed.

(** ** correlation *)
Lemma codev_expand l : forall m c d, length l = length m ->
  Rsum (map (fun '(u, v) => (u - c) * (v - d)) (combine l m)) =
  Rsum (map (fun '(u, v) => u * v) (combine l m)) - d * Rsum l - c * Rsum m + INR (length l) * (c * d).
Proof.
  induction l as [|u l IH]; intros [|v m] c d E; cbn in E; try lia; [cbn; ring|].
  cbn [combine map length]. rewrite !Rsum_cons, S_INR, IH by lia. ring.
Qed.

Lemma codev_alt l m : length l = length m -> l <> [] ->
  codev l m = Rsum (map (fun '(u, v) => u * v) (combine l m)) - Rsum l * Rsum m / INR (length l).
Proof.
  intros E H. unfold codev. rewrite codev_expand by exact E. unfold Rmean. rewrite <- E.
  assert (0 < INR (length l)) by (apply INR_pos; destruct l; [congruence|cbn; lia]).
  field. lra.
Qed.

Lemma combine_dev l : forall m c d,
  map (fun '(u, v) => (u - c) * (v - d)) (combine l m) =
  map (fun q => fst q * snd q)
      (combine (map (fun u => u - c) l) (map (fun v => v - d) m)).
Proof.
  induction l as [|u l IH]; intros [|v m] c d; cbn; try reflexivity. rewrite IH. reflexivity.
Qed.

Lemma codev_cs l m : length l = length m -> codev l m * codev l m <= sqdev l * sqdev m.
Proof.
  intros E.
  pose proof (cauchy (combine (map (fun u => u - Rmean l) l) (map (fun v => v - Rmean m) m))) as Q.
  unfold codev. rewrite combine_dev.
  unfold SXY, SXX, SYY in Q.
  rewrite <- (map_map fst (fun u => u * u)), <- (map_map snd (fun u => u * u)) in Q.
  rewrite map_fst_combine, map_snd_combine in Q by (rewrite !map_length; exact E).
  rewrite !map_map in Q.
  unfold sqdev.
  rewrite (map_ext (fun v => (v - Rmean l) ^ 2) (fun v => (v - Rmean l) * (v - Rmean l))) by (intros; ring).
  rewrite (map_ext (fun v => (v - Rmean m) ^ 2) (fun v => (v - Rmean m) * (v - Rmean m))) by (intros; ring).
  exact Q.
Qed.

Lemma codev_const l m : length l = length m -> constant l \/ constant m -> codev l m = 0.
Proof.
  intros E H. pose proof (codev_cs l m E) as Q.
  assert (sqdev l * sqdev m = 0).
  { destruct H as [H|H]; apply sqdev_zero in H; rewrite H; ring. }
  nra.
Qed.

Lemma codev_sym l : forall m, length l = length m -> codev l m = codev m l.
Proof.
  intros m E. unfold codev. generalize (Rmean l) (Rmean m). revert m E.
  induction l as [|u l IH]; intros [|v m] E c d; cbn in E; try lia; [reflexivity|].
  cbn [combine map]. rewrite !Rsum_cons, IH by lia. ring.
Qed.

Lemma pearson_sym l m : length l = length m -> pearson l m = pearson m l.
Proof. intros E. unfold pearson. rewrite codev_sym by exact E. rewrite (Rmult_comm (sqdev l)). reflexivity. Qed.

Lemma sqrt_pos_prod l m : ~ constant l -> ~ constant m -> 0 < sqdev l * sqdev m.
Proof.
  intros Hl Hm. rewrite <- sqdev_zero in Hl, Hm.
  pose proof (sqdev_nonneg l). pose proof (sqdev_nonneg m).
  apply Rmult_lt_0_compat; lra.
Qed.

Lemma pearson_bounds l m :
  length l = length m -> ~ constant l -> ~ constant m -> -1 <= pearson l m <= 1.
Proof.
  intros E Hl Hm. pose proof (sqrt_pos_prod Hl Hm) as Hp.
  pose proof (sqrt_lt_R0 _ Hp) as Hs.
  assert (Q : Rabs (codev l m) <= sqrt (sqdev l * sqdev m)).
  { rewrite <- sqrt_Rsqr_abs. apply sqrt_le_1_alt. apply codev_cs. exact E. }
  unfold pearson. set (s := sqrt _) in *. set (c := codev l m) in *.
  assert (- s <= c <= s) by (unfold Rabs in Q; destruct (Rcase_abs c); lra).
  split; (apply Rmult_le_reg_r with s; [exact Hs|]);
    unfold Rdiv; rewrite Rmult_assoc, Rinv_l by lra; lra.
Qed.

Lemma Rmean_affine c d l : l <> [] -> Rmean (map (fun v => c + d * v) l) = c + d * Rmean l.
Proof.
  intros H. unfold Rmean. rewrite map_length, Rsum_plus, Rsum_const, Rsum_scale, map_id.
  assert (0 < INR (length l)) by (apply INR_pos; destruct l; [congruence|cbn; lia]).
  field. lra.
Qed.

Lemma sqdev_affine c d l : sqdev (map (fun v => c + d * v) l) = d ^ 2 * sqdev l.
Proof.
  destruct l as [|a l]; [cbn; ring|].
  unfold sqdev. rewrite Rmean_affine by congruence. rewrite map_map, <- Rsum_scale.
  apply Rsum_map_ext. intros; ring.
Qed.

Lemma codev_affine c d l : codev l (map (fun v => c + d * v) l) = d * sqdev l.
Proof.
  destruct l as [|a l]; [cbn; ring|].
  unfold codev, sqdev. rewrite Rmean_affine by congruence.
  generalize (Rmean (a :: l)). intros m. rewrite <- Rsum_scale.
  f_equal. induction (a :: l) as [|u v IH]; [reflexivity|].
  cbn [map combine]. rewrite IH. f_equal. ring.
Qed.

Lemma pearson_affine c d l :
  ~ constant l -> d <> 0 -> pearson l (map (fun v => c + d * v) l) = if Rlt_dec 0 d then 1 else -1.
Proof.
  intros Hl Hd. rewrite <- sqdev_zero in Hl. pose proof (sqdev_nonneg l).
  unfold pearson. rewrite codev_affine, sqdev_affine.
  replace (sqdev l * (d ^ 2 * sqdev l)) with (Rsqr (d * sqdev l)) by (unfold Rsqr; ring).
  rewrite sqrt_Rsqr_abs. unfold Rabs.
  destruct (Rcase_abs (d * sqdev l)); destruct (Rlt_dec 0 d).
  - assert (0 < sqdev l) by lra. nra.
  - field. split; lra.
  - field. split; lra.
  - assert (0 < sqdev l) by lra. assert (d < 0) by lra. nra.
Qed.

Lemma quot_scale a b c : 0 < c -> quot (a * c) (b * c) = quot a b.
Proof.
  intros H. unfold quot.
  destruct (Req_EM_T (b * c) 0), (Req_EM_T b 0).
  - destruct (Rlt_dec 0 (a * c)), (Rlt_dec 0 a); try reflexivity; try nra.
    destruct (Rlt_dec (a * c) 0), (Rlt_dec a 0); try reflexivity; nra.
  - exfalso. assert (b * c <> 0) by (apply Rmult_integral_contrapositive; split; lra). contradiction.
  - exfalso. subst b. lra.
  - f_equal. field. split; lra.
Qed.

Lemma win_corr_fin l m :
  length l = length m -> (2 <= length l)%nat ->
  win_corr (map (@Fin R) l) (map Fin m) = quot (codev l m) (sqrt (sqdev l * sqdev m)).
Proof.
  intros E Hp. unfold win_corr, win_cov. rewrite map_length.
  assert (l <> []) by (intros ->; cbn in Hp; lia).
  assert (m <> []) by (intros ->; cbn in *; lia).
  rewrite map2_fin_mul, !win_mean_fin; auto.
  2:{ intros Q. apply (f_equal (@length R)) in Q. rewrite map_length, combine_length in Q. cbn in Q. lia. }
  assert (HN : 2 <= INR (length l)) by (apply (le_INR 2); exact Hp).
  rewrite !vofZ_fin, minus_IZR, IZR_nat, vdiv_fin by lra.
  rewrite vmul_fin, vsub_fin, vmul_fin.
  rewrite !win_std_fin by (rewrite <- ?E; lia). rewrite vmul_fin, vdiv_quot.
  set (N := INR (length l)) in *.
  assert (HN1 : 0 < N - 1) by lra.
  rewrite <- sqrt_mult by (apply Rvar_nonneg; rewrite <- ?E; lia).
  unfold Rvar. rewrite <- E. fold N. change (INR 1) with 1.
  replace (sqdev l / (N - 1) * (sqdev m / (N - 1))) with ((sqdev l * sqdev m) * Rsqr (/ (N - 1)))
    by (unfold Rsqr; field; lra).
  rewrite sqrt_mult; [|apply Rmult_le_pos; apply sqdev_nonneg|apply Rle_0_sqr].
  rewrite sqrt_Rsqr by (left; apply Rinv_0_lt_compat; lra).
  match goal with |- quot ?u _ = _ => replace u with (codev l m * / (N - 1)) end.
  - apply quot_scale. apply Rinv_0_lt_compat. lra.
  - rewrite codev_alt by assumption. fold N. unfold Rmean.
    rewrite map_length, combine_length, <- E, Nat.min_id. fold N.
    replace (Rsum (map (fun '(a, b) => a * b) (combine m l)))
      with (Rsum (map (fun '(u, v) => u * v) (combine l m))).
    + field. lra.
    + f_equal. clear. revert m. induction l as [|u l IH]; intros [|v m]; cbn; try reflexivity.
      rewrite IH. f_equal. ring.
Qed.

(** rolling with a second line *)
Lemma rolling2_fin (G : list (ext R) -> list (ext R) -> ext R) (a b : lineR) n ka kb x y p :
  feeds a n ka (fin x) -> delivers b n kb (fin y) -> (1 <= p)%nat ->
  let r := rolling2 p G a b in
  lmp r = Z.of_nat (S (ka + p - 1)) /\ length (lser r) = n /\
  forall i, (i < n)%nat ->
    nth_error (lser r) i =
    Some (if (i <? Nat.max ka kb + p - 1)%nat then NaN
          else G (map Fin (lastp x i p)) (map Fin (lastp y i p))).
Proof.
  intros Ha Hb Hp r.
  set (y' := fun i => if (i <? kb)%nat then NaN else Fin (y i)).
  assert (Hb' : feeds (mkLine (Z.of_nat (S ka)) (lser b)) n ka y').
  { destruct Hb as [(_ & Lb & Vb) Wb]. split; [reflexivity|]. split; [exact Lb|].
    intros i Hi. cbn [lser]. unfold y'. destruct (Nat.ltb_spec i kb).
    - apply Wb; lia.
    - apply Vb; lia. }
  pose proof (feeds_mp Ha) as Hmp. pose proof (feeds_len Ha) as Hlen.
  unfold r, rolling2. rewrite Hmp, mp_idx.
  pose proof (feeds_slice Hb' (le_n ka)) as Sb. cbn [lser] in Sb. rewrite Sb, (feeds_slice Ha (le_n ka)).
  replace (Z.max (Z.of_nat (S ka) + (Z.of_nat p - 0 - 1)) 1) with (Z.of_nat (S (ka + p - 1))) by lia.
  rewrite clone_S. cbn [lmp lser]. split; [reflexivity|].
  unfold bars. rewrite Hlen. rewrite map_length, seq_length.
  set (F := fun i : nat => if (S i <? p)%nat then _ else _).
  set (g := fun i => if (i <? Nat.max ka kb + p - 1)%nat then NaN
          else G (map Fin (lastp x i p)) (map Fin (lastp y i p))).
  assert (E : map F (seq 0 (n - ka)) = map g (seq ka (n - ka))).
  { replace (seq ka (n - ka)) with (map (fun i => ka + i)%nat (seq 0 (n - ka))).
    2:{ clear. apply nth_error_ext; [rewrite map_length, !seq_length; reflexivity|].
        intros i Hi. rewrite map_length, seq_length in Hi. rewrite nth_error_map, !nth_error_seq_ok by lia.
        reflexivity. }
    rewrite map_map. apply map_ext_in. intros i Hi. apply in_seq in Hi. unfold F, g.
    destruct (Nat.ltb_spec (S i) p).
    { destruct (Nat.ltb_spec (ka + i) (Nat.max ka kb + p - 1)); [reflexivity|lia]. }
    cbv zeta. rewrite !window_seq by lia.
    change (map (fin x) (seq (S (ka + i) - p) p)) with (win (fin x) (ka + i) p).
    rewrite win_fin, prep_map_fin, existsb_nan_fin. cbn [orb].
    assert (Q : map prep (map y' (seq (S (ka + i) - p) p)) =
                map y' (seq (S (ka + i) - p) p)).
    { rewrite map_map. apply map_ext. intros j. unfold y'. destruct (j <? kb)%nat; reflexivity. }
    rewrite Q. destruct (Nat.ltb_spec (ka + i) (Nat.max ka kb + p - 1)).
    - replace (existsb visnan (map y' (seq (S (ka + i) - p) p))) with true; [reflexivity|].
      symmetry. apply existsb_exists. exists NaN. split; [|reflexivity].
      apply in_map_iff. exists (S (ka + i) - p)%nat. split.
      + unfold y'. destruct (Nat.ltb_spec (S (ka + i) - p) kb); [reflexivity|lia].
      + apply in_seq. lia.
    - replace (map y' (seq (S (ka + i) - p) p)) with (map (@Fin R) (lastp y (ka + i) p)).
      + rewrite existsb_nan_fin. reflexivity.
      + unfold lastp, win. rewrite map_map. apply map_ext_in. intros j Hj. apply in_seq in Hj.
        unfold y'. destruct (Nat.ltb_spec j kb); [lia|reflexivity]. }
  rewrite E. fold (placed n ka (map g (seq ka (n - ka)))). rewrite placed_spec.
  split; [rewrite map_length, seq_length; reflexivity|].
  intros i Hi. rewrite nth_error_map_seq by exact Hi. cbn [plus]. f_equal. fold (g i).
  destruct (Nat.ltb_spec i ka); [|reflexivity].
  unfold g. destruct (Nat.ltb_spec i (Nat.max ka kb + p - 1)); [reflexivity|lia].
Qed.

Lemma correl_fin (a b : lineR) n ka kb x y p prets rets :
  feeds a n ka (fin x) -> delivers b n kb (fin y) -> (2 <= p)%nat ->
  let r := correl p prets rets a b in
  lmp r = Z.of_nat (S (ka + p - 1)) /\ length (lser r) = n /\
  (forall i, (i < Nat.max ka kb + p - 1)%nat -> (i < n)%nat -> nth_error (lser r) i = Some NaN) /\
  forall i, (Nat.max ka kb + p - 1 <= i < n)%nat ->
    let l := lastp x i p in let m := lastp y i p in
    (constant l \/ constant m -> nth_error (lser r) i = Some NaN) /\
    (~ constant l -> ~ constant m ->
     nth_error (lser r) i = Some (Fin (pearson l m)) /\ -1 <= pearson l m <= 1).
Proof.
  intros Ha Hb Hp r. destruct (rolling2_fin win_corr Ha Hb (p:=p) ltac:(lia)) as (L & Le & V).
  unfold r, correl. split; [exact L|]. split; [exact Le|]. split.
  - intros i Hi Hn. rewrite (V i Hn). destruct (Nat.ltb_spec i (Nat.max ka kb + p - 1)); [reflexivity|lia].
  - intros i Hi. cbv zeta. rewrite (V i) by lia.
    destruct (Nat.ltb_spec i (Nat.max ka kb + p - 1)); [lia|].
    set (l := lastp x i p). set (m := lastp y i p).
    assert (El : length l = length m) by (unfold l, m; rewrite !lastp_length; reflexivity).
    rewrite win_corr_fin; [|exact El|unfold l; rewrite lastp_length; exact Hp].
    split.
    + intros Hc. rewrite (codev_const El Hc). f_equal.
      replace (sqdev l * sqdev m) with 0; [rewrite sqrt_0; apply quot_00|].
      destruct Hc as [Hc|Hc]; apply sqdev_zero in Hc; rewrite Hc; ring.
    + intros Hl Hm. split; [|apply pearson_bounds; assumption].
      rewrite quot_fin; [reflexivity|].
      pose proof (sqrt_lt_R0 _ (sqrt_pos_prod Hl Hm)). lra.
Qed.

(** ** beta *)
Lemma combine_map {A B C} (f : A -> B) (g : A -> C) s :
  combine (map f s) (map g s) = map (fun j => (f j, g j)) s.
Proof. induction s as [|j s IH]; cbn; [reflexivity|]. rewrite IH. reflexivity. Qed.

Lemma DET_sqdev l m : length l = length m -> DET (combine l m) = INR (length l) * sqdev l.
Proof.
  intros E. unfold DET, SX, SXX.
  rewrite <- (map_map fst (fun u => u * u)), map_fst_combine by exact E.
  rewrite combine_length, <- E, Nat.min_id.
  destruct l as [|a l]; [cbn; ring|].
  rewrite sqdev_alt by congruence.
  assert (0 < INR (length (a :: l))) by (apply INR_pos; cbn; lia).
  rewrite (map_ext (fun v => v ^ 2) (fun v => v * v)) by (intros; ring).
  field. lra.
Qed.

Lemma num_codev l m : length l = length m ->
  INR (length l) * SXY (combine l m) - SX (combine l m) * SY (combine l m) =
  INR (length l) * codev l m.
Proof.
  intros E. destruct l as [|a l]; [destruct m; [cbn; ring|discriminate]|].
  rewrite codev_alt by (congruence || exact E).
  assert (0 < INR (length (a :: l))) by (apply INR_pos; cbn; lia).
  unfold SX, SY, SXY. rewrite map_fst_combine, map_snd_combine by exact E.
  rewrite (map_ext (fun q : R * R => fst q * snd q) (fun '(u, v) => u * v)) by (intros [u v]; reflexivity).
  field. lra.
Qed.

Lemma beta_raw_fin (a b : lineR) n ka kb x y p :
  feeds a n ka (fin x) -> feeds b n kb (fin y) -> (1 <= p)%nat ->
  delivers (beta p 1 false a b) n (Nat.max ka kb + p - 1)
    (fun i => quot (codev (lastp x i p) (lastp y i p)) (sqdev (lastp x i p))).
Proof.
  intros Ha Hb Hp. unfold beta.
  pose proof (@rolling_fin win_sum Rsum a n ka x p ltac:(intros; apply vsum_fin) Ha Hp) as Dx.
  pose proof (@rolling_fin win_sum Rsum b n kb y p ltac:(intros; apply vsum_fin) Hb Hp) as Dy.
  assert (Dsq : delivers (pow2 a) n ka (fin (fun i => x i * x i))).
  { unfold pow2. eapply delivers_ext; [|apply (binop_s_delivers _ _ Ha)].
    intros i Hi. unfold fin. apply vmul_fin. }
  pose proof (lmul_fin Ha Hb) as Dm.
  pose proof (@rolling_fin win_sum Rsum _ n _ _ p ltac:(intros; apply vsum_fin) (delivers_feeds Dsq) Hp) as Dxx.
  pose proof (@rolling_fin win_sum Rsum _ n _ _ p ltac:(intros; apply vsum_fin) (delivers_feeds Dm) Hp) as Dxy.
  rewrite vofZ_fin, IZR_nat.
  pose proof (@rmuls_fin n _ _ _ (INR p) (delivers_feeds Dxy)) as E1.
  pose proof (lmul_fin (delivers_feeds Dx) (delivers_feeds Dy)) as E2.
  pose proof (lsub_fin (delivers_feeds E1) (delivers_feeds E2)) as E3.
  pose proof (@rmuls_fin n _ _ _ (INR p) (delivers_feeds Dxx)) as E4.
  assert (E5 : delivers (pow2 (rolling p win_sum a)) n (ka + p - 1)
                 (fin (fun i => Rsum (lastp x i p) * Rsum (lastp x i p)))).
  { unfold pow2. eapply delivers_ext; [|apply (binop_s_delivers _ _ (delivers_feeds Dx))].
    intros i Hi. unfold fin. apply vmul_fin. }
  pose proof (lsub_fin (delivers_feeds E4) (delivers_feeds E5)) as E6.
  eapply del_ext; [| |apply (ldiv_quot (delivers_feeds E3) (delivers_feeds E6))]; [lia|].
  intros i Hi. cbv beta.
  set (l := lastp x i p). set (m := lastp y i p).
  assert (El : length l = length m) by (unfold l, m; rewrite !lastp_length; reflexivity).
  assert (Ll : length l = p) by (unfold l; apply lastp_length).
  assert (HN : 0 < INR p) by (apply INR_pos; exact Hp).
  pose proof (num_codev l m El) as N1. pose proof (DET_sqdev l m El) as N2.
  rewrite Ll in N1, N2.
  rewrite <- (quot_scale (codev l m) (sqdev l) HN).
  assert (C : combine l m = map (fun j => (x j, y j)) (seq (S i - p) p)) by apply combine_map.
  f_equal.
  - rewrite (Rmult_comm (codev l m)), <- N1. unfold SX, SY.
    rewrite map_fst_combine, map_snd_combine by exact El. f_equal. f_equal.
    unfold SXY. rewrite C, map_map. reflexivity.
  - rewrite (Rmult_comm (sqdev l)), <- N2. unfold DET, SX. rewrite map_fst_combine by exact El.
    rewrite combine_length, <- El, Nat.min_id, Ll. f_equal. f_equal.
    unfold SXX. rewrite C, map_map. reflexivity.
Qed.

Lemma pct_fin (a : lineR) n k x r :
  feeds a n k (fin x) -> (forall i, (k <= i < n)%nat -> x i <> 0) ->
  delivers (pct_change a (Z.of_nat r)) n (k + r) (fin (fun i => x i / x (i - r)%nat - 1)).
Proof.
  intros H Hx. eapply delivers_ext; [|apply (@pct_change_delivers _ _ a n k r (fin x))]; auto.
  - intros i Hi. unfold fin. rewrite vdiv_fin, v1_fin, vsub_fin; [reflexivity|]. apply Hx. lia.
  - exact nan_div.
Qed.

Lemma beta_rets p r (a b : lineR) :
  beta p r true a b = beta p 1 false (pct_change a r) (pct_change b r).
Proof. reflexivity. Qed.

Lemma fit_m_codev l m : length l = length m -> l <> [] -> ~ constant l ->
  fit_m (combine l m) = codev l m / sqdev l.
Proof.
  intros E Hl Hc. unfold fit_m. rewrite combine_length, <- E, Nat.min_id, num_codev, DET_sqdev by exact E.
  rewrite <- sqdev_zero in Hc.
  assert (0 < INR (length l)) by (apply INR_pos; destruct l; [congruence|cbn; lia]).
  field. split; lra.
Qed.

Lemma beta_slope l m : length l = length m -> ~ constant l ->
  exists b, least_squares (combine l m) b (codev l m / sqdev l).
Proof.
  intros E Hc. exists (fit_b (combine l m)).
  assert (l <> []) by (intros ->; apply Hc; intros u v []).
  rewrite <- fit_m_codev by assumption. apply fit_least. rewrite DET_sqdev by exact E.
  rewrite <- sqdev_zero in Hc.
  assert (0 < INR (length l)) by (apply INR_pos; destruct l; [congruence|cbn; lia]).
  apply Rmult_integral_contrapositive. split; lra.
Qed.

(** ** mean absolute deviation and CCI *)
Lemma win_mad_fin l : l <> [] -> win_mad (map (@Fin R) l) = Fin (Rmad l).
Proof.
  intros H. unfold win_mad. rewrite win_mean_fin by exact H. cbv zeta. rewrite map_map.
  rewrite (map_ext _ (fun v => Fin (Rabs (v - Rmean l)))).
  2:{ intros v. rewrite vsub_fin, vabs_fin. reflexivity. }
  rewrite <- (map_map (fun v => Rabs (v - Rmean l)) Fin). rewrite win_mean_fin; [reflexivity|].
  destruct l; [congruence|discriminate].
Qed.

Lemma mad_fin (a : lineR) n k x p ma :
  feeds a n k (fin x) -> (1 <= p)%nat ->
  delivers (mad p ma a) n (k + p - 1) (fin (fun i => Rmad (lastp x i p))).
Proof.
  intros H Hp. apply rolling_fin; auto. intros l Hl. apply win_mad_fin.
  intros ->; cbn in Hl; lia.
Qed.

Lemma Rmad_nonneg l : 0 <= Rmad l.
Proof.
  unfold Rmad, Rmean. destruct l as [|a l]; [unfold Rdiv; cbn; lra|].
  apply Rmult_le_pos.
  - apply Rsum_nonneg. intros v Hv. apply in_map_iff in Hv. destruct Hv as (u & <- & _). apply Rabs_pos.
  - left. apply Rinv_0_lt_compat. rewrite map_length. apply INR_pos. cbn. lia.
Qed.

Lemma Rmad_zero l : Rmad l = 0 <-> constant l.
Proof.
  split.
  - intros E u v Hu Hv.
    assert (l <> []) by (intros ->; destruct Hu).
    assert (HN : 0 < INR (length l)) by (apply INR_pos; destruct l; [congruence|cbn; lia]).
    assert (S0 : Rsum (map (fun v => Rabs (v - Rmean l)) l) = 0).
    { unfold Rmad in E. unfold Rmean at 1 in E. rewrite map_length in E.
      apply Rmult_eq_reg_r with (/ INR (length l)); [rewrite Rmult_0_l; exact E|].
      apply Rinv_neq_0_compat. lra. }
    assert (Q : forall w, In w l -> w = Rmean l); [|rewrite (Q u), (Q v); auto].
    intros w Hw. assert (Z : Rabs (w - Rmean l) = 0).
    { apply (@Rsum_zero (map (fun v => Rabs (v - Rmean l)) l)); [|exact S0|].
      - intros z Hz. apply in_map_iff in Hz. destruct Hz as (y & <- & _). apply Rabs_pos.
      - apply in_map_iff. exists w. auto. }
    destruct (Req_dec (w - Rmean l) 0) as [Q|Q]; [lra|]. apply Rabs_no_R0 in Q. contradiction.
  - intros H. unfold Rmad, Rmean at 1. rewrite (Rsum_map_ext _ (fun _ => 0)); [rewrite Rsum_const; unfold Rdiv; ring|].
    intros v Hv. rewrite <- (constant_mean H _ Hv). rewrite Rminus_diag_eq by reflexivity. apply Rabs_R0.
Qed.

Lemma cci_fin (ma dev : ma_fun (ext R)) (h l c : lineR) n k xh xl xc p factor :
  averages ma ->
  feeds h n k (fin xh) -> feeds l n k (fin xl) -> feeds c n k (fin xc) ->
  (1 <= p)%nat -> (k + p <= n)%nat ->
  let tp i := (xh i + xl i + xc i) / 3 in
  exists y tpl av e, cci p (Fin factor) ma dev h l c = Ok y /\
    delivers tpl n k (fin tp) /\
    ma p tpl = Ok av /\ delivers av n (k + p - 1) (fin e) /\
    delivers y n (k + p - 1) (fun i => quot (tp i - e i) (Rmad (lastp tp i p) * factor)).
Proof.
  intros Hma Hh Hl Hc Hp Hn tp.
  pose proof (typprice_fin Hh Hl Hc (d:=3) ltac:(lra)) as Dt.
  destruct (Hma p _ n k tp (delivers_feeds Dt) Hp Hn) as (av & e & Ea & Da).
  pose proof (@mad_fin _ n k tp p sma_ (delivers_feeds Dt) Hp) as Dm.
  unfold cci. rewrite vofZ_fin.
  change (binop_s vdiv (ladd (ladd h l) c) (Fin 3)) with (typprice (Fin 3) h l c).
  rewrite Ea. cbn [bind]. do 4 eexists. split; [reflexivity|].
  split; [exact Dt|]. split; [exact Ea|]. split; [exact Da|].
  eapply del_ext; [| |apply (@ldiv_quot n _ _ _ _ _ _ (delivers_feeds (@lsub_fin n _ _ _ _ _ _ (delivers_feeds Dt) (delivers_feeds Da)))
    (delivers_feeds (@muls_fin n _ _ _ factor (delivers_feeds Dm))))]; [lia|].
  intros; reflexivity.
Qed.
