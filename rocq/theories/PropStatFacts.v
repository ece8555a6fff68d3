(** Proofs in the shape of the property theorems C43-C47, C68, C74. *)
From Coq Require Import ZArith List Bool Reals Lra Lia Psatz.
From Verif Require Import Num Series Line Spec RSpec StatSpec LineFacts RFacts OpFacts IndMA MAFacts
  RLineFacts IndBasic BasicFacts IndStat StatFacts StatFacts2.
Import ListNotations.
Set Implicit Arguments.
Local Open Scope R_scope.

Lemma var_all (a : lineR) n k x p d :
  feeds a n k (fin x) -> (d < p)%nat ->
  exists v s : nat -> R,
    delivers (var p d a) n (k + p - 1) (fin v) /\
    delivers (stddev p d a) n (k + p - 1) (fin s) /\
    forall i,
      v i = Rsum (map (fun u => (u - Rmean (lastp x i p)) ^ 2) (lastp x i p)) / (INR p - INR d) /\
      0 <= v i /\ (v i = 0 <-> constant (lastp x i p)) /\
      0 <= s i /\ s i * s i = v i.
Proof.
  intros H Hd.
  exists (fun i => Rvar d (lastp x i p)), (fun i => sqrt (Rvar d (lastp x i p))).
  split; [apply var_fin; [exact H|lia|lia]|]. split; [apply stddev_fin; [exact H|lia|lia]|].
  intros i. assert (Hl : (d < length (lastp x i p))%nat) by (rewrite lastp_length; lia).
  split; [unfold Rvar, sqdev; rewrite lastp_length; reflexivity|].
  split; [apply Rvar_nonneg; exact Hl|]. split; [apply Rvar_zero; exact Hl|].
  split; [apply sqrt_pos|]. apply sqrt_def. apply Rvar_nonneg; exact Hl.
Qed.

Lemma var_sample (a : lineR) n k x p :
  feeds a n k (fin x) -> (2 <= p)%nat ->
  exists v vs : nat -> R,
    delivers (var p 0 a) n (k + p - 1) (fin v) /\
    delivers (var p 1 a) n (k + p - 1) (fin vs) /\
    forall i, vs i = INR p / (INR p - 1) * v i.
Proof.
  intros H Hp. exists (fun i => Rvar 0 (lastp x i p)), (fun i => Rvar 1 (lastp x i p)).
  split; [apply var_fin; [exact H|lia|lia]|]. split; [apply var_fin; [exact H|lia|lia]|].
  intros i. rewrite var_sample_population by (rewrite lastp_length; exact Hp).
  rewrite lastp_length. reflexivity.
Qed.

Lemma bbands_all (ma stdev : ma_fun (ext R)) (a : lineR) n k x p devs :
  averages ma -> feeds a n k (fin x) -> (1 <= p)%nat -> (k + p <= n)%nat ->
  exists mid top bot e t b,
    bbands p (Fin devs) ma stdev a = Ok (mid, top, bot) /\ ma p a = Ok mid /\
    delivers mid n (k + p - 1) (fin e) /\
    delivers top n (k + p - 1) (fin t) /\
    delivers bot n (k + p - 1) (fin b) /\
    forall i,
      t i - e i = devs * sqrt (Rvar 0 (lastp x i p)) /\
      e i - b i = devs * sqrt (Rvar 0 (lastp x i p)) /\
      (0 <= devs -> b i <= e i <= t i).
Proof.
  intros Hma H Hp Hn. destruct (@bbands_fin ma stdev a n k x p devs Hma H Hp Hn)
    as (mid & top & bot & e & E & Em & Dm & Dt & Db).
  exists mid, top, bot, e, (fun i => e i + devs * sqrt (Rvar 0 (lastp x i p))),
    (fun i => e i - devs * sqrt (Rvar 0 (lastp x i p))).
  split; [exact E|]. split; [exact Em|]. split; [exact Dm|]. split; [exact Dt|]. split; [exact Db|].
  intros i. pose proof (sqrt_pos (Rvar 0 (lastp x i p))).
  split; [ring|]. split; [ring|]. intros Hd.
  assert (0 <= devs * sqrt (Rvar 0 (lastp x i p))) by (apply Rmult_le_pos; assumption). lra.
Qed.

(** the end value of the regression line is the value at the newest bar, etc.: see linreg_all *)

Lemma correl_sym (a b : lineR) n k x y p prets rets prets' rets' :
  delivers a n k (fin x) -> delivers b n k (fin y) -> (2 <= p)%nat ->
  correl p prets rets a b = correl p prets' rets' b a.
Proof.
  intros Ha Hb Hp.
  destruct (rolling2_fin win_corr (delivers_feeds Ha) Hb (p:=p) ltac:(lia)) as (L1 & N1 & V1).
  destruct (rolling2_fin win_corr (delivers_feeds Hb) Ha (p:=p) ltac:(lia)) as (L2 & N2 & V2).
  unfold correl in *. destruct (rolling2 p win_corr a b) as [m1 s1], (rolling2 p win_corr b a) as [m2 s2].
  cbn [lmp lser] in *. f_equal; [congruence|].
  apply nth_error_ext; [congruence|]. intros i Hi. rewrite N1 in Hi. rewrite V1, V2 by exact Hi.
  f_equal. destruct (i <? Nat.max k k + p - 1)%nat; [reflexivity|].
  rewrite !win_corr_fin by (rewrite !lastp_length; lia).
  rewrite codev_sym by (rewrite !lastp_length; reflexivity).
  rewrite (Rmult_comm (sqdev (lastp x i p))). reflexivity.
Qed.

Lemma lastp_affine x i p c d : lastp (fun j => c + d * x j) i p = map (fun v => c + d * v) (lastp x i p).
Proof. unfold lastp, win. rewrite map_map. reflexivity. Qed.

Lemma constant_affine c d l : d <> 0 -> constant (map (fun v => c + d * v) l) -> constant l.
Proof.
  intros Hd H u v Hu Hv.
  assert (c + d * u = c + d * v) by (apply H; apply in_map_iff; eauto).
  assert (d * u = d * v) by lra. apply Rmult_eq_reg_l with d; assumption.
Qed.

Lemma correl_affine (a b : lineR) n ka kb x c d p prets rets i :
  feeds a n ka (fin x) -> delivers b n kb (fin (fun j => c + d * x j)) -> (2 <= p)%nat ->
  (Nat.max ka kb + p - 1 <= i < n)%nat -> ~ constant (lastp x i p) -> d <> 0 ->
  nth_error (lser (correl p prets rets a b)) i = Some (Fin (if Rlt_dec 0 d then 1 else -1)).
Proof.
  intros Ha Hb Hp Hi Hc Hd.
  destruct (@correl_fin a b n ka kb _ _ p prets rets Ha Hb Hp) as (_ & _ & _ & V).
  destruct (V i Hi) as [_ Q]. destruct Q as [Q _]; [exact Hc| |].
  - rewrite lastp_affine. intros F. apply Hc. eapply constant_affine; eassumption.
  - rewrite Q, lastp_affine, pearson_affine by assumption. reflexivity.
Qed.

(** the returns of a series over r bars *)
Definition rets_of (x : nat -> R) (r : nat) : nat -> R := fun i => (x i - x (i - r)%nat) / x (i - r)%nat.

Lemma beta_all (a b : lineR) n k x y p r :
  feeds a n k (fin x) -> feeds b n k (fin y) -> (1 <= p)%nat ->
  (forall i, (k <= i < n)%nat -> x i <> 0 /\ y i <> 0) ->
  exists f, delivers (beta p (Z.of_nat r) true a b) n (k + r + p - 1) f /\
    forall i, (k + r + p - 1 <= i < n)%nat ->
      let ra := lastp (rets_of x r) i p in let rm := lastp (rets_of y r) i p in
      (constant ra -> f i = NaN) /\
      (~ constant ra -> exists m c, f i = Fin m /\ least_squares (combine ra rm) c m).
Proof.
  intros Ha Hb Hp Hnz. rewrite beta_rets.
  assert (Px : delivers (pct_change a (Z.of_nat r)) n (k + r) (fin (rets_of x r))).
  { eapply fin_ext; [reflexivity| |apply pct_fin; [exact Ha|intros; apply Hnz; assumption]].
    intros i Hi. unfold rets_of. cbv beta. field. apply Hnz. lia. }
  assert (Py : delivers (pct_change b (Z.of_nat r)) n (k + r) (fin (rets_of y r))).
  { eapply fin_ext; [reflexivity| |apply pct_fin; [exact Hb|intros; apply Hnz; assumption]].
    intros i Hi. unfold rets_of. cbv beta. field. apply Hnz. lia. }
  pose proof (@beta_raw_fin _ _ n _ _ _ _ p (delivers_feeds Px) (delivers_feeds Py) Hp) as D.
  rewrite Nat.max_id in D. eexists. split; [exact D|].
  intros i Hi. cbv zeta beta.
  set (ra := lastp (rets_of x r) i p). set (rm := lastp (rets_of y r) i p).
  assert (El : length ra = length rm) by (unfold ra, rm; rewrite !lastp_length; reflexivity).
  split.
  - intros Hc. rewrite (codev_const El) by (left; exact Hc). apply sqdev_zero in Hc. rewrite Hc.
    apply quot_00.
  - intros Hc. destruct (@beta_slope ra rm El Hc) as (c & Hc'). exists (codev ra rm / sqdev ra), c.
    split; [|exact Hc']. apply quot_fin. rewrite <- sqdev_zero in Hc. exact Hc.
Qed.

(** an exactly linear relation is its own regression line *)
Lemma exact_fit l c : ~ constant l -> least_squares (combine l (map (fun v => c * v) l)) 0 c.
Proof.
  intros Hc. 
  assert (El : length l = length (map (fun v => c * v) l)) by (rewrite map_length; reflexivity).
  assert (HD : DET (combine l (map (fun v => c * v) l)) <> 0).
  { rewrite DET_sqdev by exact El. rewrite <- sqdev_zero in Hc.
    assert (l <> []) by (intros ->; apply Hc; reflexivity).
    assert (0 < INR (length l)) by (apply INR_pos; destruct l; [congruence|cbn; lia]).
    apply Rmult_integral_contrapositive. split; lra. }
  assert (Z : sse (combine l (map (fun v => c * v) l)) 0 c = 0).
  { unfold sse. clear. induction l as [|u l IH]; [reflexivity|].
    cbn [map combine]. rewrite Rsum_cons, IH. ring. }
  pose proof (fit_least HD) as F.
  destruct (F 0 c) as [F1 F2].
  pose proof (sse_nonneg (combine l (map (fun v => c * v) l))
                (fit_b (combine l (map (fun v => c * v) l))) (fit_m (combine l (map (fun v => c * v) l)))) as P.
  destruct F2 as [Q1 Q2]; [lra|]. rewrite <- Q1, <- Q2 in F. exact F.
Qed.

Lemma constant_scale c l : c <> 0 -> constant (map (fun v => c * v) l) -> constant l.
Proof.
  intros Hc H u v Hu Hv.
  assert (c * u = c * v) by (apply H; apply in_map_iff; eauto).
  apply Rmult_eq_reg_l with c; assumption.
Qed.

(** the documented beta is c, the delivered one 1 / c *)
Lemma beta_inverted (a b : lineR) n k x y p r c i :
  feeds a n k (fin x) -> feeds b n k (fin y) -> (1 <= p)%nat ->
  (forall i, (k <= i < n)%nat -> x i <> 0 /\ y i <> 0) ->
  (k + r + p - 1 <= i < n)%nat -> c <> 0 ->
  let ra := lastp (rets_of x r) i p in let rm := lastp (rets_of y r) i p in
  ~ constant rm -> ra = map (fun v => c * v) rm ->
  least_squares (combine rm ra) 0 c /\
  nth_error (lser (beta p (Z.of_nat r) true a b)) i = Some (Fin (/ c)).
Proof.
  intros Ha Hb Hp Hnz Hi Hc ra rm Hcm E.
  split; [rewrite E; apply exact_fit; exact Hcm|].
  destruct (@beta_all a b n k x y p r Ha Hb Hp Hnz) as (f & [(_ & _ & V) _] & W).
  destruct (W i Hi) as [_ W2]. fold ra rm in W2.
  assert (Hra : ~ constant ra).
  { rewrite E. intros F. apply Hcm. eapply constant_scale; eassumption. }
  destruct (W2 Hra) as (m & c' & Ef & Lf).
  rewrite (V i Hi), Ef. do 2 f_equal.
  assert (E' : rm = map (fun v => / c * v) ra).
  { rewrite E, map_map. rewrite <- (map_id rm) at 1. apply map_ext. intros v. field. exact Hc. }
  rewrite E' in Lf.
  destruct (least_squares_unique (exact_fit (/ c) Hra) Lf) as [_ ->]. reflexivity.
Qed.

(** ** parameters without effect *)
Lemma params_no_effect (V : Type) (N : Num V) (T : NumT V) :
  (forall (f g : ma_fun V) p devs ma a, bbands p devs ma f a = bbands p devs ma g a) /\
  (forall (f g : ma_fun V) p factor ma h l c, cci p factor ma f h l c = cci p factor ma g h l c) /\
  (forall (f g : ma_fun V) p a, mad p f a = mad p g a) /\
  (forall (f g : ma_fun V) p a, trima_ind f p a = trima_ind g p a) /\
  (forall (f g : ma_fun V) p v a, t3_ind false f p v a = t3_ind false g p v a) /\
  (forall p r r' b b' x y, correl (V:=V) p r b x y = correl p r' b' x y).
Proof. repeat split. Qed.

(** ** mean absolute deviation and CCI *)
Lemma mad_all (a : lineR) n k x p ma :
  feeds a n k (fin x) -> (1 <= p)%nat ->
  exists d : nat -> R,
    delivers (mad p ma a) n (k + p - 1) (fin d) /\
    forall i,
      d i = Rmean (map (fun v => Rabs (v - Rmean (lastp x i p))) (lastp x i p)) /\
      0 <= d i /\ (d i = 0 <-> constant (lastp x i p)).
Proof.
  intros H Hp. exists (fun i => Rmad (lastp x i p)). split; [apply mad_fin; assumption|].
  intros i. split; [reflexivity|]. split; [apply Rmad_nonneg|apply Rmad_zero].
Qed.

Lemma cci_sma (dev : ma_fun (ext R)) (h l c : lineR) n k xh xl xc p factor :
  feeds h n k (fin xh) -> feeds l n k (fin xl) -> feeds c n k (fin xc) ->
  (1 <= p)%nat -> (k + p <= n)%nat -> factor <> 0 ->
  let tp i := (xh i + xl i + xc i) / 3 in
  exists y f, cci p (Fin factor) sma_ dev h l c = Ok y /\ delivers y n (k + p - 1) f /\
    forall i, (k + p - 1 <= i < n)%nat ->
      let w := lastp tp i p in
      (constant w -> f i = NaN) /\
      (~ constant w -> f i = Fin ((tp i - Rmean w) / (factor * Rmad w))).
Proof.
  intros Hh Hl Hc Hp Hn Hf tp.
  pose proof (typprice_fin Hh Hl Hc (d:=3) ltac:(lra)) as Dt.
  pose proof (sma_fin (delivers_feeds Dt) Hp) as Da.
  pose proof (@mad_fin _ n k tp p sma_ (delivers_feeds Dt) Hp) as Dm.
  unfold cci, sma_. rewrite vofZ_fin.
  change (binop_s vdiv (ladd (ladd h l) c) (Fin 3)) with (typprice (Fin 3) h l c).
  cbn [bind]. do 2 eexists. split; [reflexivity|]. split.
  - eapply del_ext; [|intros; reflexivity|apply (@ldiv_quot n _ _ _ _ _ _ (delivers_feeds (@lsub_fin n _ _ _ _ _ _ (delivers_feeds Dt) (delivers_feeds Da)))
    (delivers_feeds (@muls_fin n _ _ _ factor (delivers_feeds Dm))))]. lia.
  - intros i Hi. cbv beta zeta. fold (tp i).
    change (fun i => (xh i + xl i + xc i) / 3) with tp. set (w := lastp tp i p).
    split.
    + intros C. assert (Rmad w = 0) as -> by (apply Rmad_zero; exact C).
      assert (In (tp i) w).
      { apply in_win. exists i. split; [lia|reflexivity]. }
      rewrite <- (constant_mean C _ H). rewrite Rmult_0_l. unfold Rminus. rewrite Rplus_opp_r. apply quot_00.
    + intros C. rewrite <- Rmad_zero in C. rewrite quot_fin.
      * f_equal. rewrite (Rmult_comm factor). reflexivity.
      * apply Rmult_integral_contrapositive. split; assumption.
Qed.
