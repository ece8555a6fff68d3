(** Property theorems C43-C47, C68 and C74: statistics.  Models: IndStat.v; textbook
    definitions: StatSpec.v. *)
From Coq Require Import ZArith QArith List Bool Reals Lra Lia.
From Verif Require Import Num Series Line Spec RSpec StatSpec LineFacts RFacts OpFacts IndMA MAFacts
  RLineFacts IndBasic BasicFacts IndStat StatFacts StatFacts2 PropLinesFacts PropStatFacts.
Import ListNotations.
Local Open Scope R_scope.

(** concrete inputs *)
Definition sx : list R := [1; 5; 2; 4; 3; 7; 6; 9].
Example sx_feeds : feeds (raw (map Fin sx)) 8 0 (fin (fun i => nth i sx 0)).
Proof. exact (raw_fin_feeds sx). Qed.
Example sx3_feeds : feeds (sma 3 (raw (map Fin sx))) 8 2
  (fin (fun i => Rmean (lastp (fun i => nth i sx 0) i 3))).
Proof. exact (delivers_feeds (@sma_fin _ 8 0 _ 3 sx_feeds ltac:(lia))). Qed.
Definition qsx : line (ext Q) := raw (map Fin [1; 5; 2; 4; 3; 7; 6; 9]%Q).

(** C43 *)
Theorem C43_var_stddev :
  forall (a : lineR) n k x p d,
    feeds a n k (fin x) -> (d < p)%nat ->
    exists v s : nat -> R,
      delivers (var p d a) n (k + p - 1) (fin v) /\
      delivers (stddev p d a) n (k + p - 1) (fin s) /\
      forall i,
        v i = Rsum (map (fun u => (u - Rmean (lastp x i p)) ^ 2) (lastp x i p)) / (INR p - INR d) /\
        0 <= v i /\ (v i = 0 <-> constant (lastp x i p)) /\
        0 <= s i /\ s i * s i = v i.
Proof. exact var_all. Qed.
Print Assumptions C43_var_stddev.
Example C43_var_stddev_met := C43_var_stddev _ 8 2 _ 3 1 sx3_feeds ltac:(lia).
Theorem C43_sample :
  forall (a : lineR) n k x p,
    feeds a n k (fin x) -> (2 <= p)%nat ->
    exists v vs : nat -> R,
      delivers (var p 0 a) n (k + p - 1) (fin v) /\
      delivers (var p 1 a) n (k + p - 1) (fin vs) /\
      forall i, vs i = INR p / (INR p - 1) * v i.
Proof. exact var_sample. Qed.
Print Assumptions C43_sample.
Example C43_sample_met := C43_sample _ 8 2 _ 3 sx3_feeds ltac:(lia).
(** a window too short for its ddof (var_s with period 1) never delivers a number *)
Theorem C43_too_short :
  forall (a : lineR) n k x p d,
    feeds a n k (fin x) -> (1 <= p)%nat -> (p <= d)%nat ->
    delivers (var p d a) n (k + p - 1) (fun _ => NaN) /\
    delivers (stddev p d a) n (k + p - 1) (fun _ => NaN).
Proof. exact var_nan. Qed.
Print Assumptions C43_too_short.
Example C43_run :
  var 3 0 qsx = mkLine 3 [NaN; NaN; Fin (26#9); Fin (14#9); Fin (2#3); Fin (26#9); Fin (26#9); Fin (14#9)]%Q /\
  var 3 1 qsx = mkLine 3 [NaN; NaN; Fin (13#3); Fin (7#3); Fin 1; Fin (13#3); Fin (13#3); Fin (7#3)]%Q.
Proof. split; vm_compute; reflexivity. Qed.
Example C43_use : exists v s,
  delivers (var 2 1 (sma 3 (raw (map Fin sx)))) 8 3 (fin v) /\
  delivers (stddev 2 1 (sma 3 (raw (map Fin sx)))) 8 3 (fin s).
Proof.
  destruct (C43_var_stddev _ 8 2 _ 2 1 sx3_feeds ltac:(lia)) as (v & s & A & B & _).
  exists v, s. split; assumption.
Qed.

(** C44, for any averages and whatever is given as [_stdev] *)
Theorem C44_bbands :
  forall (ma stdev : ma_fun (ext R)) (a : lineR) n k x p devs,
    averages ma -> feeds a n k (fin x) -> (1 <= p)%nat -> (k + p <= n)%nat ->
    exists mid top bot e t b,
      bbands p (Fin devs) ma stdev a = Ok (mid, top, bot) /\ ma p a = Ok mid /\
      delivers mid n (k + p - 1) (fin e) /\
      delivers top n (k + p - 1) (fin t) /\
      delivers bot n (k + p - 1) (fin b) /\
      forall i,
        t i - e i = devs * sqrt (Rvar 0 (lastp x i p)) /\
        e i - b i = devs * sqrt (Rvar 0 (lastp x i p)) /\
        (0 <= devs -> b i <= e i <= t i).
Proof. exact bbands_all. Qed.
Print Assumptions C44_bbands.
Example C44_use : exists mid top bot,
  bbands 4 (Fin 2) ema sma_ (raw (map Fin sx)) = Ok (mid, top, bot).
Proof.
  destruct (C44_bbands ema sma_ _ 8 0 _ 4 2 averages_ema sx_feeds ltac:(lia) ltac:(lia))
    as (m & t & b & _ & _ & _ & E & _).
  exists m, t, b. exact E.
Qed.

(** C45: b + m*x is the regression line through the window, with x = 0 at its oldest bar and
    x = p - 1 at its newest.  [linearreg] is its value at the newest bar, [tsf] its value one
    bar later.  With [_talib] the intercept is the value at the oldest bar; without, the x axis
    starts at 1 and the intercept is the value one bar before the window. *)
Theorem C45_linear_regression :
  forall (a : lineR) n k x p,
    feeds a n k (fin x) -> (2 <= p)%nat ->
    exists b m : nat -> R,
      (forall i, least_squares (by_position (lastp x i p)) (b i) (m i)) /\
      delivers (linearreg_slope p a) n (k + p - 1) (fin m) /\
      delivers (linearreg_angle p a) n (k + p - 1) (fin (fun i => atan (m i) * (180 / PI))) /\
      delivers (linearreg_intercept true p a) n (k + p - 1) (fin b) /\
      delivers (linearreg_intercept false p a) n (k + p - 1) (fin (fun i => b i + m i * -1)) /\
      delivers (linearreg p a) n (k + p - 1) (fin (fun i => b i + m i * (INR p - 1))) /\
      delivers (tsf p a) n (k + p - 1) (fin (fun i => b i + m i * INR p)).
Proof. exact linreg_all. Qed.
Print Assumptions C45_linear_regression.
Example C45_linear_regression_met := C45_linear_regression _ 8 2 _ 3 sx3_feeds ltac:(lia).
(** the regression line is determined by the window *)
Theorem C45_unique :
  forall pts b m b' m', least_squares pts b m -> least_squares pts b' m' -> b' = b /\ m' = m.
Proof. exact least_squares_unique. Qed.
Print Assumptions C45_unique.
(** a period of one: no regression line, only NaN *)
Theorem C45_period_one :
  forall (a : lineR) n k x,
    feeds a n k (fin x) -> delivers (linearreg_slope 1 a) n k (fun _ => NaN).
Proof. exact linreg_one. Qed.
Print Assumptions C45_period_one.
Example C45_run :
  linearreg_slope 3 qsx = mkLine 3 [NaN; NaN; Fin (1#2); Fin (-1#2); Fin (1#2); Fin (3#2); Fin (3#2); Fin 1]%Q /\
  linearreg 3 qsx = mkLine 3 [NaN; NaN; Fin (19#6); Fin (19#6); Fin (7#2); Fin (37#6); Fin (41#6); Fin (25#3)]%Q /\
  tsf 3 qsx = mkLine 3 [NaN; NaN; Fin (11#3); Fin (8#3); Fin 4; Fin (23#3); Fin (25#3); Fin (28#3)]%Q /\
  linearreg_intercept true 3 qsx =
    mkLine 3 [NaN; NaN; Fin (13#6); Fin (25#6); Fin (5#2); Fin (19#6); Fin (23#6); Fin (19#3)]%Q /\
  linearreg_intercept false 3 qsx =
    mkLine 3 [NaN; NaN; Fin (5#3); Fin (14#3); Fin 2; Fin (5#3); Fin (7#3); Fin (16#3)]%Q.
Proof. repeat split; vm_compute; reflexivity. Qed.

(** C46.  The declared minimum period only counts the first input (see C46_warm_up). *)
Theorem C46_correl :
  forall (a b : lineR) n ka kb x y p prets rets,
    feeds a n ka (fin x) -> delivers b n kb (fin y) -> (2 <= p)%nat ->
    let r := correl p prets rets a b in
    lmp r = Z.of_nat (S (ka + p - 1)) /\ length (lser r) = n /\
    (forall i, (i < Nat.max ka kb + p - 1)%nat -> (i < n)%nat -> nth_error (lser r) i = Some NaN) /\
    forall i, (Nat.max ka kb + p - 1 <= i < n)%nat ->
      let l := lastp x i p in let m := lastp y i p in
      (constant l \/ constant m -> nth_error (lser r) i = Some NaN) /\
      (~ constant l -> ~ constant m ->
       nth_error (lser r) i = Some (Fin (pearson l m)) /\ -1 <= pearson l m <= 1).
Proof. exact correl_fin. Qed.
Print Assumptions C46_correl.
Example C46_correl_met := C46_correl _ _ 8 0 2 _ _ 3 1 true sx_feeds (@sma_fin _ 8 0 _ 3 sx_feeds ltac:(lia)) ltac:(lia).
Theorem C46_symmetric :
  forall (a b : lineR) n k x y p prets rets prets' rets',
    delivers a n k (fin x) -> delivers b n k (fin y) -> (2 <= p)%nat ->
    correl p prets rets a b = correl p prets' rets' b a.
Proof. exact correl_sym. Qed.
Print Assumptions C46_symmetric.
Theorem C46_affine :
  forall (a b : lineR) n ka kb x c d p prets rets i,
    feeds a n ka (fin x) -> delivers b n kb (fin (fun j => c + d * x j)) -> (2 <= p)%nat ->
    (Nat.max ka kb + p - 1 <= i < n)%nat -> ~ constant (lastp x i p) -> d <> 0 ->
    nth_error (lser (correl p prets rets a b)) i = Some (Fin (if Rlt_dec 0 d then 1 else -1)).
Proof. exact correl_affine. Qed.
Print Assumptions C46_affine.
Example C46_use :
  nth_error (lser (correl 3 1 false (raw (map Fin sx)) (binop_s vmul (raw (map Fin sx)) (Fin (-2))))) 2
  = Some (Fin (-1)).
Proof.
  pose proof (delivers_feeds (@muls_fin 8 _ _ _ (-2) sx_feeds)) as F.
  pose proof (@muls_fin 8 _ _ _ (-2) sx_feeds) as D.
  rewrite (C46_affine _ _ 8 0 0 (fun i => nth i sx 0) 0 (-2) 3 1 false 2).
  - destruct (Rlt_dec 0 (-2)); [lra|reflexivity].
  - exact sx_feeds.
  - eapply fin_ext; [reflexivity| |exact D]. intros; cbv beta; ring.
  - lia.
  - cbn; lia.
  - intros C. specialize (C 1 5). unfold lastp, win in C. cbn in C.
    assert (1 = 5) by (apply C; auto). lra.
  - lra.
Qed.

(** C47: the delivered value is the slope of the regression of the market's returns on the
    asset's returns (x = asset, y = market); NaN if the asset's returns are all equal *)
Theorem C47_beta_partial :
  forall (a b : lineR) n k x y p r,
    feeds a n k (fin x) -> feeds b n k (fin y) -> (1 <= p)%nat ->
    (forall i, (k <= i < n)%nat -> x i <> 0 /\ y i <> 0) ->
    exists f, delivers (beta p (Z.of_nat r) true a b) n (k + r + p - 1) f /\
      forall i, (k + r + p - 1 <= i < n)%nat ->
        let ra := lastp (rets_of x r) i p in let rm := lastp (rets_of y r) i p in
        (constant ra -> f i = NaN) /\
        (~ constant ra -> exists m c, f i = Fin m /\ least_squares (combine ra rm) c m).
Proof. exact beta_all. Qed.
Print Assumptions C47_beta_partial.
Example C47_beta_partial_met := C47_beta_partial _ _ 8 0 _ _ 3 1 sx_feeds sx_feeds ltac:(lia) ltac:(intros i Hi; do 8 (destruct i as [|i]; [simpl; lra|]); lia).
(** C47: whenever the asset moves c times as much as the market, the documented beta (slope of
    the asset on the market) is c and the delivered one 1 / c *)
Theorem C47_beta_refuted :
  forall (a b : lineR) n k x y p r c i,
    feeds a n k (fin x) -> feeds b n k (fin y) -> (1 <= p)%nat ->
    (forall i, (k <= i < n)%nat -> x i <> 0 /\ y i <> 0) ->
    (k + r + p - 1 <= i < n)%nat -> c <> 0 ->
    let ra := lastp (rets_of x r) i p in let rm := lastp (rets_of y r) i p in
    ~ constant rm -> ra = map (fun v => c * v) rm ->
    least_squares (combine rm ra) 0 c /\
    nth_error (lser (beta p (Z.of_nat r) true a b)) i = Some (Fin (/ c)).
Proof. exact beta_inverted. Qed.
Print Assumptions C47_beta_refuted.
(** market 1, 2, 3: returns 1, 1/2; asset 1, 3, 6: returns 2, 1 *)
Example C47_use :
  nth_error (lser (beta 2 1 true (raw (map Fin [1; 3; 6])) (raw (map Fin [1; 2; 3])))) 2
  = Some (Fin (/ 2)).
Proof.
  refine (proj2 (C47_beta_refuted _ _ 3 0 (fun i => nth i [1; 3; 6] 0) (fun i => nth i [1; 2; 3] 0)
    2 1 2 2 (raw_fin_feeds [1; 3; 6]) (raw_fin_feeds [1; 2; 3]) _ _ _ _ _ _)).
  - lia.
  - intros i Hi. destruct i as [|[|[|i]]]; cbn; try lra. lia.
  - lia.
  - lra.
  - unfold lastp, win, rets_of. cbn. intros C.
    specialize (C _ _ (or_introl eq_refl) (or_intror (or_introl eq_refl))). lra.
  - unfold lastp, win, rets_of. cbn. repeat (f_equal; try field).
Qed.
Example C47_run :
  beta 2 1 true (raw (map Fin [1; 3; 6]%Q)) (raw (map Fin [1; 2; 3]%Q)) =
  mkLine 3 [NaN; NaN; Fin (1#2)]%Q.
Proof. vm_compute. reflexivity. Qed.

(** C68: the constructor arguments [_stdev] (bbands), [_dev] (cci), [_ma] (mad, trima, t3 with
    _gd=False) and [_prets], [_rets] (correl) have no influence on the result *)
Theorem C68_parameters_refuted :
  forall (V : Type) (N : Num V) (T : NumT V),
    (forall (f g : ma_fun V) p devs ma a, bbands p devs ma f a = bbands p devs ma g a) /\
    (forall (f g : ma_fun V) p factor ma h l c, cci p factor ma f h l c = cci p factor ma g h l c) /\
    (forall (f g : ma_fun V) p a, mad p f a = mad p g a) /\
    (forall (f g : ma_fun V) p a, trima_ind f p a = trima_ind g p a) /\
    (forall (f g : ma_fun V) p v a, t3_ind false f p v a = t3_ind false g p v a) /\
    (forall p r r' b b' x y, correl (V:=V) p r b x y = correl p r' b' x y).
Proof. exact params_no_effect. Qed.
Print Assumptions C68_parameters_refuted.
(** where the parameter is used, it has an effect: t3 with _gd=True, cci's [_ma] *)
Example C68_used :
  t3_ind true sma_ 1 (Fin 1%Q) qsx <> t3_ind true (fun p => sma_ (S p)) 1 (Fin 1%Q) qsx /\
  cci 2 (Fin 1%Q) sma_ sma_ qsx qsx qsx <> cci 2 (Fin 1%Q) ema sma_ qsx qsx qsx.
Proof. split; vm_compute; discriminate. Qed.

(** C74: mean deviation and CCI *)
Theorem C74_mad :
  forall (a : lineR) n k x p ma,
    feeds a n k (fin x) -> (1 <= p)%nat ->
    exists d : nat -> R,
      delivers (mad p ma a) n (k + p - 1) (fin d) /\
      forall i,
        d i = Rmean (map (fun v => Rabs (v - Rmean (lastp x i p))) (lastp x i p)) /\
        0 <= d i /\ (d i = 0 <-> constant (lastp x i p)).
Proof. exact mad_all. Qed.
Print Assumptions C74_mad.
Example C74_mad_met := C74_mad _ 8 2 _ 3 sma_ sx3_feeds ltac:(lia).
Theorem C74_cci :
  forall (dev : ma_fun (ext R)) (h l c : lineR) n k xh xl xc p factor,
    feeds h n k (fin xh) -> feeds l n k (fin xl) -> feeds c n k (fin xc) ->
    (1 <= p)%nat -> (k + p <= n)%nat -> factor <> 0 ->
    let tp i := (xh i + xl i + xc i) / 3 in
    exists y f, cci p (Fin factor) sma_ dev h l c = Ok y /\
      delivers y n (k + p - 1) f /\
      forall i, (k + p - 1 <= i < n)%nat ->
        let w := lastp tp i p in
        (constant w -> f i = NaN) /\
        (~ constant w -> f i = Fin ((tp i - Rmean w) / (factor * Rmad w))).
Proof. exact cci_sma. Qed.
Print Assumptions C74_cci.
Example C74_run :
  mad 3 sma_ qsx = mkLine 3 [NaN; NaN; Fin (14#9); Fin (10#9); Fin (2#3); Fin (14#9); Fin (14#9); Fin (10#9)]%Q /\
  cci 3 (Fin (15#1000))%Q sma_ sma_ qsx qsx qsx =
  Ok (mkLine 3 [NaN; NaN; Fin (-200#7); Fin 20; Fin 0; Fin 100; Fin (200#7); Fin 100]%Q).
Proof. split; vm_compute; reflexivity. Qed.
