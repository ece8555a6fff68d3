(** Vocabulary for C121: the same data in another unit (cents instead of dollars, lots instead
    of shares), and the unit each output has. *)
From Coq Require Import ZArith List Bool Reals.
From Verif Require Import Num Series Line Catalog.
Import ListNotations.
Local Open Scope R_scope.

(** a value multiplied by the positive factor [u]; missing and infinite values stay *)
Definition times (u : R) (x : ext R) : ext R :=
  match x with Fin a => Fin (u * a) | _ => x end.
Definition in_unit (u : R) (l : line (ext R)) : line (ext R) :=
  mkLine (lmp l) (map (times u) (lser l)).

(** several lines, each with its own factor *)
Fixpoint in_units (us : list R) (ls : list (line (ext R))) : list (line (ext R)) :=
  match us, ls with
  | u :: us', l :: ls' => in_unit u l :: in_units us' ls'
  | _, _ => []
  end.

(** the same result in other units: lines are converted, an exception stays *)
Definition converted {A} (f : A -> A) (r : res A) : res A :=
  match r with Ok a => Ok (f a) | Raise e => Raise e end.

(** averages whose result is in the unit of their input *)
Fixpoint same (a : avg (ext R)) : bool :=
  match a with
  | ASma | AEwma _ | AEma _ | ASmma _ | AWma | ATrima | AT3 _ | AKama _ _ _ _ | ASum | AMax | AMin
  | AStddev _ | AMad | ASlope | AIntercept _ | ALinearreg | ATsf | AMidpoint | AMom | ASmacc _ => true
  | ADema a | ATema a | AGdema a _ | AT3gd a _ => same a
  | _ => false
  end.
(** averages and the like that are pure numbers: positions in a window, relative changes *)
Definition pure (a : avg (ext R)) : bool :=
  match a with
  | AMaxindex | AMinindex | ARoc | ARocp | ARocr | ARocr100 => true
  | ATrix a => same a
  | _ => false
  end.
Definition squared (a : avg (ext R)) : bool := match a with AVar _ => true | _ => false end.

(** indicators with one output which are not in the rules below for every unit *)
Definition one_line (x : ind (ext R)) : bool :=
  match x with XExpr _ | XAvg _ _ | XMathrad _ _ | XMath _ | XSarext _ _ => true | _ => false end.

(** [units x us ws]: the outputs of the indicator [x] have the units [ws] if its inputs have
    the units [us].  Left out: mathematical functions, the angle of the regression line and
    sarext with a start value, which only make sense in one unit (they are covered by the
    last rule). *)
Inductive units : ind (ext R) -> list R -> list R -> Prop :=
(* an average *)
| u_same a p u : same a = true -> units (XAvg a p) [u] [u]
| u_pure a p u : pure a = true -> units (XAvg a p) [u] [1]
| u_squared a p u : squared a = true -> units (XAvg a p) [u] [u * u]
(* prices *)
| u_avgprice d u : units (XAvgprice d) [u; u; u; u] [u]
| u_typprice d u : units (XTypprice d) [u; u; u] [u]
| u_wclprice w d u : units (XWclprice w d) [u; u; u] [u]
| u_medprice d u : units (XMedprice d) [u; u] [u]
| u_sqrt u : units XSqrt [u] [sqrt u]
(* operators: sums need equal units, products and quotients do not *)
| u_add u : units XAdd [u; u] [u]
| u_sub u : units XSub [u; u] [u]
| u_mult u v : units XMult [u; v] [u * v]
| u_div u v : units XDiv [u; v] [u / v]
(* extremes and their positions *)
| u_minmax p u : units (XMinmax p) [u] [u; u]
| u_maxindex_abs p u : units (XMaxindexAbs p) [u] [1]
| u_minindex_abs p u : units (XMinindexAbs p) [u] [1]
| u_minmaxindex p ab u : units (XMinmaxindex p ab) [u] [1; 1]
| u_midprice p u : units (XMidprice p) [u; u] [u]
(* differences of averages *)
| u_macd ma masig pf ps psig u :
    same ma = true -> same masig = true -> units (XMacd ma masig pf ps psig) [u] [u; u; u]
| u_macd_talib pf ps psig u : units (XMacdTalib pf ps psig) [u] [u; u; u]
| u_apo ma pf ps u : same ma = true -> units (XApo ma pf ps) [u] [u]
| u_ppo ma masig pf ps psig u : same ma = true -> units (XPpo ma masig pf ps psig) [u] [1; 1; 1]
| u_ppofast ma masig pf ps psig u :
    same ma = true -> units (XPpofast ma masig pf ps psig) [u] [1; 1; 1]
| u_crossup s u : units (XCrossup s) [u; u] [1]
| u_crossdown s u : units (XCrossdown s) [u; u] [1]
| u_crossover s u : units (XCrossover s) [u; u] [1]
(* statistics *)
| u_bbands p devs ma stdev u : same ma = true -> units (XBbands p devs ma stdev) [u] [u; u; u]
| u_cci p f ma dev u : same ma = true -> units (XCci p f ma dev) [u; u; u] [1]
| u_correl p prets rets u v : units (XCorrel p prets rets) [u; v] [1]
| u_beta p prets u v : units (XBeta p prets true) [u; v] [1]
| u_beta_raw p prets u v : units (XBeta p prets false) [u; v] [v / u]
(* ranges and directional movement *)
| u_truehigh lb u : units (XTruehigh lb) [u; u] [u]
| u_truelow lb u : units (XTruelow lb) [u; u] [u]
| u_truerange lb u : units (XTruerange lb) [u; u; u] [u]
| u_atr ma p lb u : same ma = true -> units (XAtr ma p lb) [u; u; u] [u]
| u_natr ma p lb u : same ma = true -> units (XNatr ma p lb) [u; u; u] [1]
| u_plus_dm alt pe ma p lb u : (alt = true -> same ma = true) -> units (XPlusDm alt pe ma p lb) [u; u] [u]
| u_minus_dm alt pe ma p lb u : (alt = true -> same ma = true) -> units (XMinusDm alt pe ma p lb) [u; u] [u]
| u_dm alt pe ma p lb u : (alt = true -> same ma = true) -> units (XDm alt pe ma p lb) [u; u] [u; u]
| u_plus_di alt pe ma p lb u :
    (alt = true -> same ma = true) -> units (XPlusDi alt pe ma p lb) [u; u; u] [1]
| u_minus_di alt pe ma p lb u :
    (alt = true -> same ma = true) -> units (XMinusDi alt pe ma p lb) [u; u; u] [1]
| u_di alt pe ma p lb u : (alt = true -> same ma = true) -> units (XDi alt pe ma p lb) [u; u; u] [1; 1]
| u_dx alt pe ma p lb u : (alt = true -> same ma = true) -> units (XDx alt pe ma p lb) [u; u; u] [1]
| u_adx alt pe ma p lb u : (alt = true -> same ma = true) -> units (XAdx alt pe ma p lb) [u; u; u] [1]
| u_adxr talib pr alt pe ma p lb u :
    (alt = true -> same ma = true) -> units (XAdxr talib pr alt pe ma p lb) [u; u; u] [1]
(* oscillators; [v] is the unit of the volume *)
| u_rsi ma p lb u : same ma = true -> units (XRsi ma p lb) [u] [1]
| u_cmo sm p u : same sm = true -> units (XCmo sm p) [u] [1]
| u_mfi p u v : units (XMfi p) [u; u; u; v] [1]
| u_stochf ma p pf u : units (XStochf ma p pf) [u; u; u] [1; 1]
| u_stochastic ma mas p pf ps u : units (XStochastic ma mas p pf ps) [u; u; u] [1; 1]
| u_williamsr p u : units (XWilliamsr p) [u; u; u] [1]
| u_aroon p u : units (XAroon p) [u; u] [1; 1]
| u_aroonosc p u : units (XAroonosc p) [u; u] [1]
| u_ultosc p1 p2 p3 f1 f2 f3 u : units (XUltosc p1 p2 p3 f1 f2 f3) [u; u; u] [1]
| u_bop u : units XBop [u; u; u; u] [1]
| u_stochrsi p ph sc u : units (XStochrsi p ph sc) [u] [1]
| u_stochrsi_talib p ph sc ma pf u : units (XStochrsiTalib p ph sc ma pf) [u] [1; 1]
(* volume *)
| u_ad u v : units XAd [u; u; u; v] [v]
| u_adosc ma pf ps u v : same ma = true -> units (XAdosc ma pf ps) [u; u; u; v] [v]
| u_obv talib period u v : units (XObv talib period) [u; v] [v]
(* parabolic stop and reverse *)
| u_sar af afmax u : units (XSar af afmax) [u; u] [u]
| u_sarext P u : units (XSarext (Fin 0) P) [u; u] [u]
(* Hilbert transform, of one price or of high and low *)
| u_dcperiod u us : us = [u] \/ us = [u; u] -> units XHtDcperiod us [1]
| u_phasor u us : us = [u] \/ us = [u; u] -> units XHtPhasor us [u; u]
| u_mama f s u us : us = [u] \/ us = [u; u] -> units (XMama f s) us [u; u]
| u_dcphase u us : us = [u] \/ us = [u; u] -> units XHtDcphase us [1]
| u_sine u us : us = [u] \/ us = [u; u] -> units XHtSine us [1; 1]
| u_trendline u us : us = [u] \/ us = [u; u] -> units XHtTrendline us [u]
| u_trendmode u us : us = [u] \/ us = [u; u] -> units XHtTrendmode us [1]
(* pure numbers give pure numbers *)
| u_numbers x us : one_line x = true -> Forall (eq 1) us -> units x us [1].

(** the units of the lines of a session *)
Inductive session_units : list R -> list (step (ext R)) -> list R -> Prop :=
| su_end us : session_units us [] us
| su_step us x is r ins outs ws :
    map (nth_error us) is = map Some ins ->
    units x ins outs -> session_units (us ++ outs) r ws -> session_units us ((x, is) :: r) ws.
