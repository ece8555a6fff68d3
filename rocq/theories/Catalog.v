(** The whole catalogue of indicators as one data type, and sessions which chain them.

    An [avg] is a function a user can pass as [_ma], [_mafast], [_accum], ... (any
    indicator with one input, one output and a parameter [period]); an [ind] is one
    indicator with all its parameters; a [session] calculates one indicator after the
    other, each on lines that are inputs or outputs of earlier ones.  Nothing is
    calculated here: [run] only passes the parameters to the models of the single
    indicators (IndMA.v, IndBasic.v, IndStat.v, IndRange.v, IndOsc.v, IndVol.v, IndSar.v,
    IndHT.v, IndMama.v) and to the operator expressions of Expr.v.

    Left out: mavp (its periods are data, see IndMavp.v and C41/C42). *)
From Coq Require Import ZArith List Bool.
From Verif Require Import Num Series Line Expr IndMA IndBasic IndStat IndRange IndOsc IndVol
  Apply IndSar IndHT IndMama.
Import ListNotations.
Set Implicit Arguments.

Section Catalog.
  Context {V : Type} {N : Num V} {T : NumT V}.
  Notation line := (line V).

  (** Indicators usable as moving average, accumulator or deviation of another one.
      /repo/btalib/indicators/sma.py 12-33, ewma.py 12-38, ema.py 12-41, smma.py 12-49,
      wma.py 12-45, dema.py 12-40, tema.py 12-40, trima.py 12-50, trix.py 12-37,
      t3.py 12-130, kama.py 12-76, mathop.py 14-160, var.py, stddev.py, madev.py, linreg.py,
      midpoint.py, mom.py, roc.py, directionalmove.py 14-75 (smacc, with the default
      [_pearly=False]) *)
  Inductive avg : Type :=
  | ASma | AEwma (adjust : bool) | AEma (sd : seed) | ASmma (sd : seed) | AWma
  | ADema (a : avg) | ATema (a : avg) | ATrima | ATrix (a : avg)
  | AGdema (a : avg) (vfactor : V) | AT3 (vfactor : V) | AT3gd (a : avg) (vfactor : V)
  | AKama (pvol : nat) (fast slow : V) (sd : seed)
  | ASum | AMax | AMin | AMaxindex | AMinindex
  | AVar (ddof : nat) | AStddev (ddof : nat) | AMad
  | ASlope | AAngle | AIntercept (talib : bool) | ALinearreg | ATsf
  | AMidpoint | AMom | ARoc | ARocp | ARocr | ARocr100
  | ASmacc (sd : seed).

  (** the function [_ma(line, period=p)] each of them stands for *)
  Fixpoint avg_fun (a : avg) : ma_fun V :=
    match a with
    | ASma => sma_
    | AEwma adjust => fun p i0 => Ok (ewma p adjust i0)
    | AEma sd => fun p i0 => ema_full p sd 0 i0
    | ASmma sd => fun p i0 => smma_seed p sd i0
    | AWma => fun p i0 => Ok (wma p i0)
    | ADema a => dema (avg_fun a)
    | ATema a => tema (avg_fun a)
    | ATrima => fun p i0 => Ok (trima p i0)
    | ATrix a => trix (avg_fun a)
    | AGdema a vf => fun p i0 => gdema (avg_fun a) p vf i0
    | AT3 vf => fun p i0 => t3 p vf i0
    | AT3gd a vf => fun p i0 => t3_gd (avg_fun a) p vf i0
    | AKama pvol fast slow sd => fun p i0 => kama p pvol fast slow sd i0
    | ASum => fun p i0 => Ok (sumn p i0)
    | AMax => fun p i0 => Ok (max_ind p i0)
    | AMin => fun p i0 => Ok (min_ind p i0)
    | AMaxindex => fun p i0 => Ok (maxindex p i0)
    | AMinindex => fun p i0 => Ok (minindex p i0)
    | AVar ddof => fun p i0 => Ok (var p ddof i0)
    | AStddev ddof => fun p i0 => Ok (stddev p ddof i0)
    | AMad => fun p i0 => Ok (mad p sma_ i0)
    | ASlope => fun p i0 => Ok (linearreg_slope p i0)
    | AAngle => fun p i0 => Ok (linearreg_angle p i0)
    | AIntercept talib => fun p i0 => Ok (linearreg_intercept talib p i0)
    | ALinearreg => fun p i0 => Ok (linearreg p i0)
    | ATsf => fun p i0 => Ok (tsf p i0)
    | AMidpoint => fun p i0 => Ok (midpoint p i0)
    | AMom => fun p i0 => Ok (mom p i0)
    | ARoc => fun p i0 => Ok (roc p i0)
    | ARocp => fun p i0 => Ok (rocp p i0)
    | ARocr => fun p i0 => Ok (rocr p i0)
    | ARocr100 => fun p i0 => Ok (rocr100 p i0)
    | ASmacc sd => fun p i0 => smacc p false sd i0
    end.

  (** One indicator with its parameters; the inputs come separately.  The models cite the
      files and lines of each. *)
  Inductive ind : Type :=
  | XExpr (e : expr V)                               (* operators written by hand *)
  | XAvg (a : avg) (p : nat)                         (* any of the averages above *)
  (* price.py *)
  | XAvgprice (divisor : V) | XTypprice (divisor : V) | XWclprice (weight divisor : V)
  | XMedprice (divisor : V)
  (* math.py, mathop.py *)
  | XMathrad (f : V -> V) (degrees : bool) | XMath (f : V -> V) | XSqrt
  | XAdd | XDiv | XMult | XSub
  | XMinmax (p : nat) | XMaxindexAbs (p : nat) | XMinindexAbs (p : nat)
  | XMinmaxindex (p : nat) (absidx : bool)
  | XMidprice (p : nat)
  (* macd.py, ppo.py, crossover.py *)
  | XMacd (ma masig : avg) (pfast pslow psignal : nat)
  | XMacdTalib (pfast pslow psignal : nat)
  | XApo (ma : avg) (pfast pslow : nat)
  | XPpo (ma masig : avg) (pfast pslow psignal : nat)
  | XPpofast (ma masig : avg) (pfast pslow psignal : nat)
  | XCrossup (strict : bool) | XCrossdown (strict : bool) | XCrossover (strict : bool)
  (* bbands.py, cci.py, correl.py, beta.py *)
  | XBbands (p : nat) (devs : V) (ma stdev : avg)
  | XCci (p : nat) (factor : V) (ma dev : avg)
  | XCorrel (p : nat) (prets : nat) (rets : bool) | XBeta (p : nat) (prets : nat) (rets : bool)
  (* atr.py, directionalmove.py *)
  | XTruehigh (lookback : nat) | XTruelow (lookback : nat) | XTruerange (lookback : nat)
  | XAtr (ma : avg) (p lookback : nat) | XNatr (ma : avg) (p lookback : nat)
  | XPlusDm (alt pearly : bool) (ma : avg) (p lookback : nat)
  | XMinusDm (alt pearly : bool) (ma : avg) (p lookback : nat)
  | XDm (alt pearly : bool) (ma : avg) (p lookback : nat)
  | XPlusDi (alt pearly : bool) (ma : avg) (p lookback : nat)
  | XMinusDi (alt pearly : bool) (ma : avg) (p lookback : nat)
  | XDi (alt pearly : bool) (ma : avg) (p lookback : nat)
  | XDx (alt pearly : bool) (ma : avg) (p lookback : nat)
  | XAdx (alt pearly : bool) (ma : avg) (p lookback : nat)
  | XAdxr (talib : bool) (prating : nat) (alt pearly : bool) (ma : avg) (p lookback : nat)
  (* rsi.py, cmo.py, mfi.py, stochastic.py, stochrsi.py, williamsr.py, aroon.py,
     ultimateoscillator.py, bop.py *)
  | XRsi (ma : avg) (p lookback : nat) | XCmo (sm : avg) (p : nat) | XMfi (p : nat)
  | XStochf (ma : avg) (p pfast : nat) | XStochastic (ma maslow : avg) (p pfast pslow : nat)
  | XWilliamsr (p : nat) | XAroon (p : nat) | XAroonosc (p : nat)
  | XUltosc (p1 p2 p3 : nat) (f1 f2 f3 : V) | XBop
  | XStochrsi (p philo : nat) (scale : V)
  | XStochrsiTalib (p philo : nat) (scale : V) (ma : avg) (pfast : nat)
  (* ad.py, obv.py *)
  | XAd | XAdosc (ma : avg) (pfast pslow : nat) | XObv (talib : bool) (period : nat)
  (* sar.py, sarext.py *)
  | XSar (af afmax : V) | XSarext (startval : V) (P : @sarpar V)
  (* ht_*.py, mama.py *)
  | XHtDcperiod | XHtPhasor | XMama (fastlimit slowlimit : V)
  | XHtDcphase | XHtSine | XHtTrendline | XHtTrendmode.

  (** an indicator called with the wrong number of lines; the resolution of inputs is
      modelled in Inputs.v.  Simplified: every other number of lines is refused. *)
  Definition in1 {A} (ins : list line) (f : line -> res A) : res A :=
    match ins with [a] => f a | _ => Raise InputsError end.
  Definition in2 {A} (ins : list line) (f : line -> line -> res A) : res A :=
    match ins with [a; b] => f a b | _ => Raise InputsError end.
  Definition in3 {A} (ins : list line) (f : line -> line -> line -> res A) : res A :=
    match ins with [a; b; c] => f a b c | _ => Raise InputsError end.
  Definition in4 {A} (ins : list line) (f : line -> line -> line -> line -> res A) : res A :=
    match ins with [a; b; c; d] => f a b c d | _ => Raise InputsError end.
  (** one line or the two lines high and low (the alternative inputs of the Hilbert
      transform indicators, ht_dcperiod.py 44-51) *)
  Definition inht {A} (ins : list line) (f : ht_in V -> res A) : res A :=
    match ins with
    | [a] => f (HLine a)
    | [h; l] => f (HHighLow h l)
    | _ => Raise InputsError
    end.

  (** results as lists of output lines *)
  Definition o1 (r : res line) : res (list line) := a <- r ;; Ok [a].
  Definition o2 (r : res (line * line)) : res (list line) := p <- r ;; Ok [fst p; snd p].
  Definition o3 (r : res (line * line * line)) : res (list line) :=
    p <- r ;; Ok [fst (fst p); snd (fst p); snd p].

  (** the indicator [x] calculated on the lines [ins] *)
  Definition run (x : ind) (ins : list line) : res (list line) :=
    match x with
    | XExpr e => o1 (eval ins e)
    | XAvg a p => in1 ins (fun i0 => o1 (avg_fun a p i0))
    | XAvgprice d => in4 ins (fun o h l c => Ok [avgprice d o h l c])
    | XTypprice d => in3 ins (fun h l c => Ok [typprice d h l c])
    | XWclprice w d => in3 ins (fun h l c => Ok [wclprice w d h l c])
    | XMedprice d => in2 ins (fun h l => Ok [medprice d h l])
    | XMathrad f deg => in1 ins (fun i0 => Ok [mathrad f deg i0])
    | XMath f => in1 ins (fun i0 => Ok [mathapply f i0])
    | XSqrt => in1 ins (fun i0 => Ok [sqrt_ind i0])
    | XAdd => in2 ins (fun a b => Ok [add_ind a b])
    | XDiv => in2 ins (fun a b => Ok [div_ind a b])
    | XMult => in2 ins (fun a b => Ok [mult_ind a b])
    | XSub => in2 ins (fun a b => Ok [sub_ind a b])
    | XMinmax p => in1 ins (fun i0 => o2 (Ok (minmax p i0)))
    | XMaxindexAbs p => in1 ins (fun i0 => Ok [maxindex_abs p i0])
    | XMinindexAbs p => in1 ins (fun i0 => Ok [minindex_abs p i0])
    | XMinmaxindex p ab => in1 ins (fun i0 => o2 (Ok (minmaxindex p ab i0)))
    | XMidprice p => in2 ins (fun h l => Ok [midprice p h l])
    | XMacd ma masig pf ps psig =>
        in1 ins (fun i0 => o3 (macd (avg_fun ma) (avg_fun masig) pf ps psig i0))
    | XMacdTalib pf ps psig => in1 ins (fun i0 => o3 (macd_talib pf ps psig i0))
    | XApo ma pf ps => in1 ins (fun i0 => o1 (apo (avg_fun ma) pf ps i0))
    | XPpo ma masig pf ps psig =>
        in1 ins (fun i0 => o3 (ppo (avg_fun ma) (avg_fun masig) pf ps psig i0))
    | XPpofast ma masig pf ps psig =>
        in1 ins (fun i0 => o3 (ppofast (avg_fun ma) (avg_fun masig) pf ps psig i0))
    | XCrossup s => in2 ins (fun a b => Ok [crossup s a b])
    | XCrossdown s => in2 ins (fun a b => Ok [crossdown s a b])
    | XCrossover s => in2 ins (fun a b => o1 (crossover s a b))
    | XBbands p devs ma stdev =>
        in1 ins (fun i0 => o3 (bbands p devs (avg_fun ma) (avg_fun stdev) i0))
    | XCci p factor ma dev =>
        in3 ins (fun h l c => o1 (cci p factor (avg_fun ma) (avg_fun dev) h l c))
    | XCorrel p prets rets => in2 ins (fun a b => Ok [correl p (Z.of_nat prets) rets a b])
    | XBeta p prets rets => in2 ins (fun a b => Ok [beta p (Z.of_nat prets) rets a b])
    | XTruehigh lb => in2 ins (fun h c => o1 (truehigh lb h c))
    | XTruelow lb => in2 ins (fun l c => Ok [truelow lb l c])
    | XTruerange lb => in3 ins (fun h l c => Ok [truerange lb h l c])
    | XAtr ma p lb => in3 ins (fun h l c => o1 (atr (avg_fun ma) p lb h l c))
    | XNatr ma p lb => in3 ins (fun h l c => o1 (natr (avg_fun ma) p lb h l c))
    | XPlusDm alt pe ma p lb =>
        in2 ins (fun h l => o1 (plus_dm (dm_smoother alt pe (avg_fun ma) p) lb h l))
    | XMinusDm alt pe ma p lb =>
        in2 ins (fun h l => o1 (minus_dm (dm_smoother alt pe (avg_fun ma) p) lb h l))
    | XDm alt pe ma p lb =>
        in2 ins (fun h l => o2 (dm (dm_smoother alt pe (avg_fun ma) p) lb h l))
    | XPlusDi alt pe ma p lb =>
        in3 ins (fun h l c => o1 (plus_di (dm_smoother alt pe (avg_fun ma) p) lb h l c))
    | XMinusDi alt pe ma p lb =>
        in3 ins (fun h l c => o1 (minus_di (dm_smoother alt pe (avg_fun ma) p) lb h l c))
    | XDi alt pe ma p lb =>
        in3 ins (fun h l c => o2 (di (dm_smoother alt pe (avg_fun ma) p) lb h l c))
    | XDx alt pe ma p lb =>
        in3 ins (fun h l c => o1 (dx (dm_smoother alt pe (avg_fun ma) p) lb h l c))
    | XAdx alt pe ma p lb =>
        in3 ins (fun h l c => o1 (adx (avg_fun ma) p (dm_smoother alt pe (avg_fun ma) p) lb h l c))
    | XAdxr talib pr alt pe ma p lb =>
        in3 ins (fun h l c =>
          o1 (adxr talib pr (avg_fun ma) p (dm_smoother alt pe (avg_fun ma) p) lb h l c))
    | XRsi ma p lb => in1 ins (fun i0 => o1 (rsi (avg_fun ma) p lb i0))
    | XCmo sm p => in1 ins (fun i0 => o1 (cmo (avg_fun sm) p i0))
    | XMfi p => in4 ins (fun h l c v => Ok [mfi p h l c v])
    | XStochf ma p pf => in3 ins (fun h l c => o2 (stochf (avg_fun ma) p pf h l c))
    | XStochastic ma mas p pf ps =>
        in3 ins (fun h l c => o2 (stochastic (avg_fun ma) (avg_fun mas) p pf ps h l c))
    | XWilliamsr p => in3 ins (fun h l c => Ok [williamsr p h l c])
    | XAroon p => in2 ins (fun h l => o2 (Ok (aroon p h l)))
    | XAroonosc p => in2 ins (fun h l => Ok [aroonosc p h l])
    | XUltosc p1 p2 p3 f1 f2 f3 => in3 ins (fun h l c => o1 (ultosc p1 p2 p3 f1 f2 f3 h l c))
    | XBop => in4 ins (fun o h l c => Ok [bop o h l c])
    | XStochrsi p ph scale => in1 ins (fun i0 => o1 (stochrsi p ph scale i0))
    | XStochrsiTalib p ph scale ma pf =>
        in1 ins (fun i0 => o2 (stochrsi_talib p ph scale (avg_fun ma) pf i0))
    | XAd => in4 ins (fun h l c v => Ok [ad h l c v])
    | XAdosc ma pf ps => in4 ins (fun h l c v => o1 (adosc (avg_fun ma) pf ps h l c v))
    | XObv talib period => in2 ins (fun c v => Ok [obv talib period c v])
    | XSar af afmax => in2 ins (fun h l => o1 (sar af afmax h l))
    | XSarext sv P => in2 ins (fun h l => o1 (sarext sv P h l))
    | XHtDcperiod => inht ins (fun i => o1 (ht_dcperiod i))
    | XHtPhasor => inht ins (fun i => o2 (ht_phasor i))
    | XMama fl sl => inht ins (fun i => o2 (mama fl sl i))
    | XHtDcphase => inht ins (fun i => o1 (ht_dcphase i))
    | XHtSine => inht ins (fun i => o2 (ht_sine i))
    | XHtTrendline => inht ins (fun i => o1 (ht_trendline i))
    | XHtTrendmode => inht ins (fun i => o1 (ht_trendmode i))
    end.

  (** the lines of the session chosen as inputs, by position *)
  Fixpoint pick (env : list line) (is : list nat) : res (list line) :=
    match is with
    | [] => Ok []
    | i :: is' =>
        match nth_error env i with
        | None => Raise KeyError
        | Some a => r <- pick env is' ;; Ok (a :: r)
        end
    end.

  (** A program of a user: every step calculates an indicator on earlier lines and makes
      its outputs available to the later steps.  The result is the list of all lines. *)
  Definition step : Type := (ind * list nat)%type.
  Fixpoint session (env : list line) (steps : list step) : res (list line) :=
    match steps with
    | [] => Ok env
    | (x, is) :: r =>
        ins <- pick env is ;;
        outs <- run x ins ;;
        session (env ++ outs) r
    end.
End Catalog.
Arguments avg : clear implicits.
Arguments ind : clear implicits.
Arguments step : clear implicits.
