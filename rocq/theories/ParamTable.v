(** The parameters declared by the classes of btalib/indicators, transcribed from the sources in the order of
    [Table.table]; each entry cites the class statement.  SEED_AVG is 0 and SEED_SUM is 2 (utils.py:16-18). *)
From Coq Require Import List String ZArith.
From Verif Require Import Params.
Import ListNotations.
Local Open Scope string_scope.
Local Open Scope list_scope.
Local Open Scope Z_scope.

(** the objects that appear as defaults: indicator classes, by their own name, and floats, as Python shows them.
    (The text of a float is all that matters here; [PObj] counts as true also for 0.0, and the truth of a default is
    never asked for.) *)
Inductive object := OClass (n : string) | OFloat (t : string).
Definition objects : list object :=
  [OFloat "4.0"; OFloat "3.0"; OFloat "2.0"; OFloat "1.0"; OClass "ema"; OClass "sma"; OFloat "0.7";
   OFloat "0.5"; OFloat "0.05"; OClass "stddev"; OClass "smma"; OFloat "0.015"; OClass "mad"; OClass "sum";
   OClass "smacc"; OFloat "0.02"; OFloat "0.2"; OFloat "0.0"].

Record pentry := mkPEntry {
  pe_name : string;                          (* class name *)
  pe_doc : bool;                             (* the class has a docstring *)
  pe_talib : bool;                           (* the class has a method _talib with a docstring (no class has one without) *)
  pe_params : list (string * list pyval)     (* params = ... *)
}.

Definition ptable : list pentry :=
  [
   (* price.py:10 *)
   mkPEntry "avgprice" true false
     [("divisor", [PObj 0; PStr "Factor to use in the division"])];
   (* price.py:33 *)
   mkPEntry "typprice" true false
     [("divisor", [PObj 1; PStr "Factor to use in the division"])];
   (* price.py:55 *)
   mkPEntry "wclprice" true false
     [("weight", [PObj 2; PStr "Weight Factor for close"]);
      ("divisor", [PObj 0; PStr "Factor to use in the division"])];
   (* price.py:80 *)
   mkPEntry "medprice" true false
     [("divisor", [PObj 2; PStr "Factor to use in the division"])];
   (* mathop.py:16 *)
   mkPEntry "add" true false
     [];
   (* mathop.py:32 *)
   mkPEntry "div" true false
     [];
   (* mathop.py:48 *)
   mkPEntry "mult" true false
     [];
   (* mathop.py:64 *)
   mkPEntry "sub" true false
     [];
   (* mathop.py:82 *)
   mkPEntry "max" true false
     [("period", [PInt 30; PStr "Period to consider"])];
   (* mathop.py:100 *)
   mkPEntry "min" true false
     [("period", [PInt 30; PStr "Period to consider"])];
   (* mathop.py:118 *)
   mkPEntry "minmax" true false
     [("period", [PInt 30; PStr "Period to consider"])];
   (* mathop.py:138 *)
   mkPEntry "maxindex" true true
     [("period", [PInt 30; PStr "Period to consider"]);
      ("_absidx", [PBool false; PStr "Return maxindex over the entire period"])];
   (* mathop.py:174 *)
   mkPEntry "minindex" true true
     [("period", [PInt 30; PStr "Period to consider"]);
      ("_absidx", [PBool false; PStr "Return maxindex over the entire period"])];
   (* mathop.py:210 *)
   mkPEntry "minmaxindex" true true
     [("period", [PInt 30; PStr "Period to consider"]);
      ("_absidx", [PBool false; PStr "Return maxindex over the entire period"])];
   (* mathop.py:239 *)
   mkPEntry "sum" true false
     [("period", [PInt 30; PStr "Period to consider"])];
   (* math.py:16 *)
   mkPEntry "_mathrad" false false
     [("degrees", [PBool false; PStr "Input is in degrees, not radians ... convert it!"])];
   (* math.py:28 *)
   mkPEntry "sin" true false
     [];
   (* math.py:44 *)
   mkPEntry "cos" true false
     [];
   (* math.py:60 *)
   mkPEntry "tan" true false
     [];
   (* math.py:78 *)
   mkPEntry "sinh" true false
     [];
   (* math.py:94 *)
   mkPEntry "cosh" true false
     [];
   (* math.py:110 *)
   mkPEntry "tanh" true false
     [];
   (* math.py:128 *)
   mkPEntry "asin" true false
     [];
   (* math.py:145 *)
   mkPEntry "acos" true false
     [];
   (* math.py:162 *)
   mkPEntry "atan" true false
     [];
   (* math.py:181 *)
   mkPEntry "ceil" true false
     [];
   (* math.py:200 *)
   mkPEntry "exp" true false
     [];
   (* math.py:219 *)
   mkPEntry "floor" true false
     [];
   (* math.py:238 *)
   mkPEntry "ln" true false
     [];
   (* math.py:257 *)
   mkPEntry "log10" true false
     [];
   (* math.py:276 *)
   mkPEntry "sqrt" true false
     [];
   (* crossover.py:10 *)
   mkPEntry "_crossbase" true false
     [("_strict", [PBool false; PStr "If `True`, Consider cross only with two consecutive bars. Else the default method will take into account that a cross up/down can happen along several bars with the extremes being above/below and below/above respectively, and the middle bars having a zero difference between the crosser and crossed inputs"])];
   (* crossover.py:43 *)
   mkPEntry "crossup" true false
     [];
   (* crossover.py:64 *)
   mkPEntry "crossdown" true false
     [];
   (* crossover.py:85 *)
   mkPEntry "crossover" true false
     [];
   (* ewma.py:11 *)
   mkPEntry "ewma" true false
     [("period", [PInt 30; PStr "Default Period for the ewm calculation"]);
      ("adjust", [PBool false; PStr "Default calc individual terms like in `ema`"]);
      ("_seed", [PInt 0; PStr "(nop) for compatibility with `ema`"])];
   (* sma.py:10 *)
   mkPEntry "sma" true false
     [("period", [PInt 30; PStr "Period for the moving average calculation"])];
   (* ema.py:15 *)
   mkPEntry "ema" true false
     [("period", [PInt 30; PStr "Period for the moving average calculation"]);
      ("_seed", [PInt 0; PStr "Default to use average of periods as seed"])];
   (* smma.py:10 *)
   mkPEntry "smma" true false
     [("period", [PInt 30; PStr "Period for the moving average calculation"]);
      ("_seed", [PInt 0; PStr "Default to use average of periods as seed"])];
   (* wma.py:12 *)
   mkPEntry "wma" true false
     [("period", [PInt 30; PStr "Period for the moving average calculation"]); ("coef", [PObj 3])];
   (* dema.py:10 *)
   mkPEntry "dema" true false
     [("period", [PInt 30; PStr "Period to consider"]); ("_ma", [PObj 4; PStr "Moving Average to use"])];
   (* kama.py:11 *)
   mkPEntry "kama" true true
     [("period", [PInt 30; PStr "Period to consider"]); ("fast", [PInt 2; PStr "Fast exponential smoothing factor"]);
      ("slow", [PInt 30; PStr "Slow exponential smoothing factor"]);
      ("_seed", [PInt 0; PStr "Default to use average of n periods as seed"]);
      ("_pvol", [PInt 1; PStr "Lookback period for volatility calculation"])];
   (* tema.py:10 *)
   mkPEntry "tema" true false
     [("period", [PInt 30; PStr "Period to consider"]); ("_ma", [PObj 4; PStr "Moving Average to use"])];
   (* trima.py:10 *)
   mkPEntry "trima" true false
     [("period", [PInt 30; PStr "Period for the moving average calculation"]);
      ("_ma", [PObj 5; PStr "Moving average to use"])];
   (* trix.py:10 *)
   mkPEntry "trix" true false
     [("period", [PInt 30; PStr "Period to consider"]); ("_ma", [PObj 4; PStr "Moving average to use"])];
   (* t3.py:10 *)
   mkPEntry "gdema" true false
     [("period", [PInt 5; PStr "Period to consider"]); ("vfactor", [PObj 6; PStr "volume factor"]);
      ("_ma", [PObj 4; PStr "Moving Average to use"])];
   (* t3.py:37 *)
   mkPEntry "t3" true false
     [("period", [PInt 5; PStr "Period to consider"]); ("vfactor", [PObj 6; PStr "Volume factor"]);
      ("_ma", [PObj 4; PStr "Moving Average to use"]);
      ("_gd", [PBool false; PStr "`True` use articl triple gd filter math formulation"])];
   (* mavp.py:19 *)
   mkPEntry "mavp" true false
     [("minperiod", [PInt 2; PStr "Minimum allowed period for the moving averages"]);
      ("maxperiod", [PInt 30; PStr "Maximum allowed period for the moving averages"]);
      ("_ma", [PObj 5; PStr "Moving Average to use"])];
   (* mama.py:17 *)
   mkPEntry "mama" true false
     [("fastlimit", [PObj 7; PStr "Fast Limit"]); ("slowlimit", [PObj 8; PStr "Fast Limit"])];
   (* ht_trendline.py:17 *)
   mkPEntry "ht_trendline" true false
     [];
   (* midpoint.py:10 *)
   mkPEntry "midprice" true false
     [("period", [PInt 14; PStr "Period to consider"])];
   (* midpoint.py:34 *)
   mkPEntry "midpoint" true false
     [("period", [PInt 14; PStr "Period to consider"])];
   (* ht_dcperiod.py:17 *)
   mkPEntry "ht_dcperiod" true false
     [];
   (* ht_dcphase.py:18 *)
   mkPEntry "ht_dcphase" true false
     [];
   (* ht_phasor.py:17 *)
   mkPEntry "ht_phasor" true false
     [];
   (* ht_sine.py:19 *)
   mkPEntry "ht_sine" true false
     [];
   (* ht_trendmode.py:19 *)
   mkPEntry "ht_trendmode" true false
     [];
   (* beta.py:10 *)
   mkPEntry "beta" true false
     [("period", [PInt 5; PStr "Period to consider"]);
      ("_prets", [PInt 1; PStr "Lookback period to calculate the returns"]);
      ("_rets", [PBool true; PStr "Calculate beta on returns"])];
   (* correl.py:10 *)
   mkPEntry "correl" true false
     [("period", [PInt 30; PStr "Period to consider"]);
      ("_prets", [PInt 1; PStr "Lookback period to calculate the returns"]);
      ("_rets", [PBool true; PStr "Calculate beta on returns"])];
   (* linreg.py:41 *)
   mkPEntry "_linreg_base" true false
     [("period", [PInt 14; PStr "Period to consider"])];
   (* linreg.py:81 *)
   mkPEntry "linearreg_slope" true false
     [];
   (* linreg.py:103 *)
   mkPEntry "linearreg_angle" true false
     [];
   (* linreg.py:125 *)
   mkPEntry "linearreg_intercept" true true
     [];
   (* linreg.py:169 *)
   mkPEntry "linearreg" true true
     [];
   (* linreg.py:214 *)
   mkPEntry "tsf" true true
     [];
   (* madev.py:12 *)
   mkPEntry "mad" true false
     [("period", [PInt 20; PStr "Period to consider"]); ("_ma", [PObj 5; PStr "Moving Average to use"])];
   (* stddev.py:10 *)
   mkPEntry "stddev" true true
     [("period", [PInt 20; PStr "Period to consider"]);
      ("ddof", [PInt 0; PStr "Degree of Freedom: 0 = population, > 0 sample"])];
   (* stddev.py:35 *)
   mkPEntry "stddev_s" true false
     [("ddof", [PInt 1; PStr "Degree of Freedom: 0 = population, > 0 sample"])];
   (* var.py:10 *)
   mkPEntry "var" true false
     [("period", [PInt 5; PStr "Period to consider"]);
      ("ddof", [PInt 0; PStr "Degree of Freedom: 0 = population, > 0 sample"])];
   (* var.py:31 *)
   mkPEntry "var_s" true false
     [("ddof", [PInt 1; PStr "Degree of Freedom: 0 = population, > 0 sample"])];
   (* bbands.py:10 *)
   mkPEntry "bbands" true true
     [("period", [PInt 20; PStr "Period to consider"]);
      ("devs", [PObj 2; PStr "Standard Deviations of Top/Bottom Bands"]);
      ("_ma", [PObj 5; PStr "Moving average to use"]);
      ("_stdev", [PObj 9; PStr "Standard Deviation Calculation to use"])];
   (* atr.py:10 *)
   mkPEntry "truehigh" true false
     [("_period", [PInt 1; PStr "Period to consider"])];
   (* atr.py:36 *)
   mkPEntry "truelow" true false
     [("_period", [PInt 1; PStr "Period to consider"])];
   (* atr.py:62 *)
   mkPEntry "truerange" true false
     [("_period", [PInt 1; PStr "Period for high/low vs close for truerange calc"])];
   (* atr.py:95 *)
   mkPEntry "atr" true false
     [("period", [PInt 14; PStr "Period to consider"]); ("_ma", [PObj 10; PStr "Moving average to use"])];
   (* atr.py:122 *)
   mkPEntry "natr" true false
     [];
   (* aroon.py:20 *)
   mkPEntry "_aroon" true false
     [("period", [PInt 14; PStr "Period to consider"])];
   (* aroon.py:42 *)
   mkPEntry "aroon" true false
     [];
   (* aroon.py:73 *)
   mkPEntry "aroonosc" true false
     [];
   (* bop.py:10 *)
   mkPEntry "bop" true false
     [];
   (* cci.py:10 *)
   mkPEntry "cci" true true
     [("period", [PInt 20; PStr "Period to consider"]); ("factor", [PObj 11; PStr "Channel width factor"]);
      ("_ma", [PObj 5; PStr "Moving Average to sue"]);
      ("_dev", [PObj 12; PStr "Deviation to use (Def: Mean Abs Dev)"])];
   (* cmo.py:10 *)
   mkPEntry "cmo" true true
     [("period", [PInt 14; PStr "Period to consider"]);
      ("_sum", [PObj 13; PStr "Summation used to accumulate updays/downdays"])];
   (* directionalmove.py:10 *)
   mkPEntry "smacc" true true
     [("period", [PInt 14; PStr "Period to consider"]);
      ("_pearly", [PBool false; PStr "`False`: use period - 1 as seed, keeping period"]);
      ("_seed", [PInt 2; PStr "Default to use sum of period vals as seed"])];
   (* directionalmove.py:59 *)
   mkPEntry "_dm" true true
     [("period", [PInt 14; PStr "Period to consider"]);
      ("_period", [PInt 1; PStr "Lookback period for upmove/downmove calculations"]);
      ("_pearly", [PBool false; PStr "If `False` use period - 1 as seed"]);
      ("_alt", [PBool false; PStr "Use the SMMA instead of Smoothed Accmulation"]);
      ("_accum", [PObj 14; PStr "Accumulation to use if not in `_alt`` mode"]);
      ("_ma", [PObj 10; PStr "Moving Average to use in `_alt` mode"])];
   (* directionalmove.py:109 *)
   mkPEntry "plus_dm" true false
     [];
   (* directionalmove.py:142 *)
   mkPEntry "minus_dm" true false
     [];
   (* directionalmove.py:176 *)
   mkPEntry "dm" true false
     [];
   (* directionalmove.py:231 *)
   mkPEntry "_di" true true
     [];
   (* directionalmove.py:267 *)
   mkPEntry "plus_di" true false
     [];
   (* directionalmove.py:299 *)
   mkPEntry "minus_di" true false
     [];
   (* directionalmove.py:331 *)
   mkPEntry "di" true false
     [];
   (* directionalmove.py:367 *)
   mkPEntry "dx" true false
     [];
   (* directionalmove.py:403 *)
   mkPEntry "adx" true false
     [];
   (* directionalmove.py:440 *)
   mkPEntry "adxr" true true
     [("_prating", [PNone; PStr "Use as rating period instead of default period"])];
   (* macd.py:10 *)
   mkPEntry "macd" true true
     [("pfast", [PInt 12; PStr "Fast moving average period"]);
      ("pslow", [PInt 26; PStr "Slow moving average period"]); ("psignal", [PInt 9; PStr "Signal smoothing period"]);
      ("_ma", [PObj 4; PStr "Moving average to use"]);
      ("_masig", [PNone; PStr "Signal moving average (if `None`, same as others)"])];
   (* mfi.py:10 *)
   mkPEntry "mfi" true false
     [("period", [PInt 14; PStr "Period to consider"])];
   (* mom.py:10 *)
   mkPEntry "mom" true false
     [("period", [PInt 10; PStr "Period to consider"])];
   (* ppo.py:10 *)
   mkPEntry "_posc" true true
     [("pfast", [PInt 12; PStr "Fast moving average period"]);
      ("pslow", [PInt 26; PStr "Slow moving average period"]); ("_ma", [PObj 4; PStr "Moving average to use"])];
   (* ppo.py:32 *)
   mkPEntry "apo" true false
     [];
   (* ppo.py:52 *)
   mkPEntry "ppo" true false
     [("psignal", [PInt 9; PStr "Signal smoothing period"]);
      ("_masig", [PNone; PStr "Signal moving average (if `None`, same as others)"])];
   (* ppo.py:83 *)
   mkPEntry "ppofast" true false
     [("psignal", [PInt 9; PStr "Signal smoothing period"]);
      ("_masig", [PNone; PStr "Signal moving average (if `None`, same as others)"])];
   (* roc.py:10 *)
   mkPEntry "_rocbase" false true
     [("period", [PInt 12; PStr "Period to consider"])];
   (* roc.py:25 *)
   mkPEntry "roc" true false
     [];
   (* roc.py:44 *)
   mkPEntry "rocp" true false
     [];
   (* roc.py:63 *)
   mkPEntry "rocr" true false
     [];
   (* roc.py:79 *)
   mkPEntry "rocr100" true false
     [];
   (* rsi.py:10 *)
   mkPEntry "rsi" true false
     [("period", [PInt 14; PStr "Period to consider"]); ("lookback", [PInt 1; PStr "Lookback for up/down days"]);
      ("_ma", [PObj 10; PStr "Smoothing moving average"])];
   (* sar.py:12 *)
   mkPEntry "sar" true false
     [("af", [PObj 15; PStr "Acceleration Factor"]); ("afmax", [PObj 16; PStr "Maximum Acceleration Factor"])];
   (* sarext.py:12 *)
   mkPEntry "sarext" true false
     [("startval", [PInt 0; PStr "Start trend (0 auto, 1 long, -1 short)"]);
      ("aflong", [PObj 15; PStr "Acceleration Factor (Long)"]);
      ("afmaxlong", [PObj 16; PStr "Maximum Acceleration Factor (Long)"]);
      ("afshort", [PObj 15; PStr "Acceleration Factor (Long)"]);
      ("afmaxshort", [PObj 16; PStr "Maximum Acceleration Factor (Long)"]);
      ("offsetonreverse", [PObj 17; PStr "Offset to apply when reversing position"])];
   (* stochastic.py:10 *)
   mkPEntry "stochf" true true
     [("period", [PInt 14; PStr "Period to consider"]); ("pfast", [PInt 3; PStr "Fast smoothing period"]);
      ("_ma", [PObj 5; PStr "Moving average to use"])];
   (* stochastic.py:52 *)
   mkPEntry "stochastic" true false
     [("pslow", [PInt 3; PStr "Slow moving average period"]);
      ("_maslow", [PNone; PStr "Slow moving average (if `None`, use same as fast)"])];
   (* stochrsi.py:10 *)
   mkPEntry "stochrsi" true true
     [("period", [PInt 14; PStr "Period to consider"]);
      ("_philo", [PNone; PStr "Period for highest/lowest (None => period)"]);
      ("_scale", [PObj 3; PStr "Scale the result by this factor"])];
   (* williamsr.py:10 *)
   mkPEntry "williamsr" true false
     [("period", [PInt 14; PStr "Period to consider"])];
   (* ultimateoscillator.py:10 *)
   mkPEntry "ultimateoscillator" true false
     [("period1", [PInt 7; PStr "Faster oscillating period"]);
      ("period2", [PInt 14; PStr "Medium oscillating period"]);
      ("period3", [PInt 28; PStr "Slower oscillating period"]);
      ("factor1", [PObj 0; PStr "Factor weight for the faster oscillation"]);
      ("factor2", [PObj 2; PStr "Factor weight for the medium oscillation"]);
      ("factor3", [PObj 3; PStr "Factor weight for the slower oscillation"])];
   (* ad.py:10 *)
   mkPEntry "ad" true false
     [];
   (* ad.py:40 *)
   mkPEntry "adosc" true true
     [("pfast", [PInt 3; PStr "Fast ema period"]); ("pslow", [PInt 10; PStr "Slow ema period"]);
      ("_ma", [PObj 4; PStr "Moving average to use"])];
   (* obv.py:12 *)
   mkPEntry "obv" true true
     [("_period", [PInt 1; PStr "Period for `close` comparison"])]
  ].
