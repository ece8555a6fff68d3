(** The class table of btalib/indicators, transcribed from the sources in the import order of
    indicators/__init__.py:14-90; each entry cites the class statement.  [_extend] of the outputs is never used. *)
From Coq Require Import List String.
From Verif Require Import Py LinesGen.
Import ListNotations.
Local Open Scope string_scope.
Local Open Scope list_scope.

Record entry := mkEntry {
  e_module : string;          (* module below btalib.indicators *)
  e_name : string;            (* class name *)
  e_base : string;            (* its only base class *)
  e_inputs : list ldef;       (* inputs = ... (empty: not declared) *)
  e_inext : lext;             (* inputs_extend = ... *)
  e_outputs : list ldef;      (* outputs = ... *)
  e_alias : list string;      (* alias = ... *)
  e_group : list string;      (* group = ... (empty: not declared) *)
  e_allow : nat               (* allowinputs = ... (0: not declared) *)
}.

Definition table : list entry :=
  [
   (* price.py:10 *)
   mkEntry "price" "avgprice" "Indicator" [LName "open"; LName "high"; LName "low"; LName "close"] (ExtTuple []) [LName "avg"]
     ["AvgPrice"; "AveragePrice"; "AVGPrice"; "AVGPRICE"] ["price"] 0;
   (* price.py:33 *)
   mkEntry "price" "typprice" "Indicator" [LName "high"; LName "low"; LName "close"] (ExtTuple []) [LName "tp"]
     ["typicalprice"; "TypicalPrice"; "TypPrice"; "TYPPRICE"] ["price"] 0;
   (* price.py:55 *)
   mkEntry "price" "wclprice" "Indicator" [LName "high"; LName "low"; LName "close"] (ExtTuple []) [LName "wcl"]
     ["WCLPrice"; "WeightedClosePrice"; "WCLPRICE"; "weightedcloseprice"] ["price"] 0;
   (* price.py:80 *)
   mkEntry "price" "medprice" "Indicator" [LName "high"; LName "low"] (ExtTuple []) [LName "med"]
     ["WCLPrice"; "WeightedClosePrice"; "WCLPRICE"; "weightedcloseprice"] ["price"] 0;
   (* mathop.py:16 *)
   mkEntry "mathop" "add" "Indicator" [LName "input1"; LName "input2"] (ExtTuple []) [LName "add"]
     ["ADD"] ["mathop"] 0;
   (* mathop.py:32 *)
   mkEntry "mathop" "div" "Indicator" [LName "input1"; LName "input2"] (ExtTuple []) [LName "div"]
     ["DIV"] ["mathop"] 0;
   (* mathop.py:48 *)
   mkEntry "mathop" "mult" "Indicator" [LName "input1"; LName "input2"] (ExtTuple []) [LName "mult"]
     ["MULT"] ["mathop"] 0;
   (* mathop.py:64 *)
   mkEntry "mathop" "sub" "Indicator" [LName "input1"; LName "input2"] (ExtTuple []) [LName "sub"]
     ["SUB"] ["mathop"] 0;
   (* mathop.py:82 *)
   mkEntry "mathop" "max" "Indicator" [] (ExtTuple []) [LName "max"]
     ["highest"; "Highest"; "maxn"; "MaxN"; "MAX"] ["mathop"] 0;
   (* mathop.py:100 *)
   mkEntry "mathop" "min" "Indicator" [] (ExtTuple []) [LName "min"]
     ["lowest"; "Lowest"; "minn"; "MinN"; "MIN"] ["mathop"] 0;
   (* mathop.py:118 *)
   mkEntry "mathop" "minmax" "Indicator" [] (ExtTuple []) [LName "min"; LName "max"]
     ["MINMAX"] ["mathop"] 0;
   (* mathop.py:138 *)
   mkEntry "mathop" "maxindex" "Indicator" [] (ExtTuple []) [LName "maxindex"]
     ["MAXINDEX"] ["mathop"] 0;
   (* mathop.py:174 *)
   mkEntry "mathop" "minindex" "Indicator" [] (ExtTuple []) [LName "minindex"]
     ["MININDEX"] ["mathop"] 0;
   (* mathop.py:210 *)
   mkEntry "mathop" "minmaxindex" "Indicator" [] (ExtTuple []) [LName "minindex"; LName "maxindex"]
     ["MINMAXINDEX"] ["mathop"] 0;
   (* mathop.py:239 *)
   mkEntry "mathop" "sum" "Indicator" [] (ExtTuple []) [LName "sum"]
     ["sumn"; "Sum"; "SumN"; "SUM"] ["mathop"] 0;
   (* math.py:16 *)
   mkEntry "math" "_mathrad" "Indicator" [] (ExtTuple []) []
     [] ["math"] 0;
   (* math.py:28 *)
   mkEntry "math" "sin" "_mathrad" [] (ExtTuple []) [LName "sin"]
     ["SIN"; "sine"] [] 0;
   (* math.py:44 *)
   mkEntry "math" "cos" "_mathrad" [] (ExtTuple []) [LName "cos"]
     ["COS"; "cosine"] [] 0;
   (* math.py:60 *)
   mkEntry "math" "tan" "_mathrad" [] (ExtTuple []) [LName "tan"]
     ["TAN"; "tangent"] [] 0;
   (* math.py:78 *)
   mkEntry "math" "sinh" "_mathrad" [] (ExtTuple []) [LName "sinh"]
     ["SINH"; "cosecant"] [] 0;
   (* math.py:94 *)
   mkEntry "math" "cosh" "_mathrad" [] (ExtTuple []) [LName "cosh"]
     ["COSH"; "secant"] [] 0;
   (* math.py:110 *)
   mkEntry "math" "tanh" "_mathrad" [] (ExtTuple []) [LName "tanh"]
     ["TANH"; "cotangent"] [] 0;
   (* math.py:128 *)
   mkEntry "math" "asin" "_mathrad" [] (ExtTuple []) [LName "asin"]
     ["ASIN"; "arcsin"; "arcsine"] [] 0;
   (* math.py:145 *)
   mkEntry "math" "acos" "_mathrad" [] (ExtTuple []) [LName "acos"]
     ["ACOS"; "arccos"; "arccosine"] [] 0;
   (* math.py:162 *)
   mkEntry "math" "atan" "_mathrad" [] (ExtTuple []) [LName "atan"]
     ["ATAN"; "arctan"; "arctangent"] [] 0;
   (* math.py:181 *)
   mkEntry "math" "ceil" "Indicator" [] (ExtTuple []) [LName "ceil"]
     ["CEIL"] ["math"] 0;
   (* math.py:200 *)
   mkEntry "math" "exp" "Indicator" [] (ExtTuple []) [LName "exp"]
     ["EXP"] ["math"] 0;
   (* math.py:219 *)
   mkEntry "math" "floor" "Indicator" [] (ExtTuple []) [LName "floor"]
     ["FLOOR"] ["math"] 0;
   (* math.py:238 *)
   mkEntry "math" "ln" "Indicator" [] (ExtTuple []) [LName "ln"]
     ["LN"; "log"; "LOG"] ["math"] 0;
   (* math.py:257 *)
   mkEntry "math" "log10" "Indicator" [] (ExtTuple []) [LName "log10"]
     ["LOG10"] ["math"] 0;
   (* math.py:276 *)
   mkEntry "math" "sqrt" "Indicator" [] (ExtTuple []) [LName "sqrt"]
     ["SQRT"] ["math"] 0;
   (* crossover.py:10 *)
   mkEntry "crossover" "_crossbase" "Indicator" [LName "crosser"; LName "crossed"] (ExtTuple []) []
     [] [] 0;
   (* crossover.py:43 *)
   mkEntry "crossover" "crossup" "_crossbase" [] (ExtTuple []) [LName "crossup"]
     ["CrossUp"] ["utils"] 0;
   (* crossover.py:64 *)
   mkEntry "crossover" "crossdown" "_crossbase" [] (ExtTuple []) [LName "crossdown"]
     ["CrossDown"] ["utils"] 0;
   (* crossover.py:85 *)
   mkEntry "crossover" "crossover" "_crossbase" [] (ExtTuple []) [LName "crossover"]
     ["CrossOver"] ["utils"] 0;
   (* ewma.py:11 *)
   mkEntry "ewma" "ewma" "Indicator" [] (ExtTuple []) [LName "ewma"]
     ["EWMA"] ["overlap"] 0;
   (* sma.py:10 *)
   mkEntry "sma" "sma" "Indicator" [] (ExtTuple []) [LName "sma"]
     ["SMA"; "SimpleMovingAverage"] ["overlap"] 0;
   (* ema.py:15 *)
   mkEntry "ema" "ema" "Indicator" [] (ExtTuple []) [LName "ema"]
     ["EMA"; "ExponentialMovingAverage"] ["overlap"] 0;
   (* smma.py:10 *)
   mkEntry "smma" "smma" "Indicator" [] (ExtTuple []) [LName "smma"]
     ["SMMA"; "SmoothedMovingAverage"; "MMA"; "ModifiedMovingAverage"] ["overlap"] 0;
   (* wma.py:12 *)
   mkEntry "wma" "wma" "Indicator" [] (ExtTuple []) [LName "wma"]
     ["WMA"; "WeightedMovingAverage"] ["overlap"] 0;
   (* dema.py:10 *)
   mkEntry "dema" "dema" "Indicator" [] (ExtTuple []) [LName "dema"]
     ["DEMA"; "DoubleExponentialMovingAverage"] ["overlap"] 0;
   (* kama.py:11 *)
   mkEntry "kama" "kama" "Indicator" [] (ExtTuple []) [LName "kama"]
     ["KAMA"; "KaufmanAdaptiveMovingAverage"] ["overlap"] 0;
   (* tema.py:10 *)
   mkEntry "tema" "tema" "Indicator" [] (ExtTuple []) [LName "tema"]
     ["TEMA"; "TripleExponentialMovingAverage"] ["overlap"] 0;
   (* trima.py:10 *)
   mkEntry "trima" "trima" "Indicator" [] (ExtTuple []) [LName "trima"]
     ["TRIMA"; "TriangularMovingAverage"] ["overlap"] 0;
   (* trix.py:10 *)
   mkEntry "trix" "trix" "Indicator" [] (ExtTuple []) [LName "trix"]
     ["Trix"; "TRIX"] ["momentum"] 0;
   (* t3.py:10 *)
   mkEntry "t3" "gdema" "Indicator" [] (ExtTuple []) [LName "gd"]
     ["gd"; "GD"; "GDEMA"; "GeneralizedDEMA"] ["overlap"] 0;
   (* t3.py:37 *)
   mkEntry "t3" "t3" "Indicator" [] (ExtTuple []) [LName "t3"]
     ["T3"; "TilsonsT3"] ["overlap"] 0;
   (* mavp.py:19 *)
   mkEntry "mavp" "mavp" "Indicator" [LName "close"; LName "periods"] (ExtTuple []) [LName "mavp"]
     ["MAVP"; "MovingAverageVariablePeriod"] ["overlap"] 0;
   (* mama.py:17 *)
   mkEntry "mama" "mama" "Indicator" [LName "high"; LName "low"] (ExtTuple []) [LName "mama"; LName "fama"]
     ["MAMA"; "MesaAdaptiveMovingAverage"] ["overlap"] 1;
   (* ht_trendline.py:17 *)
   mkEntry "ht_trendline" "ht_trendline" "Indicator" [LName "high"; LName "low"] (ExtTuple []) [LName "trendline"]
     ["HT_TRENDLINE"; "HilberTransform_Trendline"] ["overlap"] 1;
   (* midpoint.py:10 *)
   mkEntry "midpoint" "midprice" "Indicator" [LName "high"; LName "low"] (ExtTuple []) [LName "midprice"]
     ["MIDPRICE"; "MidPrice"] ["overlap"] 0;
   (* midpoint.py:34 *)
   mkEntry "midpoint" "midpoint" "Indicator" [] (ExtTuple []) [LName "midpoint"]
     ["MIDPOINT"; "MidPoint"] ["overlap"] 0;
   (* ht_dcperiod.py:17 *)
   mkEntry "ht_dcperiod" "ht_dcperiod" "Indicator" [LName "high"; LName "low"] (ExtTuple []) [LName "dcperiod"]
     ["HT_DCPERIOD"; "HilberTransform_DominantCyclePeriod"] ["cycle"] 1;
   (* ht_dcphase.py:18 *)
   mkEntry "ht_dcphase" "ht_dcphase" "Indicator" [LName "high"; LName "low"] (ExtTuple []) [LName "dcphase"]
     ["HT_DCPHASE"; "HilberTransform_DominantCyclePhase"] ["cycle"] 1;
   (* ht_phasor.py:17 *)
   mkEntry "ht_phasor" "ht_phasor" "Indicator" [LName "high"; LName "low"] (ExtTuple []) [LName "inphase"; LName "quadrature"]
     ["HT_PHASOR"; "HilberTransform_Phasor"] ["cycle"] 1;
   (* ht_sine.py:19 *)
   mkEntry "ht_sine" "ht_sine" "Indicator" [LName "high"; LName "low"] (ExtTuple []) [LName "sine"; LName "leadsine"]
     ["HT_SINE"; "HilberTransform_Sine"] ["cycle"] 1;
   (* ht_trendmode.py:19 *)
   mkEntry "ht_trendmode" "ht_trendmode" "Indicator" [LName "high"; LName "low"] (ExtTuple []) [LName "trendline"]
     ["HT_TRENDMODE"; "HilberTransform_Trendmode"] ["cycle"] 1;
   (* beta.py:10 *)
   mkEntry "beta" "beta" "Indicator" [LName "asset"; LName "market"] (ExtTuple []) [LName "beta"]
     ["BETA"; "Beta"] ["statistic"] 0;
   (* correl.py:10 *)
   mkEntry "correl" "correl" "Indicator" [LName "high"; LName "low"] (ExtTuple []) [LName "correl"]
     ["CORREL"; "Correl"] ["statistic"] 0;
   (* linreg.py:41 *)
   mkEntry "linreg" "_linreg_base" "Indicator" [] (ExtTuple []) []
     [] [] 0;
   (* linreg.py:81 *)
   mkEntry "linreg" "linearreg_slope" "_linreg_base" [] (ExtTuple []) [LName "slope"]
     ["LINEARREG_SLOPE"; "LinearReg_Slope"; "linreg_slope"] ["statistic"] 0;
   (* linreg.py:103 *)
   mkEntry "linreg" "linearreg_angle" "_linreg_base" [] (ExtTuple []) [LName "slope"]
     ["LINEARREG_ANGLE"; "LinearReg_Angle"; "linreg_angle"] ["statistic"] 0;
   (* linreg.py:125 *)
   mkEntry "linreg" "linearreg_intercept" "_linreg_base" [] (ExtTuple []) [LName "intercept"]
     ["LINEARREG_INTERCEPT"; "LinearReg_Intercept"; "linreg_intercept"] ["statistic"] 0;
   (* linreg.py:169 *)
   mkEntry "linreg" "linearreg" "_linreg_base" [] (ExtTuple []) [LName "linreg"]
     ["LINEARREG"; "LinearReg"; "linreg"] ["statistic"] 0;
   (* linreg.py:214 *)
   mkEntry "linreg" "tsf" "_linreg_base" [] (ExtTuple []) [LName "tsf"]
     ["TSF"; "TimeSeriesForecast"] ["statistic"] 0;
   (* madev.py:12 *)
   mkEntry "madev" "mad" "Indicator" [] (ExtTuple []) [LName "meandev"]
     ["MAD"; "meandev"; "MeanDev"; "MeanDeviation"; "MeanAbsDeviation"] ["statistic"] 0;
   (* stddev.py:10 *)
   mkEntry "stddev" "stddev" "Indicator" [] (ExtTuple []) [LName "std"]
     ["StdDev"; "STDDEV"; "StandardDeviation"; "stddev_p"; "STDDEV_P"] ["statistic"] 0;
   (* stddev.py:35 *)
   mkEntry "stddev" "stddev_s" "stddev" [] (ExtTuple []) []
     ["stddev_sample"; "STDDEV_S"; "StandardDeviationSample"] ["statistic"] 0;
   (* var.py:10 *)
   mkEntry "var" "var" "Indicator" [] (ExtTuple []) [LName "var"]
     ["VAR"; "Var"] ["statistic"] 0;
   (* var.py:31 *)
   mkEntry "var" "var_s" "var" [] (ExtTuple []) []
     ["varsample"; "VARS"; "VarSample"] ["statistic"] 0;
   (* bbands.py:10 *)
   mkEntry "bbands" "bbands" "Indicator" [] (ExtTuple []) [LName "mid"; LName "top"; LName "bot"]
     ["BBANDS"; "BollingerBands"; "BOLLINGERBANDS"] ["overlap"] 0;
   (* atr.py:10 *)
   mkEntry "atr" "truehigh" "Indicator" [LName "low"; LName "close"] (ExtTuple []) [LName "truehi"]
     ["TR"; "TrueRange"; "trange"; "TRANGE"] ["volatility"] 0;
   (* atr.py:36 *)
   mkEntry "atr" "truelow" "Indicator" [LName "low"; LName "close"] (ExtTuple []) [LName "truelo"]
     ["TR"; "TrueRange"; "trange"; "TRANGE"] ["volatility"] 0;
   (* atr.py:62 *)
   mkEntry "atr" "truerange" "Indicator" [LName "high"; LName "low"; LName "close"] (ExtTuple []) [LName "tr"]
     ["TR"; "TrueRange"; "trange"; "TRANGE"] ["volatility"] 0;
   (* atr.py:95 *)
   mkEntry "atr" "atr" "truerange" [] (ExtTuple []) [LName "atr"]
     ["ATR"; "AverageTrueRange"] ["volatility"] 0;
   (* atr.py:122 *)
   mkEntry "atr" "natr" "atr" [] (ExtTuple []) [LName "natr"]
     ["NATR"; "NormalizedAverageTrueRange"] ["volatility"] 0;
   (* aroon.py:20 *)
   mkEntry "aroon" "_aroon" "Indicator" [LName "high"; LName "low"] (ExtTuple []) []
     [] ["momentum"] 0;
   (* aroon.py:42 *)
   mkEntry "aroon" "aroon" "_aroon" [] (ExtTuple []) [LName "aroondn"; LName "aroonup"]
     ["AROON"; "Aroon"] [] 0;
   (* aroon.py:73 *)
   mkEntry "aroon" "aroonosc" "_aroon" [] (ExtTuple []) [LName "aroonosc"]
     ["AROONOSC"; "AroonOscillator"] [] 0;
   (* bop.py:10 *)
   mkEntry "bop" "bop" "Indicator" [LName "open"; LName "high"; LName "low"; LName "close"] (ExtTuple []) [LName "bop"]
     ["BOP"; "BalanceOfPower"] ["momentum"] 0;
   (* cci.py:10 *)
   mkEntry "cci" "cci" "Indicator" [LName "high"; LName "low"; LName "close"] (ExtTuple []) [LName "cci"]
     ["CCI"; "CommodityChannelIndex"] ["momentum"] 0;
   (* cmo.py:10 *)
   mkEntry "cmo" "cmo" "Indicator" [] (ExtTuple []) [LName "cmo"]
     ["CMO"; "ChandeMomentumOscillator"] [] 0;
   (* directionalmove.py:10 *)
   mkEntry "directionalmove" "smacc" "Indicator" [] (ExtTuple []) [LName "smacc"]
     ["WildersSmoothedAccmulation"; "SmoothedAccumulation"] [] 0;
   (* directionalmove.py:59 *)
   mkEntry "directionalmove" "_dm" "Indicator" [LName "high"; LName "low"] (ExtTuple []) []
     [] ["momentum"] 0;
   (* directionalmove.py:109 *)
   mkEntry "directionalmove" "plus_dm" "_dm" [] (ExtTuple []) [LName "plusdm"]
     ["PLUS_DM"; "PlusDirectionalMovement"] [] 0;
   (* directionalmove.py:142 *)
   mkEntry "directionalmove" "minus_dm" "_dm" [] (ExtTuple []) [LName "minusdm"]
     ["MINUS_DM"; "MinusDirectionalMovement"] [] 0;
   (* directionalmove.py:176 *)
   mkEntry "directionalmove" "dm" "_dm" [] (ExtTuple []) [LName "plusdm"; LName "minusdm"]
     ["DM"; "DirectionalMovement"] [] 0;
   (* directionalmove.py:231 *)
   mkEntry "directionalmove" "_di" "_dm" [] (ExtTuple ["close"]) []
     [] [] 0;
   (* directionalmove.py:267 *)
   mkEntry "directionalmove" "plus_di" "_di" [] (ExtTuple []) [LName "plusdi"]
     ["PLUS_DI"; "PlusDirectionalIndicator"] [] 0;
   (* directionalmove.py:299 *)
   mkEntry "directionalmove" "minus_di" "_di" [] (ExtTuple []) [LName "minusdi"]
     ["MINUS_DI"; "MinusDirectionalIndicator"] [] 0;
   (* directionalmove.py:331 *)
   mkEntry "directionalmove" "di" "_di" [] (ExtTuple []) [LName "plusdi"; LName "minusdi"]
     ["DI"; "DirectionalIndicator"; "DIRECTIONALINDICATOR"] [] 0;
   (* directionalmove.py:367 *)
   mkEntry "directionalmove" "dx" "_di" [] (ExtTuple []) [LName "dx"]
     ["DX"; "DirectionalIndex"; "DIRECTIONALINDEX"] [] 0;
   (* directionalmove.py:403 *)
   mkEntry "directionalmove" "adx" "dx" [] (ExtTuple []) [LName "adx"]
     ["ADX"; "AverageDirectionalIndex"; "AVERAGEDIRECTIONALINDEX"] [] 0;
   (* directionalmove.py:440 *)
   mkEntry "directionalmove" "adxr" "adx" [] (ExtTuple []) [LName "adxr"]
     ["ADXR"; "AverageDirectionalIndexRating"] [] 0;
   (* macd.py:10 *)
   mkEntry "macd" "macd" "Indicator" [] (ExtTuple []) [LName "macd"; LName "signal"; LName "histogram"]
     ["MACD"; "MovingAverageConvergenceDivergence"; "MACDEXT"; "MACDFIX"] ["momentum"] 0;
   (* mfi.py:10 *)
   mkEntry "mfi" "mfi" "Indicator" [LName "high"; LName "low"; LName "close"; LName "volume"] (ExtTuple []) [LName "mfi"]
     ["MFI"; "MoneyFlowIndicator"] ["momentum"] 0;
   (* mom.py:10 *)
   mkEntry "mom" "mom" "Indicator" [] (ExtTuple []) [LName "mom"]
     ["momentum"; "MOM"; "Momentum"] [] 0;
   (* ppo.py:10 *)
   mkEntry "ppo" "_posc" "Indicator" [] (ExtTuple []) []
     [] [] 0;
   (* ppo.py:32 *)
   mkEntry "ppo" "apo" "_posc" [] (ExtTuple []) [LName "apo"]
     ["APO"; "AbsolutePriceOscillator"; "PriceOscillator"] ["momentum"] 0;
   (* ppo.py:52 *)
   mkEntry "ppo" "ppo" "_posc" [] (ExtTuple []) [LName "ppo"; LName "signal"; LName "histogram"]
     ["PPO"; "PercentagePriceOscillator"] ["momentum"] 0;
   (* ppo.py:83 *)
   mkEntry "ppo" "ppofast" "_posc" [] (ExtTuple []) [LName "ppo"; LName "signal"; LName "histogram"]
     ["PPOFast"; "PercentagePriceOscillatorFast"] ["momentum"] 0;
   (* roc.py:10 *)
   mkEntry "roc" "_rocbase" "Indicator" [] (ExtTuple []) []
     [] ["momentum"] 0;
   (* roc.py:25 *)
   mkEntry "roc" "roc" "_rocbase" [] (ExtTuple []) [LName "roc"]
     ["rateofchange"; "ROC"; "RateOfChange"] [] 0;
   (* roc.py:44 *)
   mkEntry "roc" "rocp" "_rocbase" [] (ExtTuple []) [LName "rocp"]
     ["ROCP"; "RateOfChangePercentage"] [] 0;
   (* roc.py:63 *)
   mkEntry "roc" "rocr" "_rocbase" [] (ExtTuple []) [LName "rocr"]
     ["ROCR"; "RateOfChangeRatio"] [] 0;
   (* roc.py:79 *)
   mkEntry "roc" "rocr100" "_rocbase" [] (ExtTuple []) [LName "rocr100"]
     ["ROCR100"; "RateOfChangeRatio100"] [] 0;
   (* rsi.py:10 *)
   mkEntry "rsi" "rsi" "Indicator" [] (ExtTuple []) [LName "rsi"]
     ["RSI"; "RelativeStrengthIndex"] ["momentum"] 0;
   (* sar.py:12 *)
   mkEntry "sar" "sar" "Indicator" [LName "high"; LName "low"] (ExtTuple []) [LName "sar"]
     ["SAR"; "psar"; "ParabolicStopAndReverse"] ["momentum"] 0;
   (* sarext.py:12 *)
   mkEntry "sarext" "sarext" "Indicator" [LName "high"; LName "low"] (ExtTuple []) [LName "sar"]
     ["SAR"; "psar"; "ParabolicStopAndReverse"] ["momentum"] 0;
   (* stochastic.py:10 *)
   mkEntry "stochastic" "stochf" "Indicator" [LName "high"; LName "low"; LName "close"] (ExtTuple []) [LName "k"; LName "d"]
     ["stochfast"; "StochasticFast"; "STOCHF"] ["momentum"] 0;
   (* stochastic.py:52 *)
   mkEntry "stochastic" "stochastic" "stochf" [] (ExtTuple []) []
     ["stoch"; "Stochastic"; "STOCHASTIC"; "STOCH"] [] 0;
   (* stochrsi.py:10 *)
   mkEntry "stochrsi" "stochrsi" "Indicator" [] (ExtTuple []) [LName "stochrsi"]
     ["StochRsi"; "STOCHRSI"] ["momentum"] 0;
   (* williamsr.py:10 *)
   mkEntry "williamsr" "williamsr" "Indicator" [LName "high"; LName "low"; LName "close"] (ExtTuple []) [LName "r"]
     ["willr"; "WilliamsR"; "WILLIAMSR"; "WILLR"] ["momentum"] 0;
   (* ultimateoscillator.py:10 *)
   mkEntry "ultimateoscillator" "ultimateoscillator" "Indicator" [LName "high"; LName "low"; LName "close"] (ExtTuple []) [LName "uo"]
     ["ultosc"; "UltimateOscillator"; "ULTOSC"] ["momentum"] 0;
   (* ad.py:10 *)
   mkEntry "ad" "ad" "Indicator" [LName "high"; LName "low"; LName "close"; LName "volume"] (ExtTuple []) [LName "ad"]
     ["AD"; "adl"; "ADL"; "ChaikinAD"; "ChaikinADL"; "chaikinad"] ["volume"] 0;
   (* ad.py:40 *)
   mkEntry "ad" "adosc" "ad" [] (ExtTuple []) [LName "adosc"]
     ["ADOSC"; "ChaikinADOSC"; "ChaikinOsc"; "ChaikinOscillator"] [] 0;
   (* obv.py:12 *)
   mkEntry "obv" "obv" "Indicator" [LName "close"; LName "volume"] (ExtTuple []) [LName "obv"]
     ["OBV"; "OnBalanceVolume"] ["volume"] 0
  ].

(** the modules in import order (indicators/__init__.py:14-90) *)
Definition modules : list string :=
  ["price"; "mathop"; "math"; "crossover"; "ewma"; "sma"; "ema"; "smma"; "wma"; "dema"; "kama"; "tema"; "trima"; "trix"; "t3"; "mavp"; "mama"; "ht_trendline"; "midpoint"; "ht_dcperiod"; "ht_dcphase"; "ht_phasor"; "ht_sine"; "ht_trendmode"; "beta"; "correl"; "linreg"; "madev"; "stddev"; "var"; "bbands"; "atr"; "aroon"; "bop"; "cci"; "cmo"; "directionalmove"; "macd"; "mfi"; "mom"; "ppo"; "roc"; "rsi"; "sar"; "sarext"; "stochastic"; "stochrsi"; "williamsr"; "ultimateoscillator"; "ad"; "obv"].
