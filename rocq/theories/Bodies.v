(** The bodies of the indicator classes (btalib/indicators), transcribed statement by statement; every step cites
    its line.  A class stands once for each combination of the conditions that depend on parameters or on the number
    of inputs (obv with and without _talib, ...); conditions on class attributes are decided.  The __init__ of the
    base classes run first (indicator.py:155-156).  An expression built from operators, methods and other indicators
    is one HOp with the lines it reads; the objects of rolling and _ewm are taken for the line they were made from
    (lines.py:221-233 keeps a reference to its Series).  [tN] are results without a name, "self.x" attributes of the
    instance, "i.x" inputs and "o.x" outputs, old names of an output being resolved (lines.py:90-101).  With one input for two (allowinputs) only the first
    is kept (inputs.py:82).  In mavp the dict of averages counts as one line.  The classes with a leading underscore are only bases.  The file is
    generated from the sources. *)
From Coq Require Import List String.
From Verif Require Import Series Mem.
Import ListNotations.
Local Open Scope string_scope.
Local Open Scope list_scope.

(* price.py:10 *)
Definition b_avgprice : body :=
  mkBody "avgprice" ["open"; "high"; "low"; "close"] ["avg"]
    [HOp ["t1"] ["i.open"; "i.high"; "i.low"; "i.close"] (* price.py:29 *);
     HBind "prices_sum" "t1" (* price.py:29 *);
     HOp ["t2"] ["prices_sum"] (* price.py:30 *);
     HWrap "o.avg" "t2" "avg" (* price.py:30 *)].
(* price.py:33 *)
Definition b_typprice : body :=
  mkBody "typprice" ["high"; "low"; "close"] ["tp"]
    [HOp ["t1"] ["i.high"; "i.low"; "i.close"] (* price.py:52 *);
     HWrap "o.tp" "t1" "tp" (* price.py:52 *)].
(* price.py:55 *)
Definition b_wclprice : body :=
  mkBody "wclprice" ["high"; "low"; "close"] ["wcl"]
    [HOp ["t1"] ["i.close"] (* price.py:76 *);
     HBind "wclose" "t1" (* price.py:76 *);
     HOp ["t2"] ["i.high"; "i.low"; "wclose"] (* price.py:77 *);
     HWrap "o.wcl" "t2" "wcl" (* price.py:77 *)].
(* price.py:80 *)
Definition b_medprice : body :=
  mkBody "medprice" ["high"; "low"] ["med"]
    [HOp ["t1"] ["i.high"; "i.low"] (* price.py:100 *);
     HWrap "o.med" "t1" "med" (* price.py:100 *)].
(* mathop.py:16 *)
Definition b_add : body :=
  mkBody "add" ["input1"; "input2"] ["add"]
    [HOp ["t1"] ["i.input1"; "i.input2"] (* mathop.py:29 *);
     HWrap "o.add" "t1" "add" (* mathop.py:29 *)].
(* mathop.py:32 *)
Definition b_div : body :=
  mkBody "div" ["input1"; "input2"] ["div"]
    [HOp ["t1"] ["i.input1"; "i.input2"] (* mathop.py:45 *);
     HWrap "o.div" "t1" "div" (* mathop.py:45 *)].
(* mathop.py:48 *)
Definition b_mult : body :=
  mkBody "mult" ["input1"; "input2"] ["mult"]
    [HOp ["t1"] ["i.input1"; "i.input2"] (* mathop.py:61 *);
     HWrap "o.mult" "t1" "mult" (* mathop.py:61 *)].
(* mathop.py:64 *)
Definition b_sub : body :=
  mkBody "sub" ["input1"; "input2"] ["sub"]
    [HOp ["t1"] ["i.input1"; "i.input2"] (* mathop.py:77 *);
     HWrap "o.sub" "t1" "sub" (* mathop.py:77 *)].
(* mathop.py:82 *)
Definition b_max : body :=
  mkBody "max" ["close"] ["max"]
    [HOp ["t1"] ["i.close"] (* mathop.py:97 *);
     HWrap "o.max" "t1" "max" (* mathop.py:97 *)].
(* mathop.py:100 *)
Definition b_min : body :=
  mkBody "min" ["close"] ["min"]
    [HOp ["t1"] ["i.close"] (* mathop.py:115 *);
     HWrap "o.min" "t1" "min" (* mathop.py:115 *)].
(* mathop.py:118 *)
Definition b_minmax : body :=
  mkBody "minmax" ["close"] ["min"; "max"]
    [HOp ["t1"] ["i.close"] (* mathop.py:134 *);
     HWrap "o.min" "t1" "min" (* mathop.py:134 *);
     HOp ["t2"] ["i.close"] (* mathop.py:135 *);
     HWrap "o.max" "t2" "max" (* mathop.py:135 *)].
(* mathop.py:138 *)
Definition b_maxindex : body :=
  mkBody "maxindex" ["close"] ["maxindex"]
    [HBind "i0rolling" "i.close" (* mathop.py:157 *);
     HOp ["t1"] ["i0rolling"] (* mathop.py:160 *);
     HWrap "o.maxindex" "t1" "maxindex" (* mathop.py:160 *)].
(* mathop.py:174 *)
Definition b_minindex : body :=
  mkBody "minindex" ["close"] ["minindex"]
    [HBind "i0rolling" "i.close" (* mathop.py:193 *);
     HOp ["t1"] ["i0rolling"] (* mathop.py:196 *);
     HWrap "o.minindex" "t1" "minindex" (* mathop.py:196 *)].
(* mathop.py:210 *)
Definition b_minmaxindex : body :=
  mkBody "minmaxindex" ["close"] ["minindex"; "maxindex"]
    [HOp ["t1"] ["i.close"] (* mathop.py:227 *);
     HWrap "o.minindex" "t1" "minindex" (* mathop.py:227 *);
     HOp ["t2"] ["i.close"] (* mathop.py:228 *);
     HWrap "o.maxindex" "t2" "maxindex" (* mathop.py:228 *)].
(* mathop.py:239 *)
Definition b_sum : body :=
  mkBody "sum" ["close"] ["sum"]
    [HOp ["t1"] ["i.close"] (* mathop.py:254 *);
     HWrap "o.sum" "t1" "sum" (* mathop.py:254 *)].
(* math.py:28 *)
Definition b_sin : body :=
  mkBody "sin" ["close"] ["sin"]
    [HOp ["t1"] ["i.close"] (* math.py:23 *);
     HWrap "o.sin" "t1" "sin" (* math.py:23 *)].
(* math.py:44 *)
Definition b_cos : body :=
  mkBody "cos" ["close"] ["cos"]
    [HOp ["t1"] ["i.close"] (* math.py:23 *);
     HWrap "o.cos" "t1" "cos" (* math.py:23 *)].
(* math.py:60 *)
Definition b_tan : body :=
  mkBody "tan" ["close"] ["tan"]
    [HOp ["t1"] ["i.close"] (* math.py:23 *);
     HWrap "o.tan" "t1" "tan" (* math.py:23 *)].
(* math.py:78 *)
Definition b_sinh : body :=
  mkBody "sinh" ["close"] ["sinh"]
    [HOp ["t1"] ["i.close"] (* math.py:23 *);
     HWrap "o.sinh" "t1" "sinh" (* math.py:23 *)].
(* math.py:94 *)
Definition b_cosh : body :=
  mkBody "cosh" ["close"] ["cosh"]
    [HOp ["t1"] ["i.close"] (* math.py:23 *);
     HWrap "o.cosh" "t1" "cosh" (* math.py:23 *)].
(* math.py:110 *)
Definition b_tanh : body :=
  mkBody "tanh" ["close"] ["tanh"]
    [HOp ["t1"] ["i.close"] (* math.py:23 *);
     HWrap "o.tanh" "t1" "tanh" (* math.py:23 *)].
(* math.py:128 *)
Definition b_asin : body :=
  mkBody "asin" ["close"] ["asin"]
    [HOp ["t1"] ["i.close"] (* math.py:23 *);
     HWrap "o.asin" "t1" "asin" (* math.py:23 *)].
(* math.py:145 *)
Definition b_acos : body :=
  mkBody "acos" ["close"] ["acos"]
    [HOp ["t1"] ["i.close"] (* math.py:23 *);
     HWrap "o.acos" "t1" "acos" (* math.py:23 *)].
(* math.py:162 *)
Definition b_atan : body :=
  mkBody "atan" ["close"] ["atan"]
    [HOp ["t1"] ["i.close"] (* math.py:23 *);
     HWrap "o.atan" "t1" "atan" (* math.py:23 *)].
(* math.py:181 *)
Definition b_ceil : body :=
  mkBody "ceil" ["close"] ["ceil"]
    [HOp ["t1"] ["i.close"] (* math.py:197 *);
     HWrap "o.ceil" "t1" "ceil" (* math.py:197 *)].
(* math.py:200 *)
Definition b_exp : body :=
  mkBody "exp" ["close"] ["exp"]
    [HOp ["t1"] ["i.close"] (* math.py:216 *);
     HWrap "o.exp" "t1" "exp" (* math.py:216 *)].
(* math.py:219 *)
Definition b_floor : body :=
  mkBody "floor" ["close"] ["floor"]
    [HOp ["t1"] ["i.close"] (* math.py:235 *);
     HWrap "o.floor" "t1" "floor" (* math.py:235 *)].
(* math.py:238 *)
Definition b_ln : body :=
  mkBody "ln" ["close"] ["ln"]
    [HOp ["t1"] ["i.close"] (* math.py:254 *);
     HWrap "o.ln" "t1" "ln" (* math.py:254 *)].
(* math.py:257 *)
Definition b_log10 : body :=
  mkBody "log10" ["close"] ["log10"]
    [HOp ["t1"] ["i.close"] (* math.py:273 *);
     HWrap "o.log10" "t1" "log10" (* math.py:273 *)].
(* math.py:276 *)
Definition b_sqrt : body :=
  mkBody "sqrt" ["close"] ["sqrt"]
    [HOp ["t1"] ["i.close"] (* math.py:291 *);
     HWrap "o.sqrt" "t1" "sqrt" (* math.py:291 *)].
(* crossover.py:43 *)
Definition b_crossup : body :=
  mkBody "crossup" ["crosser"; "crossed"] ["crossup"]
    [HBind "t1" "i.crosser" (* crossover.py:27 *);
     HBind "t2" "i.crossed" (* crossover.py:27 *);
     HBind "i0" "t1" (* crossover.py:27 *);
     HBind "i1" "t2" (* crossover.py:27 *);
     HOp ["t3"] ["i0"; "i1"] (* crossover.py:29 *);
     HBind "idiff" "t3" (* crossover.py:29 *);
     HOp ["t4"] ["idiff"] (* crossover.py:34 *);
     HBind "idiff" "t4" (* crossover.py:34 *);
     HOp ["t5"] ["idiff"; "i0"; "i1"] (* crossover.py:37 *);
     HBind "self._cup" "t5" (* crossover.py:37 *);
     HOp ["t6"] ["self._cup"] (* crossover.py:61 *);
     HWrap "o.crossup" "t6" "crossup" (* crossover.py:61 *)].
(* crossover.py:43 *)
Definition b_crossup_1 : body :=
  mkBody "crossup" ["crosser"; "crossed"] ["crossup"]
    [HBind "t1" "i.crosser" (* crossover.py:27 *);
     HBind "t2" "i.crossed" (* crossover.py:27 *);
     HBind "i0" "t1" (* crossover.py:27 *);
     HBind "i1" "t2" (* crossover.py:27 *);
     HOp ["t3"] ["i0"; "i1"] (* crossover.py:29 *);
     HBind "idiff" "t3" (* crossover.py:29 *);
     HOp ["t4"] ["idiff"; "i0"; "i1"] (* crossover.py:37 *);
     HBind "self._cup" "t4" (* crossover.py:37 *);
     HOp ["t5"] ["self._cup"] (* crossover.py:61 *);
     HWrap "o.crossup" "t5" "crossup" (* crossover.py:61 *)].
(* crossover.py:64 *)
Definition b_crossdown : body :=
  mkBody "crossdown" ["crosser"; "crossed"] ["crossdown"]
    [HBind "t1" "i.crosser" (* crossover.py:27 *);
     HBind "t2" "i.crossed" (* crossover.py:27 *);
     HBind "i0" "t1" (* crossover.py:27 *);
     HBind "i1" "t2" (* crossover.py:27 *);
     HOp ["t3"] ["i0"; "i1"] (* crossover.py:29 *);
     HBind "idiff" "t3" (* crossover.py:29 *);
     HOp ["t4"] ["idiff"] (* crossover.py:34 *);
     HBind "idiff" "t4" (* crossover.py:34 *);
     HOp ["t5"] ["idiff"; "i0"; "i1"] (* crossover.py:40 *);
     HBind "self._cdown" "t5" (* crossover.py:40 *);
     HOp ["t6"] ["self._cdown"] (* crossover.py:82 *);
     HWrap "o.crossdown" "t6" "crossdown" (* crossover.py:82 *)].
(* crossover.py:64 *)
Definition b_crossdown_1 : body :=
  mkBody "crossdown" ["crosser"; "crossed"] ["crossdown"]
    [HBind "t1" "i.crosser" (* crossover.py:27 *);
     HBind "t2" "i.crossed" (* crossover.py:27 *);
     HBind "i0" "t1" (* crossover.py:27 *);
     HBind "i1" "t2" (* crossover.py:27 *);
     HOp ["t3"] ["i0"; "i1"] (* crossover.py:29 *);
     HBind "idiff" "t3" (* crossover.py:29 *);
     HOp ["t4"] ["idiff"; "i0"; "i1"] (* crossover.py:40 *);
     HBind "self._cdown" "t4" (* crossover.py:40 *);
     HOp ["t5"] ["self._cdown"] (* crossover.py:82 *);
     HWrap "o.crossdown" "t5" "crossdown" (* crossover.py:82 *)].
(* crossover.py:85 *)
Definition b_crossover : body :=
  mkBody "crossover" ["crosser"; "crossed"] ["crossover"]
    [HBind "t1" "i.crosser" (* crossover.py:27 *);
     HBind "t2" "i.crossed" (* crossover.py:27 *);
     HBind "i0" "t1" (* crossover.py:27 *);
     HBind "i1" "t2" (* crossover.py:27 *);
     HOp ["t3"] ["i0"; "i1"] (* crossover.py:29 *);
     HBind "idiff" "t3" (* crossover.py:29 *);
     HOp ["t4"] ["idiff"] (* crossover.py:34 *);
     HBind "idiff" "t4" (* crossover.py:34 *);
     HOp ["t5"] ["idiff"; "i0"; "i1"] (* crossover.py:37 *);
     HBind "self._cup" "t5" (* crossover.py:37 *);
     HOp ["t6"] ["idiff"; "i0"; "i1"] (* crossover.py:40 *);
     HBind "self._cdown" "t6" (* crossover.py:40 *);
     HOp ["t7"] ["self._cup"; "self._cdown"] (* crossover.py:107 *);
     HWrap "o.crossover" "t7" "crossover" (* crossover.py:107 *)].
(* crossover.py:85 *)
Definition b_crossover_1 : body :=
  mkBody "crossover" ["crosser"; "crossed"] ["crossover"]
    [HBind "t1" "i.crosser" (* crossover.py:27 *);
     HBind "t2" "i.crossed" (* crossover.py:27 *);
     HBind "i0" "t1" (* crossover.py:27 *);
     HBind "i1" "t2" (* crossover.py:27 *);
     HOp ["t3"] ["i0"; "i1"] (* crossover.py:29 *);
     HBind "idiff" "t3" (* crossover.py:29 *);
     HOp ["t4"] ["idiff"; "i0"; "i1"] (* crossover.py:37 *);
     HBind "self._cup" "t4" (* crossover.py:37 *);
     HOp ["t5"] ["idiff"; "i0"; "i1"] (* crossover.py:40 *);
     HBind "self._cdown" "t5" (* crossover.py:40 *);
     HOp ["t6"] ["self._cup"; "self._cdown"] (* crossover.py:107 *);
     HWrap "o.crossover" "t6" "crossover" (* crossover.py:107 *)].
(* ewma.py:11 *)
Definition b_ewma : body :=
  mkBody "ewma" ["close"] ["ewma"]
    [HOp ["t1"] ["i.close"] (* ewma.py:35 *);
     HWrap "o.ewma" "t1" "ewma" (* ewma.py:35 *)].
(* sma.py:10 *)
Definition b_sma : body :=
  mkBody "sma" ["close"] ["sma"]
    [HOp ["t1"] ["i.close"] (* sma.py:28 *);
     HWrap "o.sma" "t1" "sma" (* sma.py:28 *)].
(* ema.py:15 *)
Definition b_ema : body :=
  mkBody "ema" ["close"] ["ema"]
    [HOp ["t1"] ["i.close"] (* ema.py:39 *);
     HWrap "o.ema" "t1" "ema" (* ema.py:39 *)].
(* smma.py:10 *)
Definition b_smma : body :=
  mkBody "smma" ["close"] ["smma"]
    [HOp ["t1"] ["i.close"] (* smma.py:41 *);
     HWrap "o.smma" "t1" "smma" (* smma.py:41 *)].
(* wma.py:12 *)
Definition b_wma : body :=
  mkBody "wma" ["close"] ["wma"]
    [HOp ["t1"] ["i.close"] (* wma.py:40 *);
     HWrap "o.wma" "t1" "wma" (* wma.py:40 *)].
(* dema.py:10 *)
Definition b_dema : body :=
  mkBody "dema" ["close"] ["dema"]
    [HOp ["t1"] ["i.close"] (* dema.py:33 *);
     HBind "ema1" "t1" (* dema.py:33 *);
     HOp ["t2"] ["ema1"] (* dema.py:34 *);
     HBind "ema2" "t2" (* dema.py:34 *);
     HOp ["t3"] ["ema1"; "ema2"] (* dema.py:35 *);
     HWrap "o.dema" "t3" "dema" (* dema.py:35 *)].
(* kama.py:11 *)
Definition b_kama : body :=
  mkBody "kama" ["close"] ["kama"]
    [HOp ["t1"] ["i.close"] (* kama.py:70 *);
     HBind "direction" "t1" (* kama.py:70 *);
     HOp ["t2"] ["i.close"] (* kama.py:71 *);
     HBind "volseries" "t2" (* kama.py:71 *);
     HOp ["t3"] ["volseries"] (* kama.py:72 *);
     HBind "volatility" "t3" (* kama.py:72 *);
     HOp ["t4"] ["direction"; "volatility"] (* kama.py:74 *);
     HBind "effratio" "t4" (* kama.py:74 *);
     HOp ["t5"] ["effratio"] (* kama.py:81 *);
     HBind "sc" "t5" (* kama.py:81 *);
     HOp ["t6"] ["i.close"; "sc"] (* kama.py:84 *);
     HWrap "o.kama" "t6" "kama" (* kama.py:84 *)].
(* tema.py:10 *)
Definition b_tema : body :=
  mkBody "tema" ["close"] ["tema"]
    [HOp ["t1"] ["i.close"] (* tema.py:36 *);
     HBind "ema1" "t1" (* tema.py:36 *);
     HOp ["t2"] ["ema1"] (* tema.py:37 *);
     HBind "ema2" "t2" (* tema.py:37 *);
     HOp ["t3"] ["ema2"] (* tema.py:38 *);
     HBind "ema3" "t3" (* tema.py:38 *);
     HOp ["t4"] ["ema1"; "ema2"; "ema3"] (* tema.py:39 *);
     HWrap "o.tema" "t4" "tema" (* tema.py:39 *)].
(* trima.py:10 *)
Definition b_trima : body :=
  mkBody "trima" ["close"] ["trima"]
    [HOp ["t1"] ["i.close"] (* trima.py:39 *);
     HWrap "o.trima" "t1" "trima" (* trima.py:39 *)].
(* trix.py:10 *)
Definition b_trix : body :=
  mkBody "trix" ["close"] ["trix"]
    [HOp ["t1"] ["i.close"] (* trix.py:40 *);
     HBind "ema1" "t1" (* trix.py:40 *);
     HOp ["t2"] ["ema1"] (* trix.py:41 *);
     HBind "ema2" "t2" (* trix.py:41 *);
     HOp ["t3"] ["ema2"] (* trix.py:42 *);
     HBind "ema3" "t3" (* trix.py:42 *);
     HOp ["t4"] ["ema3"] (* trix.py:43 *);
     HWrap "o.trix" "t4" "trix" (* trix.py:43 *)].
(* t3.py:10 *)
Definition b_gdema : body :=
  mkBody "gdema" ["close"] ["gd"]
    [HOp ["t1"] ["i.close"] (* t3.py:31 *);
     HBind "ema1" "t1" (* t3.py:31 *);
     HOp ["t2"] ["ema1"] (* t3.py:32 *);
     HBind "ema2" "t2" (* t3.py:32 *);
     HOp ["t3"] ["ema1"; "ema2"] (* t3.py:34 *);
     HWrap "o.gd" "t3" "gd" (* t3.py:34 *)].
(* t3.py:37 *)
Definition b_t3 : body :=
  mkBody "t3" ["close"] ["t3"]
    [HOp ["t1"] ["i.close"] (* t3.py:74 *);
     HWrap "o.t3" "t1" "t3" (* t3.py:74 *)].
(* t3.py:37 *)
Definition b_t3_1 : body :=
  mkBody "t3" ["close"] ["t3"]
    [HOp ["t1"] ["i.close"] (* t3.py:83 *);
     HBind "ema1" "t1" (* t3.py:83 *);
     HOp ["t2"] ["ema1"] (* t3.py:84 *);
     HBind "ema2" "t2" (* t3.py:84 *);
     HOp ["t3"] ["ema2"] (* t3.py:85 *);
     HBind "ema3" "t3" (* t3.py:85 *);
     HOp ["t4"] ["ema3"] (* t3.py:86 *);
     HBind "ema4" "t4" (* t3.py:86 *);
     HOp ["t5"] ["ema4"] (* t3.py:87 *);
     HBind "ema5" "t5" (* t3.py:87 *);
     HOp ["t6"] ["ema5"] (* t3.py:88 *);
     HBind "ema6" "t6" (* t3.py:88 *);
     HOp ["t7"] ["ema6"; "ema5"; "ema4"; "ema3"] (* t3.py:90 *);
     HWrap "o.t3" "t7" "t3" (* t3.py:90 *)].
(* mavp.py:19 *)
Definition b_mavp : body :=
  mkBody "mavp" ["close"; "periods"] ["mavp"]
    [HBind "periods" "i.periods" (* mavp.py:48 *);
     HOp ["t1"] ["periods"] (* mavp.py:50 *);
     HBind "periods" "t1" (* mavp.py:50 *);
     HOp ["t2"] ["periods"] (* mavp.py:53 *);
     HBind "uperiods" "t2" (* mavp.py:53 *);
     HOp ["t3"] ["i.close"; "uperiods"] (* mavp.py:55 *);
     HBind "ma" "t3" (* mavp.py:55 *);
     HOp ["t4"] ["uperiods"] (* mavp.py:58 *);
     HBind "maxp" "t4" (* mavp.py:58 *);
     HPeriod "i.close" ["maxp"] false (* mavp.py:60 *);
     HBind "pclose" "i.close" (* mavp.py:60 *);
     HApply ["t5"] "pclose" true true [("periods", false); ("ma", false)] (* mavp.py:61 *);
     HWrap "o.mavp" "t5" "mavp" (* mavp.py:61 *)].
(* mavp.py:19 *)
Definition b_mavp_1 : body :=
  mkBody "mavp" ["close"; "periods"] ["mavp"]
    [HBind "periods" "i.periods" (* mavp.py:48 *);
     HOp ["t1"] ["periods"] (* mavp.py:50 *);
     HBind "periods" "t1" (* mavp.py:50 *);
     HOp ["t2"] ["periods"] (* mavp.py:53 *);
     HBind "uperiods" "t2" (* mavp.py:53 *);
     HOp ["t3"] ["i.close"; "uperiods"] (* mavp.py:55 *);
     HBind "ma" "t3" (* mavp.py:55 *);
     HPeriod "i.close" [] false (* mavp.py:60 *);
     HBind "pclose" "i.close" (* mavp.py:60 *);
     HApply ["t4"] "pclose" true true [("periods", false); ("ma", false)] (* mavp.py:61 *);
     HWrap "o.mavp" "t4" "mavp" (* mavp.py:61 *)].
(* mama.py:17 *)
Definition b_mama : body :=
  mkBody "mama" ["high"; "low"] ["mama"; "fama"]
    [HOp ["t1"] ["i.high"; "i.low"] (* mama.py:48 *);
     HBind "p0" "t1" (* mama.py:48 *);
     HOp ["t2"] ["p0"] (* mama.py:51 *);
     HBind "p0smooth" "t2" (* mama.py:51 *);
     HPeriod "p0smooth" [] false (* mama.py:53 *);
     HOp ["t3"] ["p0smooth"] (* mama.py:56 *);
     HOp ["t4"] ["p0smooth"] (* mama.py:56 *);
     HBind "i1" "t3" (* mama.py:56 *);
     HBind "q1" "t4" (* mama.py:56 *);
     HApply ["i1"; "q1"] "p0smooth" true true [("i1", true); ("q1", true)] (* mama.py:59 *);
     HPeriod "q1" [] false (* mama.py:63 *);
     HOp ["t5"] ["q1"; "i1"] (* mama.py:66 *);
     HBind "atanq1num" "t5" (* mama.py:66 *);
     HOp ["t6"] ["atanq1num"; "i1"] (* mama.py:67 *);
     HBind "phase" "t6" (* mama.py:67 *);
     HPeriod "phase" [] true (* mama.py:73 *);
     HOp ["t7"] ["phase"] (* mama.py:75 *);
     HBind "deltaphase" "t7" (* mama.py:75 *);
     HOp ["t8"] ["deltaphase"] (* mama.py:76 *);
     HBind "alpha" "t8" (* mama.py:76 *);
     HOp ["t9"] ["p0"; "alpha"] (* mama.py:79 *);
     HBind "_mama" "t9" (* mama.py:79 *);
     HOp ["t10"] ["_mama"; "alpha"] (* mama.py:81 *);
     HBind "_fama" "t10" (* mama.py:81 *);
     HPeriod "_mama" [] true (* mama.py:85 *);
     HPeriod "_fama" [] true (* mama.py:86 *);
     HWrap "o.mama" "_mama" "mama" (* mama.py:88 *);
     HWrap "o.fama" "_fama" "fama" (* mama.py:89 *)].
(* mama.py:17 *)
Definition b_mama_1 : body :=
  mkBody "mama" ["high"] ["mama"; "fama"]
    [HBind "p0" "i.high" (* mama.py:48 *);
     HOp ["t1"] ["p0"] (* mama.py:51 *);
     HBind "p0smooth" "t1" (* mama.py:51 *);
     HPeriod "p0smooth" [] false (* mama.py:53 *);
     HOp ["t2"] ["p0smooth"] (* mama.py:56 *);
     HOp ["t3"] ["p0smooth"] (* mama.py:56 *);
     HBind "i1" "t2" (* mama.py:56 *);
     HBind "q1" "t3" (* mama.py:56 *);
     HApply ["i1"; "q1"] "p0smooth" true true [("i1", true); ("q1", true)] (* mama.py:59 *);
     HPeriod "q1" [] false (* mama.py:63 *);
     HOp ["t4"] ["q1"; "i1"] (* mama.py:66 *);
     HBind "atanq1num" "t4" (* mama.py:66 *);
     HOp ["t5"] ["atanq1num"; "i1"] (* mama.py:67 *);
     HBind "phase" "t5" (* mama.py:67 *);
     HPeriod "phase" [] true (* mama.py:73 *);
     HOp ["t6"] ["phase"] (* mama.py:75 *);
     HBind "deltaphase" "t6" (* mama.py:75 *);
     HOp ["t7"] ["deltaphase"] (* mama.py:76 *);
     HBind "alpha" "t7" (* mama.py:76 *);
     HOp ["t8"] ["p0"; "alpha"] (* mama.py:79 *);
     HBind "_mama" "t8" (* mama.py:79 *);
     HOp ["t9"] ["_mama"; "alpha"] (* mama.py:81 *);
     HBind "_fama" "t9" (* mama.py:81 *);
     HPeriod "_mama" [] true (* mama.py:85 *);
     HPeriod "_fama" [] true (* mama.py:86 *);
     HWrap "o.mama" "_mama" "mama" (* mama.py:88 *);
     HWrap "o.fama" "_fama" "fama" (* mama.py:89 *)].
(* ht_trendline.py:17 *)
Definition b_ht_trendline : body :=
  mkBody "ht_trendline" ["high"; "low"] ["trendline"]
    [HOp ["t1"] ["i.high"; "i.low"] (* ht_trendline.py:42 *);
     HBind "p0" "t1" (* ht_trendline.py:42 *);
     HOp ["t2"] ["p0"] (* ht_trendline.py:45 *);
     HBind "p0smooth" "t2" (* ht_trendline.py:45 *);
     HPeriod "p0smooth" [] false (* ht_trendline.py:47 *);
     HOp ["t3"] ["p0smooth"] (* ht_trendline.py:53 *);
     HBind "trendbuffer" "t3" (* ht_trendline.py:53 *);
     HApply ["t4"] "p0smooth" true true [("p0", false); ("trendbuffer", true)] (* ht_trendline.py:54 *);
     HBind "result" "t4" (* ht_trendline.py:54 *);
     HPeriod "result" [] true (* ht_trendline.py:57 *);
     HWrap "o.trendline" "result" "trendline" (* ht_trendline.py:57 *)].
(* ht_trendline.py:17 *)
Definition b_ht_trendline_1 : body :=
  mkBody "ht_trendline" ["high"] ["trendline"]
    [HBind "p0" "i.high" (* ht_trendline.py:42 *);
     HOp ["t1"] ["p0"] (* ht_trendline.py:45 *);
     HBind "p0smooth" "t1" (* ht_trendline.py:45 *);
     HPeriod "p0smooth" [] false (* ht_trendline.py:47 *);
     HOp ["t2"] ["p0smooth"] (* ht_trendline.py:53 *);
     HBind "trendbuffer" "t2" (* ht_trendline.py:53 *);
     HApply ["t3"] "p0smooth" true true [("p0", false); ("trendbuffer", true)] (* ht_trendline.py:54 *);
     HBind "result" "t3" (* ht_trendline.py:54 *);
     HPeriod "result" [] true (* ht_trendline.py:57 *);
     HWrap "o.trendline" "result" "trendline" (* ht_trendline.py:57 *)].
(* midpoint.py:10 *)
Definition b_midprice : body :=
  mkBody "midprice" ["high"; "low"] ["midprice"]
    [HOp ["t1"] ["i.high"] (* midpoint.py:29 *);
     HBind "hh" "t1" (* midpoint.py:29 *);
     HOp ["t2"] ["i.low"] (* midpoint.py:30 *);
     HBind "ll" "t2" (* midpoint.py:30 *);
     HOp ["t3"] ["hh"; "ll"] (* midpoint.py:31 *);
     HWrap "o.midprice" "t3" "midprice" (* midpoint.py:31 *)].
(* midpoint.py:34 *)
Definition b_midpoint : body :=
  mkBody "midpoint" ["close"] ["midpoint"]
    [HOp ["t1"] ["i.close"] (* midpoint.py:52 *);
     HWrap "o.midpoint" "t1" "midpoint" (* midpoint.py:52 *)].
(* ht_dcperiod.py:17 *)
Definition b_ht_dcperiod : body :=
  mkBody "ht_dcperiod" ["high"; "low"] ["dcperiod"]
    [HOp ["t1"] ["i.high"; "i.low"] (* ht_dcperiod.py:42 *);
     HBind "p0" "t1" (* ht_dcperiod.py:42 *);
     HOp ["t2"] ["p0"] (* ht_dcperiod.py:45 *);
     HBind "p0smooth" "t2" (* ht_dcperiod.py:45 *);
     HPeriod "p0smooth" [] false (* ht_dcperiod.py:47 *);
     HOp ["t3"] ["p0smooth"] (* ht_dcperiod.py:49 *);
     HBind "dcbuffer" "t3" (* ht_dcperiod.py:49 *);
     HApply ["t4"] "p0smooth" true true [("dcbuffer", true)] (* ht_dcperiod.py:50 *);
     HBind "dcperiod" "t4" (* ht_dcperiod.py:50 *);
     HPeriod "dcperiod" [] true (* ht_dcperiod.py:53 *);
     HWrap "o.dcperiod" "dcperiod" "dcperiod" (* ht_dcperiod.py:53 *)].
(* ht_dcperiod.py:17 *)
Definition b_ht_dcperiod_1 : body :=
  mkBody "ht_dcperiod" ["high"] ["dcperiod"]
    [HBind "p0" "i.high" (* ht_dcperiod.py:42 *);
     HOp ["t1"] ["p0"] (* ht_dcperiod.py:45 *);
     HBind "p0smooth" "t1" (* ht_dcperiod.py:45 *);
     HPeriod "p0smooth" [] false (* ht_dcperiod.py:47 *);
     HOp ["t2"] ["p0smooth"] (* ht_dcperiod.py:49 *);
     HBind "dcbuffer" "t2" (* ht_dcperiod.py:49 *);
     HApply ["t3"] "p0smooth" true true [("dcbuffer", true)] (* ht_dcperiod.py:50 *);
     HBind "dcperiod" "t3" (* ht_dcperiod.py:50 *);
     HPeriod "dcperiod" [] true (* ht_dcperiod.py:53 *);
     HWrap "o.dcperiod" "dcperiod" "dcperiod" (* ht_dcperiod.py:53 *)].
(* ht_dcphase.py:18 *)
Definition b_ht_dcphase : body :=
  mkBody "ht_dcphase" ["high"; "low"] ["dcphase"]
    [HOp ["t1"] ["i.high"; "i.low"] (* ht_dcphase.py:43 *);
     HBind "p0" "t1" (* ht_dcphase.py:43 *);
     HOp ["t2"] ["p0"] (* ht_dcphase.py:46 *);
     HBind "p0smooth" "t2" (* ht_dcphase.py:46 *);
     HPeriod "p0smooth" [] false (* ht_dcphase.py:48 *);
     HOp ["t3"] ["p0smooth"] (* ht_dcphase.py:50 *);
     HBind "dcbuffer" "t3" (* ht_dcphase.py:50 *);
     HApply ["t4"] "p0smooth" true true [("dcbuffer", true)] (* ht_dcphase.py:51 *);
     HBind "dcphase" "t4" (* ht_dcphase.py:51 *);
     HPeriod "dcphase" [] true (* ht_dcphase.py:54 *);
     HWrap "o.dcphase" "dcphase" "dcphase" (* ht_dcphase.py:54 *)].
(* ht_dcphase.py:18 *)
Definition b_ht_dcphase_1 : body :=
  mkBody "ht_dcphase" ["high"] ["dcphase"]
    [HBind "p0" "i.high" (* ht_dcphase.py:43 *);
     HOp ["t1"] ["p0"] (* ht_dcphase.py:46 *);
     HBind "p0smooth" "t1" (* ht_dcphase.py:46 *);
     HPeriod "p0smooth" [] false (* ht_dcphase.py:48 *);
     HOp ["t2"] ["p0smooth"] (* ht_dcphase.py:50 *);
     HBind "dcbuffer" "t2" (* ht_dcphase.py:50 *);
     HApply ["t3"] "p0smooth" true true [("dcbuffer", true)] (* ht_dcphase.py:51 *);
     HBind "dcphase" "t3" (* ht_dcphase.py:51 *);
     HPeriod "dcphase" [] true (* ht_dcphase.py:54 *);
     HWrap "o.dcphase" "dcphase" "dcphase" (* ht_dcphase.py:54 *)].
(* ht_phasor.py:17 *)
Definition b_ht_phasor : body :=
  mkBody "ht_phasor" ["high"; "low"] ["inphase"; "quadrature"]
    [HOp ["t1"] ["i.high"; "i.low"] (* ht_phasor.py:42 *);
     HBind "p0" "t1" (* ht_phasor.py:42 *);
     HOp ["t2"] ["p0"] (* ht_phasor.py:45 *);
     HBind "p0smooth" "t2" (* ht_phasor.py:45 *);
     HPeriod "p0smooth" [] false (* ht_phasor.py:47 *);
     HOp ["t3"] ["p0smooth"] (* ht_phasor.py:50 *);
     HOp ["t4"] ["p0smooth"] (* ht_phasor.py:50 *);
     HBind "i1" "t3" (* ht_phasor.py:50 *);
     HBind "q1" "t4" (* ht_phasor.py:50 *);
     HApply ["i1"; "q1"] "p0smooth" true true [("i1", true); ("q1", true)] (* ht_phasor.py:53 *);
     HPeriod "i1" [] true (* ht_phasor.py:56 *);
     HWrap "o.inphase" "i1" "inphase" (* ht_phasor.py:56 *);
     HPeriod "q1" [] true (* ht_phasor.py:57 *);
     HWrap "o.quadrature" "q1" "quadrature" (* ht_phasor.py:57 *)].
(* ht_phasor.py:17 *)
Definition b_ht_phasor_1 : body :=
  mkBody "ht_phasor" ["high"] ["inphase"; "quadrature"]
    [HBind "p0" "i.high" (* ht_phasor.py:42 *);
     HOp ["t1"] ["p0"] (* ht_phasor.py:45 *);
     HBind "p0smooth" "t1" (* ht_phasor.py:45 *);
     HPeriod "p0smooth" [] false (* ht_phasor.py:47 *);
     HOp ["t2"] ["p0smooth"] (* ht_phasor.py:50 *);
     HOp ["t3"] ["p0smooth"] (* ht_phasor.py:50 *);
     HBind "i1" "t2" (* ht_phasor.py:50 *);
     HBind "q1" "t3" (* ht_phasor.py:50 *);
     HApply ["i1"; "q1"] "p0smooth" true true [("i1", true); ("q1", true)] (* ht_phasor.py:53 *);
     HPeriod "i1" [] true (* ht_phasor.py:56 *);
     HWrap "o.inphase" "i1" "inphase" (* ht_phasor.py:56 *);
     HPeriod "q1" [] true (* ht_phasor.py:57 *);
     HWrap "o.quadrature" "q1" "quadrature" (* ht_phasor.py:57 *)].
(* ht_sine.py:19 *)
Definition b_ht_sine : body :=
  mkBody "ht_sine" ["high"; "low"] ["sine"; "leadsine"]
    [HOp ["t1"] ["i.high"; "i.low"] (* ht_sine.py:44 *);
     HBind "p0" "t1" (* ht_sine.py:44 *);
     HOp ["t2"] ["p0"] (* ht_sine.py:47 *);
     HBind "p0smooth" "t2" (* ht_sine.py:47 *);
     HPeriod "p0smooth" [] false (* ht_sine.py:49 *);
     HOp ["t3"] ["p0smooth"] (* ht_sine.py:51 *);
     HBind "sbuf" "t3" (* ht_sine.py:51 *);
     HOp ["t4"] ["p0smooth"] (* ht_sine.py:52 *);
     HBind "lsbuf" "t4" (* ht_sine.py:52 *);
     HApply ["s"; "ls"] "p0smooth" true true [("sbuf", true); ("lsbuf", true)] (* ht_sine.py:53 *);
     HPeriod "s" [] true (* ht_sine.py:56 *);
     HWrap "o.sine" "s" "sine" (* ht_sine.py:56 *);
     HPeriod "ls" [] true (* ht_sine.py:57 *);
     HWrap "o.leadsine" "ls" "leadsine" (* ht_sine.py:57 *)].
(* ht_sine.py:19 *)
Definition b_ht_sine_1 : body :=
  mkBody "ht_sine" ["high"] ["sine"; "leadsine"]
    [HBind "p0" "i.high" (* ht_sine.py:44 *);
     HOp ["t1"] ["p0"] (* ht_sine.py:47 *);
     HBind "p0smooth" "t1" (* ht_sine.py:47 *);
     HPeriod "p0smooth" [] false (* ht_sine.py:49 *);
     HOp ["t2"] ["p0smooth"] (* ht_sine.py:51 *);
     HBind "sbuf" "t2" (* ht_sine.py:51 *);
     HOp ["t3"] ["p0smooth"] (* ht_sine.py:52 *);
     HBind "lsbuf" "t3" (* ht_sine.py:52 *);
     HApply ["s"; "ls"] "p0smooth" true true [("sbuf", true); ("lsbuf", true)] (* ht_sine.py:53 *);
     HPeriod "s" [] true (* ht_sine.py:56 *);
     HWrap "o.sine" "s" "sine" (* ht_sine.py:56 *);
     HPeriod "ls" [] true (* ht_sine.py:57 *);
     HWrap "o.leadsine" "ls" "leadsine" (* ht_sine.py:57 *)].
(* ht_trendmode.py:19 *)
Definition b_ht_trendmode : body :=
  mkBody "ht_trendmode" ["high"; "low"] ["trendline"]
    [HOp ["t1"] ["i.high"; "i.low"] (* ht_trendmode.py:44 *);
     HBind "p0" "t1" (* ht_trendmode.py:44 *);
     HOp ["t2"] ["p0"] (* ht_trendmode.py:47 *);
     HBind "p0smooth" "t2" (* ht_trendmode.py:47 *);
     HPeriod "p0smooth" [] false (* ht_trendmode.py:49 *);
     HOp ["t3"] ["p0smooth"] (* ht_trendmode.py:55 *);
     HBind "trendbuffer" "t3" (* ht_trendmode.py:55 *);
     HApply ["t4"] "p0smooth" false true [("p0", false); ("trendbuffer", true)] (* ht_trendmode.py:56 *);
     HBind "result" "t4" (* ht_trendmode.py:56 *);
     HPeriod "result" [] true (* ht_trendmode.py:59 *);
     HWrap "o.trendline" "result" "trendline" (* ht_trendmode.py:59 *)].
(* ht_trendmode.py:19 *)
Definition b_ht_trendmode_1 : body :=
  mkBody "ht_trendmode" ["high"] ["trendline"]
    [HBind "p0" "i.high" (* ht_trendmode.py:44 *);
     HOp ["t1"] ["p0"] (* ht_trendmode.py:47 *);
     HBind "p0smooth" "t1" (* ht_trendmode.py:47 *);
     HPeriod "p0smooth" [] false (* ht_trendmode.py:49 *);
     HOp ["t2"] ["p0smooth"] (* ht_trendmode.py:55 *);
     HBind "trendbuffer" "t2" (* ht_trendmode.py:55 *);
     HApply ["t3"] "p0smooth" false true [("p0", false); ("trendbuffer", true)] (* ht_trendmode.py:56 *);
     HBind "result" "t3" (* ht_trendmode.py:56 *);
     HPeriod "result" [] true (* ht_trendmode.py:59 *);
     HWrap "o.trendline" "result" "trendline" (* ht_trendmode.py:59 *)].
(* beta.py:10 *)
Definition b_beta : body :=
  mkBody "beta" ["asset"; "market"] ["beta"]
    [HOp ["t1"] ["i.asset"] (* beta.py:42 *);
     HBind "x" "t1" (* beta.py:42 *);
     HOp ["t2"] ["i.market"] (* beta.py:43 *);
     HBind "y" "t2" (* beta.py:43 *);
     HOp ["t3"] ["x"] (* beta.py:47 *);
     HBind "s_x" "t3" (* beta.py:47 *);
     HOp ["t4"] ["y"] (* beta.py:48 *);
     HBind "s_y" "t4" (* beta.py:48 *);
     HOp ["t5"] ["x"] (* beta.py:50 *);
     HBind "s_xx" "t5" (* beta.py:50 *);
     HOp ["t6"] ["x"; "y"] (* beta.py:51 *);
     HBind "s_xy" "t6" (* beta.py:51 *);
     HOp ["t7"] ["s_xy"; "s_x"; "s_y"; "s_xx"] (* beta.py:53 *);
     HWrap "o.beta" "t7" "beta" (* beta.py:53 *)].
(* beta.py:10 *)
Definition b_beta_1 : body :=
  mkBody "beta" ["asset"; "market"] ["beta"]
    [HBind "t1" "i.asset" (* beta.py:45 *);
     HBind "t2" "i.market" (* beta.py:45 *);
     HBind "x" "t1" (* beta.py:45 *);
     HBind "y" "t2" (* beta.py:45 *);
     HOp ["t3"] ["x"] (* beta.py:47 *);
     HBind "s_x" "t3" (* beta.py:47 *);
     HOp ["t4"] ["y"] (* beta.py:48 *);
     HBind "s_y" "t4" (* beta.py:48 *);
     HOp ["t5"] ["x"] (* beta.py:50 *);
     HBind "s_xx" "t5" (* beta.py:50 *);
     HOp ["t6"] ["x"; "y"] (* beta.py:51 *);
     HBind "s_xy" "t6" (* beta.py:51 *);
     HOp ["t7"] ["s_xy"; "s_x"; "s_y"; "s_xx"] (* beta.py:53 *);
     HWrap "o.beta" "t7" "beta" (* beta.py:53 *)].
(* correl.py:10 *)
Definition b_correl : body :=
  mkBody "correl" ["high"; "low"] ["correl"]
    [HOp ["t1"] ["i.high"; "i.low"] (* correl.py:31 *);
     HWrap "o.correl" "t1" "correl" (* correl.py:31 *)].
(* linreg.py:81 *)
Definition b_linearreg_slope : body :=
  mkBody "linearreg_slope" ["close"] ["slope"]
    [HOp ["t1"] ["i.close"] (* linreg.py:67 *);
     HBind "s_y" "t1" (* linreg.py:67 *);
     HBind "s_y" "t1" (* linreg.py:67 *);
     HOp ["t2"] ["i.close"] (* linreg.py:73 *);
     HBind "s_xy" "t2" (* linreg.py:73 *);
     HOp ["t3"] ["s_xy"; "s_y"] (* linreg.py:75 *);
     HBind "self._m" "t3" (* linreg.py:75 *);
     HBind "m" "t3" (* linreg.py:75 *);
     HWrap "o.slope" "self._m" "slope" (* linreg.py:100 *)].
(* linreg.py:103 *)
Definition b_linearreg_angle : body :=
  mkBody "linearreg_angle" ["close"] ["slope"]
    [HOp ["t1"] ["i.close"] (* linreg.py:67 *);
     HBind "s_y" "t1" (* linreg.py:67 *);
     HBind "s_y" "t1" (* linreg.py:67 *);
     HOp ["t2"] ["i.close"] (* linreg.py:73 *);
     HBind "s_xy" "t2" (* linreg.py:73 *);
     HOp ["t3"] ["s_xy"; "s_y"] (* linreg.py:75 *);
     HBind "self._m" "t3" (* linreg.py:75 *);
     HBind "m" "t3" (* linreg.py:75 *);
     HOp ["t4"] ["self._m"] (* linreg.py:122 *);
     HWrap "o.slope" "t4" "slope" (* linreg.py:122 *)].
(* linreg.py:125 *)
Definition b_linearreg_intercept : body :=
  mkBody "linearreg_intercept" ["close"] ["intercept"]
    [HOp ["t1"] ["i.close"] (* linreg.py:67 *);
     HBind "s_y" "t1" (* linreg.py:67 *);
     HBind "s_y" "t1" (* linreg.py:67 *);
     HOp ["t2"] ["i.close"] (* linreg.py:73 *);
     HBind "s_xy" "t2" (* linreg.py:73 *);
     HOp ["t3"] ["s_xy"; "s_y"] (* linreg.py:75 *);
     HBind "self._m" "t3" (* linreg.py:75 *);
     HBind "m" "t3" (* linreg.py:75 *);
     HOp ["t4"] ["s_y"; "m"] (* linreg.py:78 *);
     HBind "self._b" "t4" (* linreg.py:78 *);
     HWrap "o.intercept" "self._b" "intercept" (* linreg.py:146 *)].
(* linreg.py:169 *)
Definition b_linearreg : body :=
  mkBody "linearreg" ["close"] ["linreg"]
    [HOp ["t1"] ["i.close"] (* linreg.py:67 *);
     HBind "s_y" "t1" (* linreg.py:67 *);
     HBind "s_y" "t1" (* linreg.py:67 *);
     HOp ["t2"] ["i.close"] (* linreg.py:73 *);
     HBind "s_xy" "t2" (* linreg.py:73 *);
     HOp ["t3"] ["s_xy"; "s_y"] (* linreg.py:75 *);
     HBind "self._m" "t3" (* linreg.py:75 *);
     HBind "m" "t3" (* linreg.py:75 *);
     HOp ["t4"] ["s_y"; "m"] (* linreg.py:78 *);
     HBind "self._b" "t4" (* linreg.py:78 *);
     HOp ["t5"] ["self._b"; "self._m"] (* linreg.py:191 *);
     HWrap "o.linreg" "t5" "linreg" (* linreg.py:191 *)].
(* linreg.py:214 *)
Definition b_tsf : body :=
  mkBody "tsf" ["close"] ["tsf"]
    [HOp ["t1"] ["i.close"] (* linreg.py:67 *);
     HBind "s_y" "t1" (* linreg.py:67 *);
     HBind "s_y" "t1" (* linreg.py:67 *);
     HOp ["t2"] ["i.close"] (* linreg.py:73 *);
     HBind "s_xy" "t2" (* linreg.py:73 *);
     HOp ["t3"] ["s_xy"; "s_y"] (* linreg.py:75 *);
     HBind "self._m" "t3" (* linreg.py:75 *);
     HBind "m" "t3" (* linreg.py:75 *);
     HOp ["t4"] ["s_y"; "m"] (* linreg.py:78 *);
     HBind "self._b" "t4" (* linreg.py:78 *);
     HOp ["t5"] ["self._b"; "self._m"] (* linreg.py:236 *);
     HWrap "o.tsf" "t5" "tsf" (* linreg.py:236 *)].
(* madev.py:12 *)
Definition b_mad : body :=
  mkBody "mad" ["close"] ["meandev"]
    [HBind "r" "i.close" (* madev.py:30 *);
     HOp ["t1"] ["r"] (* madev.py:31 *);
     HWrap "o.meandev" "t1" "meandev" (* madev.py:31 *)].
(* stddev.py:10 *)
Definition b_stddev : body :=
  mkBody "stddev" ["close"] ["std"]
    [HOp ["t1"] ["i.close"] (* stddev.py:28 *);
     HWrap "o.std" "t1" "std" (* stddev.py:27 *)].
(* stddev.py:35 *)
Definition b_stddev_s : body :=
  mkBody "stddev_s" ["close"] ["std"]
    [HOp ["t1"] ["i.close"] (* stddev.py:28 *);
     HWrap "o.std" "t1" "std" (* stddev.py:27 *)].
(* var.py:10 *)
Definition b_var : body :=
  mkBody "var" ["close"] ["var"]
    [HOp ["t1"] ["i.close"] (* var.py:28 *);
     HWrap "o.var" "t1" "var" (* var.py:27 *)].
(* var.py:31 *)
Definition b_var_s : body :=
  mkBody "var_s" ["close"] ["var"]
    [HOp ["t1"] ["i.close"] (* var.py:28 *);
     HWrap "o.var" "t1" "var" (* var.py:27 *)].
(* bbands.py:10 *)
Definition b_bbands : body :=
  mkBody "bbands" ["close"] ["mid"; "top"; "bot"]
    [HOp ["t1"] ["i.close"] (* bbands.py:34 *);
     HWrap "o.mid" "t1" "mid" (* bbands.py:34 *);
     HBind "mid" "t1" (* bbands.py:34 *);
     HOp ["t2"] ["i.close"] (* bbands.py:36 *);
     HBind "devdist" "t2" (* bbands.py:36 *);
     HOp ["t3"] ["mid"; "devdist"] (* bbands.py:37 *);
     HWrap "o.top" "t3" "top" (* bbands.py:37 *);
     HOp ["t4"] ["mid"; "devdist"] (* bbands.py:38 *);
     HWrap "o.bot" "t4" "bot" (* bbands.py:38 *)].
(* atr.py:10 *)
Definition b_truehigh : body :=
  mkBody "truehigh" ["low"; "close"] ["truehi"]
    [HFail AttributeError (* atr.py:33 *)].
(* atr.py:36 *)
Definition b_truelow : body :=
  mkBody "truelow" ["low"; "close"] ["truelo"]
    [HOp ["t1"] ["i.close"; "i.low"] (* atr.py:59 *);
     HWrap "o.truelo" "t1" "truelo" (* atr.py:59 *)].
(* atr.py:62 *)
Definition b_truerange : body :=
  mkBody "truerange" ["high"; "low"; "close"] ["tr"]
    [HOp ["t1"] ["i.close"] (* atr.py:89 *);
     HBind "close1" "t1" (* atr.py:89 *);
     HOp ["t2"] ["close1"; "i.high"] (* atr.py:90 *);
     HBind "truehi" "t2" (* atr.py:90 *);
     HOp ["t3"] ["close1"; "i.low"] (* atr.py:91 *);
     HBind "truelo" "t3" (* atr.py:91 *);
     HOp ["t4"] ["truehi"; "truelo"] (* atr.py:92 *);
     HWrap "o.tr" "t4" "tr" (* atr.py:92 *)].
(* atr.py:95 *)
Definition b_atr : body :=
  mkBody "atr" ["high"; "low"; "close"] ["atr"]
    [HOp ["t1"] ["i.close"] (* atr.py:89 *);
     HBind "close1" "t1" (* atr.py:89 *);
     HOp ["t2"] ["close1"; "i.high"] (* atr.py:90 *);
     HBind "truehi" "t2" (* atr.py:90 *);
     HOp ["t3"] ["close1"; "i.low"] (* atr.py:91 *);
     HBind "truelo" "t3" (* atr.py:91 *);
     HOp ["t4"] ["truehi"; "truelo"] (* atr.py:92 *);
     HWrap "o.atr" "t4" "atr" (* atr.py:92 *);
     HOp ["t5"] ["o.atr"] (* atr.py:119 *);
     HWrap "o.atr" "t5" "atr" (* atr.py:119 *)].
(* atr.py:122 *)
Definition b_natr : body :=
  mkBody "natr" ["high"; "low"; "close"] ["natr"]
    [HOp ["t1"] ["i.close"] (* atr.py:89 *);
     HBind "close1" "t1" (* atr.py:89 *);
     HOp ["t2"] ["close1"; "i.high"] (* atr.py:90 *);
     HBind "truehi" "t2" (* atr.py:90 *);
     HOp ["t3"] ["close1"; "i.low"] (* atr.py:91 *);
     HBind "truelo" "t3" (* atr.py:91 *);
     HOp ["t4"] ["truehi"; "truelo"] (* atr.py:92 *);
     HWrap "o.tr" "t4" "tr" (* atr.py:92 *);
     HOp ["t5"] ["o.tr"] (* atr.py:119 *);
     HWrap "o.natr" "t5" "natr" (* atr.py:119 *);
     HOp ["t6"] ["o.natr"; "i.close"] (* atr.py:138 *);
     HWrap "o.natr" "t6" "natr" (* atr.py:138 *)].
(* aroon.py:42 *)
Definition b_aroon : body :=
  mkBody "aroon" ["high"; "low"] ["aroondn"; "aroonup"]
    [HOp ["t1"] ["i.high"] (* aroon.py:35 *);
     HBind "hhidx" "t1" (* aroon.py:35 *);
     HOp ["t2"] ["hhidx"] (* aroon.py:36 *);
     HBind "self._aup" "t2" (* aroon.py:36 *);
     HOp ["t3"] ["i.low"] (* aroon.py:38 *);
     HBind "llidx" "t3" (* aroon.py:38 *);
     HOp ["t4"] ["llidx"] (* aroon.py:39 *);
     HBind "self._adn" "t4" (* aroon.py:39 *);
     HWrap "o.aroondn" "self._adn" "aroondn" (* aroon.py:69 *);
     HWrap "o.aroonup" "self._aup" "aroonup" (* aroon.py:70 *)].
(* aroon.py:73 *)
Definition b_aroonosc : body :=
  mkBody "aroonosc" ["high"; "low"] ["aroonosc"]
    [HOp ["t1"] ["i.high"] (* aroon.py:35 *);
     HBind "hhidx" "t1" (* aroon.py:35 *);
     HOp ["t2"] ["hhidx"] (* aroon.py:36 *);
     HBind "self._aup" "t2" (* aroon.py:36 *);
     HOp ["t3"] ["i.low"] (* aroon.py:38 *);
     HBind "llidx" "t3" (* aroon.py:38 *);
     HOp ["t4"] ["llidx"] (* aroon.py:39 *);
     HBind "self._adn" "t4" (* aroon.py:39 *);
     HOp ["t5"] ["self._aup"; "self._adn"] (* aroon.py:90 *);
     HWrap "o.aroonosc" "t5" "aroonosc" (* aroon.py:90 *)].
(* bop.py:10 *)
Definition b_bop : body :=
  mkBody "bop" ["open"; "high"; "low"; "close"] ["bop"]
    [HOp ["t1"] ["i.close"; "i.open"; "i.high"; "i.low"] (* bop.py:32 *);
     HWrap "o.bop" "t1" "bop" (* bop.py:32 *)].
(* cci.py:10 *)
Definition b_cci : body :=
  mkBody "cci" ["high"; "low"; "close"] ["cci"]
    [HOp ["t1"] ["i.high"; "i.low"; "i.close"] (* cci.py:38 *);
     HBind "tp" "t1" (* cci.py:38 *);
     HOp ["t2"] ["tp"] (* cci.py:39 *);
     HBind "tpmean" "t2" (* cci.py:39 *);
     HOp ["t3"] ["tp"] (* cci.py:40 *);
     HBind "madev" "t3" (* cci.py:40 *);
     HOp ["t4"] ["tp"; "tpmean"; "madev"] (* cci.py:41 *);
     HWrap "o.cci" "t4" "cci" (* cci.py:41 *)].
(* cmo.py:10 *)
Definition b_cmo : body :=
  mkBody "cmo" ["close"] ["cmo"]
    [HOp ["t1"] ["i.close"] (* cmo.py:33 *);
     HBind "cdiff" "t1" (* cmo.py:33 *);
     HOp ["t2"] ["cdiff"] (* cmo.py:34 *);
     HBind "updays" "t2" (* cmo.py:34 *);
     HOp ["t3"] ["cdiff"] (* cmo.py:35 *);
     HBind "dodays" "t3" (* cmo.py:35 *);
     HOp ["t4"] ["updays"; "dodays"] (* cmo.py:36 *);
     HWrap "o.cmo" "t4" "cmo" (* cmo.py:36 *)].
(* directionalmove.py:10 *)
Definition b_smacc : body :=
  mkBody "smacc" ["close"] ["smacc"]
    [HBind "_ewm" "i.close" (* directionalmove.py:51 *);
     HOp ["t1"] ["_ewm"] (* directionalmove.py:52 *);
     HWrap "o.smacc" "t1" "smacc" (* directionalmove.py:52 *)].
(* directionalmove.py:109 *)
Definition b_plus_dm : body :=
  mkBody "plus_dm" ["high"; "low"] ["plusdm"]
    [HOp ["t1"] ["i.high"] (* directionalmove.py:92 *);
     HBind "upmove" "t1" (* directionalmove.py:92 *);
     HOp ["t2"] ["i.low"] (* directionalmove.py:93 *);
     HBind "downmove" "t2" (* directionalmove.py:93 *);
     HOp ["t3"] ["upmove"; "downmove"] (* directionalmove.py:96 *);
     HBind "pdm" "t3" (* directionalmove.py:96 *);
     HOp ["t4"] ["pdm"] (* directionalmove.py:97 *);
     HBind "self._pdm" "t4" (* directionalmove.py:97 *);
     HWrap "o.plusdm" "self._pdm" "plusdm" (* directionalmove.py:139 *)].
(* directionalmove.py:142 *)
Definition b_minus_dm : body :=
  mkBody "minus_dm" ["high"; "low"] ["minusdm"]
    [HOp ["t1"] ["i.high"] (* directionalmove.py:92 *);
     HBind "upmove" "t1" (* directionalmove.py:92 *);
     HOp ["t2"] ["i.low"] (* directionalmove.py:93 *);
     HBind "downmove" "t2" (* directionalmove.py:93 *);
     HOp ["t3"] ["downmove"; "upmove"] (* directionalmove.py:100 *);
     HBind "mdm" "t3" (* directionalmove.py:100 *);
     HOp ["t4"] ["mdm"] (* directionalmove.py:101 *);
     HBind "self._mdm" "t4" (* directionalmove.py:101 *);
     HWrap "o.minusdm" "self._mdm" "minusdm" (* directionalmove.py:173 *)].
(* directionalmove.py:176 *)
Definition b_dm : body :=
  mkBody "dm" ["high"; "low"] ["plusdm"; "minusdm"]
    [HOp ["t1"] ["i.high"] (* directionalmove.py:92 *);
     HBind "upmove" "t1" (* directionalmove.py:92 *);
     HOp ["t2"] ["i.low"] (* directionalmove.py:93 *);
     HBind "downmove" "t2" (* directionalmove.py:93 *);
     HOp ["t3"] ["upmove"; "downmove"] (* directionalmove.py:96 *);
     HBind "pdm" "t3" (* directionalmove.py:96 *);
     HOp ["t4"] ["pdm"] (* directionalmove.py:97 *);
     HBind "self._pdm" "t4" (* directionalmove.py:97 *);
     HOp ["t5"] ["downmove"; "upmove"] (* directionalmove.py:100 *);
     HBind "mdm" "t5" (* directionalmove.py:100 *);
     HOp ["t6"] ["mdm"] (* directionalmove.py:101 *);
     HBind "self._mdm" "t6" (* directionalmove.py:101 *);
     HWrap "o.plusdm" "self._pdm" "plusdm" (* directionalmove.py:209 *);
     HWrap "o.minusdm" "self._mdm" "minusdm" (* directionalmove.py:210 *)].
(* directionalmove.py:267 *)
Definition b_plus_di : body :=
  mkBody "plus_di" ["high"; "low"; "close"] ["plusdi"]
    [HOp ["t1"] ["i.high"] (* directionalmove.py:92 *);
     HBind "upmove" "t1" (* directionalmove.py:92 *);
     HOp ["t2"] ["i.low"] (* directionalmove.py:93 *);
     HBind "downmove" "t2" (* directionalmove.py:93 *);
     HOp ["t3"] ["upmove"; "downmove"] (* directionalmove.py:96 *);
     HBind "pdm" "t3" (* directionalmove.py:96 *);
     HOp ["t4"] ["pdm"] (* directionalmove.py:97 *);
     HBind "self._pdm" "t4" (* directionalmove.py:97 *);
     HOp ["t5"] ["i.high"; "i.low"; "i.close"] (* directionalmove.py:251 *);
     HBind "tr" "t5" (* directionalmove.py:251 *);
     HOp ["t6"] ["tr"] (* directionalmove.py:252 *);
     HBind "trp" "t6" (* directionalmove.py:252 *);
     HPeriod "trp" [] false (* directionalmove.py:254 *);
     HOp ["t7"] ["self._pdm"; "trp"] (* directionalmove.py:257 *);
     HBind "self._pdi" "t7" (* directionalmove.py:257 *);
     HWrap "o.plusdi" "self._pdi" "plusdi" (* directionalmove.py:296 *)].
(* directionalmove.py:299 *)
Definition b_minus_di : body :=
  mkBody "minus_di" ["high"; "low"; "close"] ["minusdi"]
    [HOp ["t1"] ["i.high"] (* directionalmove.py:92 *);
     HBind "upmove" "t1" (* directionalmove.py:92 *);
     HOp ["t2"] ["i.low"] (* directionalmove.py:93 *);
     HBind "downmove" "t2" (* directionalmove.py:93 *);
     HOp ["t3"] ["downmove"; "upmove"] (* directionalmove.py:100 *);
     HBind "mdm" "t3" (* directionalmove.py:100 *);
     HOp ["t4"] ["mdm"] (* directionalmove.py:101 *);
     HBind "self._mdm" "t4" (* directionalmove.py:101 *);
     HOp ["t5"] ["i.high"; "i.low"; "i.close"] (* directionalmove.py:251 *);
     HBind "tr" "t5" (* directionalmove.py:251 *);
     HOp ["t6"] ["tr"] (* directionalmove.py:252 *);
     HBind "trp" "t6" (* directionalmove.py:252 *);
     HPeriod "trp" [] false (* directionalmove.py:254 *);
     HOp ["t7"] ["self._mdm"; "trp"] (* directionalmove.py:260 *);
     HBind "self._mdi" "t7" (* directionalmove.py:260 *);
     HWrap "o.minusdi" "self._mdi" "minusdi" (* directionalmove.py:328 *)].
(* directionalmove.py:331 *)
Definition b_di : body :=
  mkBody "di" ["high"; "low"; "close"] ["plusdi"; "minusdi"]
    [HOp ["t1"] ["i.high"] (* directionalmove.py:92 *);
     HBind "upmove" "t1" (* directionalmove.py:92 *);
     HOp ["t2"] ["i.low"] (* directionalmove.py:93 *);
     HBind "downmove" "t2" (* directionalmove.py:93 *);
     HOp ["t3"] ["upmove"; "downmove"] (* directionalmove.py:96 *);
     HBind "pdm" "t3" (* directionalmove.py:96 *);
     HOp ["t4"] ["pdm"] (* directionalmove.py:97 *);
     HBind "self._pdm" "t4" (* directionalmove.py:97 *);
     HOp ["t5"] ["downmove"; "upmove"] (* directionalmove.py:100 *);
     HBind "mdm" "t5" (* directionalmove.py:100 *);
     HOp ["t6"] ["mdm"] (* directionalmove.py:101 *);
     HBind "self._mdm" "t6" (* directionalmove.py:101 *);
     HOp ["t7"] ["i.high"; "i.low"; "i.close"] (* directionalmove.py:251 *);
     HBind "tr" "t7" (* directionalmove.py:251 *);
     HOp ["t8"] ["tr"] (* directionalmove.py:252 *);
     HBind "trp" "t8" (* directionalmove.py:252 *);
     HPeriod "trp" [] false (* directionalmove.py:254 *);
     HOp ["t9"] ["self._pdm"; "trp"] (* directionalmove.py:257 *);
     HBind "self._pdi" "t9" (* directionalmove.py:257 *);
     HOp ["t10"] ["self._mdm"; "trp"] (* directionalmove.py:260 *);
     HBind "self._mdi" "t10" (* directionalmove.py:260 *);
     HWrap "o.plusdi" "self._pdi" "plusdi" (* directionalmove.py:363 *);
     HWrap "o.minusdi" "self._mdi" "minusdi" (* directionalmove.py:364 *)].
(* directionalmove.py:367 *)
Definition b_dx : body :=
  mkBody "dx" ["high"; "low"; "close"] ["dx"]
    [HOp ["t1"] ["i.high"] (* directionalmove.py:92 *);
     HBind "upmove" "t1" (* directionalmove.py:92 *);
     HOp ["t2"] ["i.low"] (* directionalmove.py:93 *);
     HBind "downmove" "t2" (* directionalmove.py:93 *);
     HOp ["t3"] ["upmove"; "downmove"] (* directionalmove.py:96 *);
     HBind "pdm" "t3" (* directionalmove.py:96 *);
     HOp ["t4"] ["pdm"] (* directionalmove.py:97 *);
     HBind "self._pdm" "t4" (* directionalmove.py:97 *);
     HOp ["t5"] ["downmove"; "upmove"] (* directionalmove.py:100 *);
     HBind "mdm" "t5" (* directionalmove.py:100 *);
     HOp ["t6"] ["mdm"] (* directionalmove.py:101 *);
     HBind "self._mdm" "t6" (* directionalmove.py:101 *);
     HOp ["t7"] ["i.high"; "i.low"; "i.close"] (* directionalmove.py:251 *);
     HBind "tr" "t7" (* directionalmove.py:251 *);
     HOp ["t8"] ["tr"] (* directionalmove.py:252 *);
     HBind "trp" "t8" (* directionalmove.py:252 *);
     HPeriod "trp" [] false (* directionalmove.py:254 *);
     HOp ["t9"] ["self._pdm"; "trp"] (* directionalmove.py:257 *);
     HBind "self._pdi" "t9" (* directionalmove.py:257 *);
     HOp ["t10"] ["self._mdm"; "trp"] (* directionalmove.py:260 *);
     HBind "self._mdi" "t10" (* directionalmove.py:260 *);
     HOp ["t11"] ["self._pdi"; "self._mdi"] (* directionalmove.py:400 *);
     HWrap "o.dx" "t11" "dx" (* directionalmove.py:400 *)].
(* directionalmove.py:403 *)
Definition b_adx : body :=
  mkBody "adx" ["high"; "low"; "close"] ["adx"]
    [HOp ["t1"] ["i.high"] (* directionalmove.py:92 *);
     HBind "upmove" "t1" (* directionalmove.py:92 *);
     HOp ["t2"] ["i.low"] (* directionalmove.py:93 *);
     HBind "downmove" "t2" (* directionalmove.py:93 *);
     HOp ["t3"] ["upmove"; "downmove"] (* directionalmove.py:96 *);
     HBind "pdm" "t3" (* directionalmove.py:96 *);
     HOp ["t4"] ["pdm"] (* directionalmove.py:97 *);
     HBind "self._pdm" "t4" (* directionalmove.py:97 *);
     HOp ["t5"] ["downmove"; "upmove"] (* directionalmove.py:100 *);
     HBind "mdm" "t5" (* directionalmove.py:100 *);
     HOp ["t6"] ["mdm"] (* directionalmove.py:101 *);
     HBind "self._mdm" "t6" (* directionalmove.py:101 *);
     HOp ["t7"] ["i.high"; "i.low"; "i.close"] (* directionalmove.py:251 *);
     HBind "tr" "t7" (* directionalmove.py:251 *);
     HOp ["t8"] ["tr"] (* directionalmove.py:252 *);
     HBind "trp" "t8" (* directionalmove.py:252 *);
     HPeriod "trp" [] false (* directionalmove.py:254 *);
     HOp ["t9"] ["self._pdm"; "trp"] (* directionalmove.py:257 *);
     HBind "self._pdi" "t9" (* directionalmove.py:257 *);
     HOp ["t10"] ["self._mdm"; "trp"] (* directionalmove.py:260 *);
     HBind "self._mdi" "t10" (* directionalmove.py:260 *);
     HOp ["t11"] ["self._pdi"; "self._mdi"] (* directionalmove.py:400 *);
     HWrap "o.adx" "t11" "adx" (* directionalmove.py:400 *);
     HOp ["t12"] ["o.adx"] (* directionalmove.py:437 *);
     HWrap "o.adx" "t12" "adx" (* directionalmove.py:437 *)].
(* directionalmove.py:440 *)
Definition b_adxr : body :=
  mkBody "adxr" ["high"; "low"; "close"] ["adxr"]
    [HOp ["t1"] ["i.high"] (* directionalmove.py:92 *);
     HBind "upmove" "t1" (* directionalmove.py:92 *);
     HOp ["t2"] ["i.low"] (* directionalmove.py:93 *);
     HBind "downmove" "t2" (* directionalmove.py:93 *);
     HOp ["t3"] ["upmove"; "downmove"] (* directionalmove.py:96 *);
     HBind "pdm" "t3" (* directionalmove.py:96 *);
     HOp ["t4"] ["pdm"] (* directionalmove.py:97 *);
     HBind "self._pdm" "t4" (* directionalmove.py:97 *);
     HOp ["t5"] ["downmove"; "upmove"] (* directionalmove.py:100 *);
     HBind "mdm" "t5" (* directionalmove.py:100 *);
     HOp ["t6"] ["mdm"] (* directionalmove.py:101 *);
     HBind "self._mdm" "t6" (* directionalmove.py:101 *);
     HOp ["t7"] ["i.high"; "i.low"; "i.close"] (* directionalmove.py:251 *);
     HBind "tr" "t7" (* directionalmove.py:251 *);
     HOp ["t8"] ["tr"] (* directionalmove.py:252 *);
     HBind "trp" "t8" (* directionalmove.py:252 *);
     HPeriod "trp" [] false (* directionalmove.py:254 *);
     HOp ["t9"] ["self._pdm"; "trp"] (* directionalmove.py:257 *);
     HBind "self._pdi" "t9" (* directionalmove.py:257 *);
     HOp ["t10"] ["self._mdm"; "trp"] (* directionalmove.py:260 *);
     HBind "self._mdi" "t10" (* directionalmove.py:260 *);
     HOp ["t11"] ["self._pdi"; "self._mdi"] (* directionalmove.py:400 *);
     HWrap "o.dx" "t11" "dx" (* directionalmove.py:400 *);
     HOp ["t12"] ["o.dx"] (* directionalmove.py:437 *);
     HWrap "o.adxr" "t12" "adxr" (* directionalmove.py:437 *);
     HOp ["t13"] ["o.adxr"] (* directionalmove.py:462 *);
     HWrap "o.adxr" "t13" "adxr" (* directionalmove.py:462 *)].
(* macd.py:10 *)
Definition b_macd : body :=
  mkBody "macd" ["close"] ["macd"; "signal"; "histogram"]
    [HOp ["t1"] ["i.close"] (* macd.py:40 *);
     HBind "ma1" "t1" (* macd.py:40 *);
     HOp ["t2"] ["i.close"] (* macd.py:41 *);
     HBind "ma2" "t2" (* macd.py:41 *);
     HOp ["t3"] ["ma1"; "ma2"] (* macd.py:42 *);
     HWrap "o.macd" "t3" "macd" (* macd.py:42 *);
     HOp ["t4"] ["o.macd"] (* macd.py:45 *);
     HWrap "o.signal" "t4" "signal" (* macd.py:45 *);
     HOp ["t5"] ["o.macd"; "o.signal"] (* macd.py:47 *);
     HWrap "o.histogram" "t5" "histogram" (* macd.py:47 *)].
(* mfi.py:10 *)
Definition b_mfi : body :=
  mkBody "mfi" ["high"; "low"; "close"; "volume"] ["mfi"]
    [HOp ["t1"] ["i.high"; "i.low"; "i.close"] (* mfi.py:40 *);
     HBind "tprice" "t1" (* mfi.py:40 *);
     HOp ["t2"] ["tprice"; "i.volume"] (* mfi.py:41 *);
     HBind "mfraw" "t2" (* mfi.py:41 *);
     HOp ["t3"] ["mfraw"; "tprice"] (* mfi.py:42 *);
     HBind "flowpos" "t3" (* mfi.py:42 *);
     HOp ["t4"] ["mfraw"; "tprice"] (* mfi.py:43 *);
     HBind "flowneg" "t4" (* mfi.py:43 *);
     HOp ["t5"] ["flowpos"; "flowneg"] (* mfi.py:44 *);
     HWrap "o.mfi" "t5" "mfi" (* mfi.py:44 *)].
(* mom.py:10 *)
Definition b_mom : body :=
  mkBody "mom" ["close"] ["mom"]
    [HOp ["t1"] ["i.close"] (* mom.py:31 *);
     HWrap "o.mom" "t1" "mom" (* mom.py:31 *)].
(* ppo.py:32 *)
Definition b_apo : body :=
  mkBody "apo" ["close"] ["apo"]
    [HOp ["t1"] ["i.close"] (* ppo.py:22 *);
     HBind "self.ma1" "t1" (* ppo.py:22 *);
     HOp ["t2"] ["i.close"] (* ppo.py:23 *);
     HBind "self.ma2" "t2" (* ppo.py:23 *);
     HOp ["t3"] ["self.ma1"; "self.ma2"] (* ppo.py:49 *);
     HWrap "o.apo" "t3" "apo" (* ppo.py:49 *)].
(* ppo.py:52 *)
Definition b_ppo : body :=
  mkBody "ppo" ["close"] ["ppo"; "signal"; "histogram"]
    [HOp ["t1"] ["i.close"] (* ppo.py:22 *);
     HBind "self.ma1" "t1" (* ppo.py:22 *);
     HOp ["t2"] ["i.close"] (* ppo.py:23 *);
     HBind "self.ma2" "t2" (* ppo.py:23 *);
     HOp ["t3"] ["self.ma1"; "self.ma2"] (* ppo.py:77 *);
     HWrap "o.ppo" "t3" "ppo" (* ppo.py:77 *);
     HOp ["t4"] ["o.ppo"] (* ppo.py:79 *);
     HWrap "o.signal" "t4" "signal" (* ppo.py:79 *);
     HOp ["t5"] ["o.ppo"; "o.signal"] (* ppo.py:80 *);
     HWrap "o.histogram" "t5" "histogram" (* ppo.py:80 *)].
(* ppo.py:83 *)
Definition b_ppofast : body :=
  mkBody "ppofast" ["close"] ["ppo"; "signal"; "histogram"]
    [HOp ["t1"] ["i.close"] (* ppo.py:22 *);
     HBind "self.ma1" "t1" (* ppo.py:22 *);
     HOp ["t2"] ["i.close"] (* ppo.py:23 *);
     HBind "self.ma2" "t2" (* ppo.py:23 *);
     HBind "t3" "self.ma2" (* ppo.py:25 *);
     HBind "t4" "self.ma1" (* ppo.py:25 *);
     HBind "self.ma1" "t3" (* ppo.py:25 *);
     HBind "self.ma2" "t4" (* ppo.py:25 *);
     HOp ["t5"] ["self.ma1"; "self.ma2"] (* ppo.py:113 *);
     HWrap "o.ppo" "t5" "ppo" (* ppo.py:113 *);
     HOp ["t6"] ["o.ppo"] (* ppo.py:115 *);
     HWrap "o.signal" "t6" "signal" (* ppo.py:115 *);
     HOp ["t7"] ["o.ppo"; "o.signal"] (* ppo.py:116 *);
     HWrap "o.histogram" "t7" "histogram" (* ppo.py:116 *)].
(* roc.py:25 *)
Definition b_roc : body :=
  mkBody "roc" ["close"] ["roc"]
    [HOp ["t1"] ["i.close"] (* roc.py:18 *);
     HWrap "o.roc" "t1" "roc" (* roc.py:18 *);
     HOp ["t2"] ["o.roc"] (* roc.py:41 *);
     HWrap "o.roc" "t2" "roc" (* roc.py:41 *)].
(* roc.py:44 *)
Definition b_rocp : body :=
  mkBody "rocp" ["close"] ["rocp"]
    [HOp ["t1"] ["i.close"] (* roc.py:18 *);
     HWrap "o.rocp" "t1" "rocp" (* roc.py:18 *);
     HOp ["t2"] ["o.rocp"] (* roc.py:60 *);
     HWrap "o.rocp" "t2" "rocp" (* roc.py:60 *)].
(* roc.py:63 *)
Definition b_rocr : body :=
  mkBody "rocr" ["close"] ["rocr"]
    [HOp ["t1"] ["i.close"] (* roc.py:18 *);
     HWrap "o.rocr" "t1" "rocr" (* roc.py:18 *)].
(* roc.py:79 *)
Definition b_rocr100 : body :=
  mkBody "rocr100" ["close"] ["rocr100"]
    [HOp ["t1"] ["i.close"] (* roc.py:18 *);
     HWrap "o.rocr100" "t1" "rocr100" (* roc.py:18 *);
     HOp ["t2"] ["o.rocr100"] (* roc.py:95 *);
     HWrap "o.rocr100" "t2" "rocr100" (* roc.py:95 *)].
(* rsi.py:10 *)
Definition b_rsi : body :=
  mkBody "rsi" ["close"] ["rsi"]
    [HOp ["t1"] ["i.close"] (* rsi.py:43 *);
     HBind "upday" "t1" (* rsi.py:43 *);
     HOp ["t2"] ["i.close"] (* rsi.py:44 *);
     HBind "downday" "t2" (* rsi.py:44 *);
     HOp ["t3"] ["upday"] (* rsi.py:45 *);
     HBind "maup" "t3" (* rsi.py:45 *);
     HOp ["t4"] ["downday"] (* rsi.py:46 *);
     HBind "madown" "t4" (* rsi.py:46 *);
     HOp ["t5"] ["maup"; "madown"] (* rsi.py:47 *);
     HBind "rs" "t5" (* rsi.py:47 *);
     HOp ["t6"] ["rs"] (* rsi.py:48 *);
     HWrap "o.rsi" "t6" "rsi" (* rsi.py:48 *)].
(* sar.py:12 *)
Definition b_sar : body :=
  mkBody "sar" ["high"; "low"] ["sar"]
    [HOp ["t1"] ["i.high"] (* sar.py:38 *);
     HBind "sarbuf" "t1" (* sar.py:38 *);
     HApply ["t2"] "i.high" true false [("i.low", false); ("sarbuf", true)] (* sar.py:39 *);
     HBind "sar" "t2" (* sar.py:39 *);
     HPeriod "sar" [] false (* sar.py:40 *);
     HWrap "o.sar" "sar" "sar" (* sar.py:40 *)].
(* sarext.py:12 *)
Definition b_sarext : body :=
  mkBody "sarext" ["high"; "low"] ["sar"]
    [HOp ["t1"] ["i.high"] (* sarext.py:46 *);
     HBind "sarbuf" "t1" (* sarext.py:46 *);
     HApply ["t2"] "i.high" true false [("i.low", false); ("sarbuf", true)] (* sarext.py:47 *);
     HBind "sar" "t2" (* sarext.py:47 *);
     HPeriod "sar" [] false (* sarext.py:48 *);
     HWrap "o.sar" "sar" "sar" (* sarext.py:48 *)].
(* stochastic.py:10 *)
Definition b_stochf : body :=
  mkBody "stochf" ["high"; "low"; "close"] ["k"; "d"]
    [HOp ["t1"] ["i.high"] (* stochastic.py:42 *);
     HBind "hh" "t1" (* stochastic.py:42 *);
     HOp ["t2"] ["i.low"] (* stochastic.py:43 *);
     HBind "ll" "t2" (* stochastic.py:43 *);
     HOp ["t3"] ["i.close"; "ll"; "hh"] (* stochastic.py:44 *);
     HWrap "o.k" "t3" "k" (* stochastic.py:44 *);
     HOp ["t4"] ["o.k"] (* stochastic.py:45 *);
     HWrap "o.d" "t4" "d" (* stochastic.py:45 *)].
(* stochastic.py:52 *)
Definition b_stochastic : body :=
  mkBody "stochastic" ["high"; "low"; "close"] ["k"; "d"]
    [HOp ["t1"] ["i.high"] (* stochastic.py:42 *);
     HBind "hh" "t1" (* stochastic.py:42 *);
     HOp ["t2"] ["i.low"] (* stochastic.py:43 *);
     HBind "ll" "t2" (* stochastic.py:43 *);
     HOp ["t3"] ["i.close"; "ll"; "hh"] (* stochastic.py:44 *);
     HWrap "o.k" "t3" "k" (* stochastic.py:44 *);
     HOp ["t4"] ["o.k"] (* stochastic.py:45 *);
     HWrap "o.d" "t4" "d" (* stochastic.py:45 *);
     HWrap "o.k" "o.d" "k" (* stochastic.py:82 *);
     HBind "k" "o.d" (* stochastic.py:82 *);
     HOp ["t5"] ["k"] (* stochastic.py:83 *);
     HWrap "o.d" "t5" "d" (* stochastic.py:83 *)].
(* stochrsi.py:10 *)
Definition b_stochrsi : body :=
  mkBody "stochrsi" ["close"] ["stochrsi"; "d"]
    [HOp ["t1"] ["i.close"] (* stochrsi.py:45 *);
     HBind "r" "t1" (* stochrsi.py:45 *);
     HOp ["t2"] ["r"] (* stochrsi.py:46 *);
     HBind "maxrsi" "t2" (* stochrsi.py:46 *);
     HOp ["t3"] ["r"] (* stochrsi.py:47 *);
     HBind "minrsi" "t3" (* stochrsi.py:47 *);
     HOp ["t4"] ["r"; "minrsi"; "maxrsi"] (* stochrsi.py:48 *);
     HWrap "o.stochrsi" "t4" "stochrsi" (* stochrsi.py:48 *);
     HOp ["t5"] ["o.stochrsi"] (* stochrsi.py:51 *);
     HWrap "o.d" "t5" "d" (* stochrsi.py:51 *)].
(* stochrsi.py:10 *)
Definition b_stochrsi_1 : body :=
  mkBody "stochrsi" ["close"] ["stochrsi"]
    [HOp ["t1"] ["i.close"] (* stochrsi.py:45 *);
     HBind "r" "t1" (* stochrsi.py:45 *);
     HOp ["t2"] ["r"] (* stochrsi.py:46 *);
     HBind "maxrsi" "t2" (* stochrsi.py:46 *);
     HOp ["t3"] ["r"] (* stochrsi.py:47 *);
     HBind "minrsi" "t3" (* stochrsi.py:47 *);
     HOp ["t4"] ["r"; "minrsi"; "maxrsi"] (* stochrsi.py:48 *);
     HWrap "o.stochrsi" "t4" "stochrsi" (* stochrsi.py:48 *)].
(* williamsr.py:10 *)
Definition b_williamsr : body :=
  mkBody "williamsr" ["high"; "low"; "close"] ["r"]
    [HOp ["t1"] ["i.high"] (* williamsr.py:35 *);
     HBind "hh" "t1" (* williamsr.py:35 *);
     HOp ["t2"] ["i.low"] (* williamsr.py:36 *);
     HBind "ll" "t2" (* williamsr.py:36 *);
     HOp ["t3"] ["hh"; "i.close"; "ll"] (* williamsr.py:37 *);
     HWrap "o.r" "t3" "r" (* williamsr.py:37 *)].
(* ultimateoscillator.py:10 *)
Definition b_ultimateoscillator : body :=
  mkBody "ultimateoscillator" ["high"; "low"; "close"] ["uo"]
    [HOp ["t1"] ["i.close"; "i.low"] (* ultimateoscillator.py:42 *);
     HBind "bp" "t1" (* ultimateoscillator.py:42 *);
     HOp ["t2"] ["i.high"; "i.low"; "i.close"] (* ultimateoscillator.py:43 *);
     HBind "tr" "t2" (* ultimateoscillator.py:43 *);
     HOp ["t3"] ["bp"; "tr"] (* ultimateoscillator.py:45 *);
     HBind "av1" "t3" (* ultimateoscillator.py:45 *);
     HOp ["t4"] ["bp"; "tr"] (* ultimateoscillator.py:46 *);
     HBind "av2" "t4" (* ultimateoscillator.py:46 *);
     HOp ["t5"] ["bp"; "tr"] (* ultimateoscillator.py:47 *);
     HBind "av3" "t5" (* ultimateoscillator.py:47 *);
     HOp ["t6"] ["av1"] (* ultimateoscillator.py:50 *);
     HBind "uo1" "t6" (* ultimateoscillator.py:50 *);
     HOp ["t7"] ["av2"] (* ultimateoscillator.py:51 *);
     HBind "uo2" "t7" (* ultimateoscillator.py:51 *);
     HOp ["t8"] ["av3"] (* ultimateoscillator.py:52 *);
     HBind "uo3" "t8" (* ultimateoscillator.py:52 *);
     HOp ["t9"] ["uo1"; "uo2"; "uo3"] (* ultimateoscillator.py:54 *);
     HWrap "o.uo" "t9" "uo" (* ultimateoscillator.py:54 *)].
(* ad.py:10 *)
Definition b_ad : body :=
  mkBody "ad" ["high"; "low"; "close"; "volume"] ["ad"]
    [HOp ["t1"] ["i.high"; "i.low"] (* ad.py:33 *);
     HBind "hilo" "t1" (* ad.py:33 *);
     HOp ["t2"] ["i.close"; "i.high"; "i.low"; "hilo"] (* ad.py:35 *);
     HBind "mfm" "t2" (* ad.py:35 *);
     HOp ["t3"] ["mfm"; "i.volume"] (* ad.py:36 *);
     HBind "mfv" "t3" (* ad.py:36 *);
     HOp ["t4"] ["mfv"] (* ad.py:37 *);
     HWrap "o.ad" "t4" "ad" (* ad.py:37 *)].
(* ad.py:40 *)
Definition b_adosc : body :=
  mkBody "adosc" ["high"; "low"; "close"; "volume"] ["adosc"]
    [HOp ["t1"] ["i.high"; "i.low"] (* ad.py:33 *);
     HBind "hilo" "t1" (* ad.py:33 *);
     HOp ["t2"] ["i.close"; "i.high"; "i.low"; "hilo"] (* ad.py:35 *);
     HBind "mfm" "t2" (* ad.py:35 *);
     HOp ["t3"] ["mfm"; "i.volume"] (* ad.py:36 *);
     HBind "mfv" "t3" (* ad.py:36 *);
     HOp ["t4"] ["mfv"] (* ad.py:37 *);
     HWrap "o.adosc" "t4" "adosc" (* ad.py:37 *);
     HOp ["t5"] ["o.adosc"] (* ad.py:61 *);
     HBind "ma3" "t5" (* ad.py:61 *);
     HOp ["t6"] ["o.adosc"] (* ad.py:62 *);
     HBind "ma10" "t6" (* ad.py:62 *);
     HOp ["t7"] ["ma3"; "ma10"] (* ad.py:63 *);
     HWrap "o.adosc" "t7" "adosc" (* ad.py:63 *)].
(* obv.py:12 *)
Definition b_obv : body :=
  mkBody "obv" ["close"; "volume"] ["obv"]
    [HOp ["t1"] ["i.close"] (* obv.py:43 *);
     HBind "close1" "t1" (* obv.py:43 *);
     HPeriod "close1" [] true (* obv.py:47 *);
     HOp ["t2"] ["i.volume"; "close1"] (* obv.py:49 *);
     HWrap "o.obv" "t2" "obv" (* obv.py:49 *)].
(* obv.py:12 *)
Definition b_obv_1 : body :=
  mkBody "obv" ["close"; "volume"] ["obv"]
    [HOp ["t1"] ["i.close"] (* obv.py:43 *);
     HBind "close1" "t1" (* obv.py:43 *);
     HOp ["t2"] ["i.volume"; "close1"] (* obv.py:49 *);
     HWrap "o.obv" "t2" "obv" (* obv.py:49 *)].

Definition bodies : list body :=
  [b_avgprice; b_typprice; b_wclprice; b_medprice; b_add; b_div; b_mult; b_sub; b_max; b_min; b_minmax; b_maxindex; b_minindex; b_minmaxindex; b_sum; b_sin; b_cos; b_tan; b_sinh; b_cosh; b_tanh; b_asin; b_acos; b_atan; b_ceil; b_exp; b_floor; b_ln; b_log10; b_sqrt; b_crossup; b_crossup_1; b_crossdown; b_crossdown_1; b_crossover; b_crossover_1; b_ewma; b_sma; b_ema; b_smma; b_wma; b_dema; b_kama; b_tema; b_trima; b_trix; b_gdema; b_t3; b_t3_1; b_mavp; b_mavp_1; b_mama; b_mama_1; b_ht_trendline; b_ht_trendline_1; b_midprice; b_midpoint; b_ht_dcperiod; b_ht_dcperiod_1; b_ht_dcphase; b_ht_dcphase_1; b_ht_phasor; b_ht_phasor_1; b_ht_sine; b_ht_sine_1; b_ht_trendmode; b_ht_trendmode_1; b_beta; b_beta_1; b_correl; b_linearreg_slope; b_linearreg_angle; b_linearreg_intercept; b_linearreg; b_tsf; b_mad; b_stddev; b_stddev_s; b_var; b_var_s; b_bbands; b_truehigh; b_truelow; b_truerange; b_atr; b_natr; b_aroon; b_aroonosc; b_bop; b_cci; b_cmo; b_smacc; b_plus_dm; b_minus_dm; b_dm; b_plus_di; b_minus_di; b_di; b_dx; b_adx; b_adxr; b_macd; b_mfi; b_mom; b_apo; b_ppo; b_ppofast; b_roc; b_rocp; b_rocr; b_rocr100; b_rsi; b_sar; b_sarext; b_stochf; b_stochastic; b_stochrsi; b_stochrsi_1; b_williamsr; b_ultimateoscillator; b_ad; b_adosc; b_obv; b_obv_1].
