(** Notions used in the statements about help texts, and the two lists of what is wrong in those of the package. *)
From Coq Require Import List String Bool ZArith.
From Verif Require Import Series Py LinesGen Params ParamsFacts Docs.
Import ListNotations.
Local Open Scope string_scope.
Local Open Scope list_scope.

(** the classes made by class statements, one after the other, from class Indicator on *)
Inductive made (cn : nat -> option string) : hclass -> Prop :=
| made_root : made cn (root cn)
| made_declared : forall base s c, made cn base -> wf_decl (s_par s) -> declare cn base s = Ok c -> made cn c.

(** class, name listed as its alias which belongs to another class *)
Definition foreign_names : list (string * string) :=
  [("wclprice", "WCLPrice"); ("wclprice", "WeightedClosePrice"); ("wclprice", "WCLPRICE");
   ("wclprice", "weightedcloseprice"); ("truehigh", "TR"); ("truehigh", "TrueRange"); ("truehigh", "trange");
   ("truehigh", "TRANGE"); ("truelow", "TR"); ("truelow", "TrueRange"); ("truelow", "trange");
   ("truelow", "TRANGE"); ("sar", "SAR"); ("sar", "psar"); ("sar", "ParabolicStopAndReverse")].
(** class, parameter listed without description *)
Definition undescribed : list (string * string) :=
  [("sin", "degrees"); ("cos", "degrees"); ("tan", "degrees"); ("sinh", "degrees"); ("cosh", "degrees");
   ("tanh", "degrees"); ("asin", "degrees"); ("acos", "degrees"); ("atan", "degrees"); ("crossup", "_strict");
   ("crossdown", "_strict"); ("crossover", "_strict"); ("wma", "coef"); ("linearreg_slope", "period");
   ("linearreg_angle", "period"); ("linearreg_intercept", "period"); ("linearreg", "period"); ("tsf", "period");
   ("stddev_s", "period"); ("var_s", "period"); ("atr", "_period"); ("natr", "_period"); ("natr", "period");
   ("natr", "_ma"); ("aroon", "period"); ("aroonosc", "period"); ("plus_dm", "period"); ("plus_dm", "_period");
   ("plus_dm", "_pearly"); ("plus_dm", "_alt"); ("plus_dm", "_accum"); ("plus_dm", "_ma"); ("minus_dm", "period");
   ("minus_dm", "_period"); ("minus_dm", "_pearly"); ("minus_dm", "_alt"); ("minus_dm", "_accum");
   ("minus_dm", "_ma"); ("dm", "period"); ("dm", "_period"); ("dm", "_pearly"); ("dm", "_alt"); ("dm", "_accum");
   ("dm", "_ma"); ("_di", "period"); ("_di", "_period"); ("_di", "_pearly"); ("_di", "_alt"); ("_di", "_accum");
   ("_di", "_ma"); ("plus_di", "period"); ("plus_di", "_period"); ("plus_di", "_pearly"); ("plus_di", "_alt");
   ("plus_di", "_accum"); ("plus_di", "_ma"); ("minus_di", "period"); ("minus_di", "_period");
   ("minus_di", "_pearly"); ("minus_di", "_alt"); ("minus_di", "_accum"); ("minus_di", "_ma"); ("di", "period");
   ("di", "_period"); ("di", "_pearly"); ("di", "_alt"); ("di", "_accum"); ("di", "_ma"); ("dx", "period");
   ("dx", "_period"); ("dx", "_pearly"); ("dx", "_alt"); ("dx", "_accum"); ("dx", "_ma"); ("adx", "period");
   ("adx", "_period"); ("adx", "_pearly"); ("adx", "_alt"); ("adx", "_accum"); ("adx", "_ma"); ("adxr", "period");
   ("adxr", "_period"); ("adxr", "_pearly"); ("adxr", "_alt"); ("adxr", "_accum"); ("adxr", "_ma");
   ("apo", "pfast"); ("apo", "pslow"); ("apo", "_ma"); ("ppo", "pfast"); ("ppo", "pslow"); ("ppo", "_ma");
   ("ppofast", "pfast"); ("ppofast", "pslow"); ("ppofast", "_ma"); ("roc", "period"); ("rocp", "period");
   ("rocr", "period"); ("rocr100", "period"); ("stochastic", "period"); ("stochastic", "pfast");
   ("stochastic", "_ma")].
