(** Property theorems C138: prices that do not move, in double precision.
    Models: IndBasic.v, IndOsc.v, IndRange.v, IndStat.v, Float64.v; vocabulary: Spec.v, FloatSpec.v, FlatSpec.v.
    [feeds a n k (fun _ => c)]: the line [a] has [n] bars and its delivered bars, those from [k] on, all hold [c]. *)
From Coq Require Import ZArith Reals List Bool Lia Lra.
From Flocq Require Import Core IEEE754.BinarySingleNaN.
From Verif Require Import Num Series Line Spec LineFacts IndMA IndBasic IndStat IndRange IndOsc Float64 FloatSpec FloatFacts EmaFloat FlatSpec FlatFloat.
Import ListNotations.
Local Open Scope R_scope.

(** ** C138: momentum is 0, rates of change are 0 or 1 (100), exactly *)
Theorem C138_momentum :
  forall n k (c : float) p (a : line float), finite c -> feeds a n k (fun _ => c) ->
    delivers (mom p a) n (k + p) (fun _ => v0).
Proof. exact flat_mom_stmt. Qed.
Print Assumptions C138_momentum.
Theorem C138_rate_of_change :
  forall n k (c : float) p (a : line float), finite c -> val c <> 0 -> (1 <= p)%nat -> feeds a n k (fun _ => c) ->
    delivers (rocr p a) n (k + p) (fun _ => v1) /\ delivers (rocr100 p a) n (k + p) (fun _ => vofZ 100) /\
    delivers (rocp p a) n (k + p) (fun _ => v0) /\ delivers (roc p a) n (k + p) (fun _ => v0).
Proof. exact flat_roc_stmt. Qed.
Print Assumptions C138_rate_of_change.
Example C138_met : feeds (raw (repeat (vofZ 3 : float) 5)) 5 0 (fun _ => vofZ 3) /\ finite (vofZ 3) /\ val (vofZ 3) <> 0.
Proof.
  split; [apply raw_const|]. destruct (fofZ_exact 3) as [F V]; [vm_compute; discriminate|]. split; [exact F|]. rewrite V. lra.
Qed.
(** the average of nothing is nothing *)
Theorem C138_averages :
  keeps_nothing (fun p a => Ok (sma p a)) /\ keeps_nothing (fun p a => Ok (sumn p a)) /\
  (forall sd, keeps_nothing (fun p a => ema_full p sd 0 a)) /\
  (forall sd, keeps_nothing (fun p a => smma_seed p sd a)) /\
  (forall adjust, keeps_nothing (fun p a => Ok (ewma p adjust a))) /\
  keeps_nothing (fun p a => Ok (wma p a)) /\
  keeps_nothing (fun p a => Ok (trima p a)).
Proof. exact averages_nil. Qed.
Print Assumptions C138_averages.
(** the oscillators that compare gains and losses have nothing to compare: missing at every bar *)
Theorem C138_strength :
  forall n k (c : float) ma p q (a y : line float), finite c -> feeds a n k (fun _ => c) -> keeps_nothing ma -> (1 <= p)%nat ->
    (rsi ma p q a = Ok y -> every missing y) /\ (cmo ma p a = Ok y -> every missing y).
Proof. exact flat_strength_stmt. Qed.
Print Assumptions C138_strength.
Example C138_strength_met : exists y : line float, rsi smma 2 1 (raw (repeat (vofZ 3 : float) 5)) = Ok y /\ keeps_nothing smma.
Proof. eexists. split; [reflexivity|]. apply averages_nil. Qed.
(** bars whose prices are all equal: no range, no position within the range, no direction *)
Theorem C138_range :
  forall n k (c : float) (h l cl : line float), finite c ->
    feeds h n k (fun _ => c) -> feeds l n k (fun _ => c) -> feeds cl n k (fun _ => c) ->
    (forall q, (1 <= q)%nat -> delivers (truerange q h l cl) n (k + q) (fun _ => v0)) /\
    (forall ma p q y, keeps_nothing ma -> (1 <= p)%nat -> (1 <= q)%nat ->
       (atr ma p q h l cl = Ok y -> every nothing y) /\ (natr ma p q h l cl = Ok y -> every nothing y)) /\
    (forall p, (1 <= p)%nat -> every missing (stoch_k p h l cl) /\ every missing (williamsr p h l cl)) /\
    (forall o, feeds o n k (fun _ => c) -> every missing (bop o h l cl)) /\
    (forall sm q y, (forall a z, every nothing a -> sm a = Ok z -> every nothing z) -> (1 <= q)%nat ->
       (plus_di sm q h l cl = Ok y -> every missing y) /\ (minus_di sm q h l cl = Ok y -> every missing y)).
Proof. exact flat_range_stmt. Qed.
Print Assumptions C138_range.
Example C138_range_met : exists y : line float, atr smma 2 1 (raw (repeat (vofZ 3 : float) 5)) (raw (repeat (vofZ 3 : float) 5)) (raw (repeat (vofZ 3 : float) 5)) = Ok y.
Proof. eexists. reflexivity. Qed.
(** but the indicators that compare a price with an average of it see a movement in prices that stay at 10.01, at every
    bar: macd is positive and never decays, *)
Theorem C138_macd_refuted :
  forall n, (34 <= n)%nat -> exists m s d (v : float),
    macd ema ema 12 26 9 (raw (repeat (vofQ (QArith_base.Qmake 1001 100)) n)) = Ok (m, s, d) /\
    finite v /\ 0 < val v /\ delivers m n 25 (fun _ => v).
Proof. exact macd_flat'. Qed.
Print Assumptions C138_macd_refuted.
(** cci is above 66, *)
Theorem C138_cci_refuted :
  forall n (a := raw (repeat (vofQ (QArith_base.Qmake 1001 100) : float) n)), exists y v,
    cci 20 (vofQ (QArith_base.Qmake 15 1000)) (fun p b => Ok (sma p b)) (fun p b => Ok (sma p b)) a a a = Ok y /\
    finite v /\ 66 < val v /\ delivers y n 19 (fun _ => v).
Proof. exact cci_flat'. Qed.
Print Assumptions C138_cci_refuted.
(** and the slope of the regression line is negative *)
Theorem C138_slope_refuted :
  forall n, exists v : float, finite v /\ val v < 0 /\
    delivers (linearreg_slope 14 (raw (repeat (vofQ (QArith_base.Qmake 1001 100)) n))) n 13 (fun _ => v).
Proof. exact slope_flat'. Qed.
Print Assumptions C138_slope_refuted.
Example C138_refuted_met : (34 <= 100)%nat. Proof. lia. Qed.
