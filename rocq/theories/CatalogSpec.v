(** What the theorems about the whole catalogue say: the parameters a user may choose, and
    the table of minimum periods. *)
From Coq Require Import ZArith List Bool.
From Verif Require Import Num Series Line Expr IndHT Catalog.
Import ListNotations.
Set Implicit Arguments.

Section Spec.
  Context {V : Type}.

  (** every period of the indicator is at least 1 bar; in addition the fast period of the
      ta-lib macd is not above the slow one, and the two places where a smoothing starts
      one bar early (talib directional movement, talib obv) look back at least 1 bar *)
  Definition dm_ok (alt pearly : bool) (p lookback : nat) : Prop :=
    1 <= p /\ (alt = false -> pearly = true -> 1 <= lookback).

  Definition valid (x : ind V) : Prop :=
    match x with
    | XExpr _ | XAvgprice _ | XTypprice _ | XWclprice _ _ | XMedprice _ | XMathrad _ _ | XMath _
    | XSqrt | XAdd | XDiv | XMult | XSub | XCrossup _ | XCrossdown _ | XCrossover _ | XTruehigh _
    | XTruelow _ | XTruerange _ | XBop | XAd | XSar _ _ | XSarext _ _ | XHtDcperiod | XHtPhasor
    | XMama _ _ | XHtDcphase | XHtSine | XHtTrendline | XHtTrendmode => True
    | XAvg _ p | XMinmax p | XMaxindexAbs p | XMinindexAbs p | XMinmaxindex p _ | XMidprice p
    | XBbands p _ _ _ | XCci p _ _ _ | XCorrel p _ _ | XBeta p _ _ | XAtr _ p _ | XNatr _ p _
    | XRsi _ p _ | XCmo _ p | XMfi p | XWilliamsr p | XAroon p | XAroonosc p
    | XStochrsi p _ _ => 1 <= p
    | XMacd _ _ pf ps psig | XPpo _ _ pf ps psig | XPpofast _ _ pf ps psig =>
        1 <= pf /\ 1 <= ps /\ 1 <= psig
    | XMacdTalib pf ps psig => 1 <= pf /\ pf <= ps /\ 1 <= psig
    | XApo _ pf ps | XAdosc _ pf ps => 1 <= pf /\ 1 <= ps
    | XStochf _ p pf | XStochrsiTalib p _ _ _ pf => 1 <= p /\ 1 <= pf
    | XStochastic _ _ p pf ps => 1 <= p /\ 1 <= pf /\ 1 <= ps
    | XUltosc p1 p2 p3 _ _ _ => 1 <= p1 /\ 1 <= p2 /\ 1 <= p3
    | XPlusDm alt pe _ p lb | XMinusDm alt pe _ p lb | XDm alt pe _ p lb | XPlusDi alt pe _ p lb
    | XMinusDi alt pe _ p lb | XDi alt pe _ p lb | XDx alt pe _ p lb | XAdx alt pe _ p lb
    | XAdxr _ _ alt pe _ p lb => dm_ok alt pe p lb
    | XObv talib period => talib = true -> 1 <= period
    end.

  (** the four Hilbert transform indicators that use the measured cycle as an index *)
  Definition cyclic (x : ind V) : Prop :=
    match x with
    | XHtDcphase | XHtSine | XHtTrendline | XHtTrendmode => True
    | _ => False
    end.

  (** [ewma] is the one average whose first values come before its minimum period (C05) *)
  Definition plain_avg (a : avg V) : bool := match a with AEwma _ => false | _ => true end.
  (** no output of the indicator is the plain result of an [ewma] (or of a bare unseeded
      smoothing or boolean line, [proper] of Expr.v) *)
  Definition plain (x : ind V) : bool :=
    match x with
    | XExpr e => proper e
    | XAvg ma _ | XBbands _ _ ma _ | XAtr ma _ _ | XAdx _ _ ma _ _ | XStochf ma _ _
    | XStochrsiTalib _ _ _ ma _ => plain_avg ma
    | XMacd _ masig _ _ _ | XPpo _ masig _ _ _ | XPpofast _ masig _ _ _ => plain_avg masig
    | XPlusDm alt _ ma _ _ | XMinusDm alt _ ma _ _ | XDm alt _ ma _ _ =>
        if alt then plain_avg ma else true
    | XStochastic ma maslow _ _ _ => plain_avg ma && plain_avg maslow
    | _ => true
    end.

  Local Open Scope Z_scope.

  (** The minimum period of an average of period [p] over a line of minimum period [m]. *)
  Fixpoint avg_mp (a : avg V) (p : nat) (m : Z) : Z :=
    match a with
    | ASma | AEwma _ | AEma _ | ASmma _ | AWma | ATrima | ASum | AMax | AMin | AMaxindex | AMinindex
    | AVar _ | AStddev _ | AMad | ASlope | AAngle | AIntercept _ | ALinearreg | ATsf | AMidpoint
    | ASmacc _ => m + (Z.of_nat p - 1)
    | ADema a | AGdema a _ => Z.max (avg_mp a p m) (avg_mp a p (avg_mp a p m))
    | ATema a =>
        Z.max (Z.max (avg_mp a p m) (avg_mp a p (avg_mp a p m)))
              (avg_mp a p (avg_mp a p (avg_mp a p m)))
    | ATrix a => avg_mp a p (avg_mp a p (avg_mp a p m)) + 1
    | AT3 _ => m + 6 * (Z.of_nat p - 1)
    | AT3gd a _ =>
        let g m := Z.max (avg_mp a p m) (avg_mp a p (avg_mp a p m)) in g (g (g m))
    | AKama pvol _ _ _ => m + Z.max (Z.of_nat p) (Z.of_nat pvol + Z.of_nat p - 1)
    | AMom | ARoc | ARocp | ARocr | ARocr100 => m + Z.of_nat p
    end.

  (** The minimum periods of the outputs, given those of the inputs. *)
  Definition dm_mp (alt pearly : bool) (ma : avg V) (p : nat) (m : Z) : Z :=
    if alt then avg_mp ma p m
    else m + (Z.of_nat p - 1) - (if pearly then 1 else 0).
  Definition dms_mp alt pearly (ma : avg V) p lb h l : Z :=
    dm_mp alt pearly ma p (Z.max h l + Z.of_nat lb).
  Definition tr_mp lb h l c : Z := Z.max (c + Z.of_nat lb) (Z.max h l).
  Definition di_mp alt pearly (ma : avg V) p lb h l c : Z :=
    Z.max (dms_mp alt pearly ma p lb h l) (dm_mp alt pearly ma p (tr_mp lb h l c) + 1).
  Definition stoch_mp p h l c : Z := Z.max c (Z.max h l + (Z.of_nat p - 1)).
  Definition rsi_mp (ma : avg V) p lb m : Z := avg_mp ma p (m + Z.of_nat lb).
  Definition ht_mp (ms : list Z) : Z := fold_right Z.max 1 ms.

  Definition mps (x : ind V) (ms : list Z) : list Z :=
    match x, ms with
    | XExpr e, _ => [look (fun v => nth v ms 0) e]
    | XAvg a p, [m] => [avg_mp a p m]
    | XAvgprice _, [o; h; l; c] => [Z.max (Z.max (Z.max o h) l) c]
    | XTypprice _, [h; l; c] | XWclprice _ _, [h; l; c] => [Z.max (Z.max h l) c]
    | XMedprice _, [h; l] => [Z.max h l]
    | XMathrad _ _, [m] | XMath _, [m] | XSqrt, [m] => [m]
    | XAdd, [a; b] | XDiv, [a; b] | XMult, [a; b] | XSub, [a; b] => [Z.max a b]
    | XMinmax p, [m] => [m + (Z.of_nat p - 1); m + (Z.of_nat p - 1)]
    | XMaxindexAbs _, [m] | XMinindexAbs _, [m] => [1]
    | XMinmaxindex p ab, [m] =>
        if ab then [1; 1] else [m + (Z.of_nat p - 1); m + (Z.of_nat p - 1)]
    | XMidprice p, [h; l] => [Z.max h l + (Z.of_nat p - 1)]
    | XMacd ma masig pf ps psig, [m] =>
        let d := Z.max (avg_mp ma pf m) (avg_mp ma ps m) in
        let s := avg_mp masig psig d in [d; s; Z.max d s]
    | XMacdTalib pf ps psig, [m] =>
        let d := m + (Z.of_nat ps - 1) in
        let s := d + (Z.of_nat psig - 1) in [d; s; s]
    | XApo ma pf ps, [m] => [Z.max (avg_mp ma pf m) (avg_mp ma ps m)]
    | XPpo ma masig pf ps psig, [m] | XPpofast ma masig pf ps psig, [m] =>
        let d := Z.max (avg_mp ma pf m) (avg_mp ma ps m) in
        let s := avg_mp masig psig d in [d; s; Z.max d s]
    | XCrossup _, [a; b] | XCrossdown _, [a; b] => [Z.max a b + 1]
    | XBbands p _ ma _, [m] =>
        let d := Z.max (avg_mp ma p m) (m + (Z.of_nat p - 1)) in [avg_mp ma p m; d; d]
    | XCci p _ ma _, [h; l; c] =>
        let t := Z.max (Z.max h l) c in [Z.max (Z.max t (avg_mp ma p t)) (t + (Z.of_nat p - 1))]
    | XCorrel p _ _, [a; b] => [a + (Z.of_nat p - 1)]
    | XBeta p prets rets, [a; b] =>
        [Z.max a b + (if rets then Z.of_nat prets else 0) + (Z.of_nat p - 1)]
    | XTruelow lb, [l; c] => [Z.max (c + Z.of_nat lb) l]
    | XTruerange lb, [h; l; c] => [tr_mp lb h l c]
    | XAtr ma p lb, [h; l; c] => [avg_mp ma p (tr_mp lb h l c)]
    | XNatr ma p lb, [h; l; c] => [Z.max (avg_mp ma p (tr_mp lb h l c)) c]
    | XPlusDm alt pe ma p lb, [h; l] | XMinusDm alt pe ma p lb, [h; l] =>
        [dms_mp alt pe ma p lb h l]
    | XDm alt pe ma p lb, [h; l] => [dms_mp alt pe ma p lb h l; dms_mp alt pe ma p lb h l]
    | XPlusDi alt pe ma p lb, [h; l; c] | XMinusDi alt pe ma p lb, [h; l; c]
    | XDx alt pe ma p lb, [h; l; c] => [di_mp alt pe ma p lb h l c]
    | XDi alt pe ma p lb, [h; l; c] => [di_mp alt pe ma p lb h l c; di_mp alt pe ma p lb h l c]
    | XAdx alt pe ma p lb, [h; l; c] => [avg_mp ma p (di_mp alt pe ma p lb h l c)]
    | XAdxr talib pr alt pe ma p lb, [h; l; c] =>
        [avg_mp ma p (di_mp alt pe ma p lb h l c)
         + (Z.of_nat (if Nat.eqb pr 0 then p else pr) - (if talib then 1 else 0))]
    | XRsi ma p lb, [m] => [rsi_mp ma p lb m]
    | XCmo sm p, [m] => [rsi_mp sm p 1 m]
    | XMfi p, [h; l; c; v] =>
        [Z.max (Z.max (Z.max h l) c + 1) v + (Z.of_nat p - 1)]
    | XStochf ma p pf, [h; l; c] => [stoch_mp p h l c; avg_mp ma pf (stoch_mp p h l c)]
    | XStochastic ma mas p pf ps, [h; l; c] =>
        let d := avg_mp ma pf (stoch_mp p h l c) in [d; avg_mp mas ps d]
    | XWilliamsr p, [h; l; c] => [stoch_mp p h l c]
    | XAroon p, [h; l] => [l + Z.of_nat p; h + Z.of_nat p]
    | XAroonosc p, [h; l] => [Z.max h l + Z.of_nat p]
    | XUltosc p1 p2 p3 _ _ _, [h; l; c] =>
        [tr_mp 1 h l c + (Z.max (Z.max (Z.of_nat p1) (Z.of_nat p2)) (Z.of_nat p3) - 1)]
    | XBop, [o; h; l; c] => [Z.max (Z.max c o) (Z.max h l)]
    | XStochrsi p ph _, [m] =>
        [m + Z.of_nat p + (Z.of_nat (if Nat.eqb ph 0 then p else ph) - 1)]
    | XStochrsiTalib p ph _ ma pf, [m] =>
        let d := m + Z.of_nat p + (Z.of_nat (if Nat.eqb ph 0 then p else ph) - 1) in
        [d; avg_mp ma pf d]
    | XAd, [h; l; c; v] => [Z.max (Z.max (Z.max h l) c) v]
    | XAdosc ma pf ps, [h; l; c; v] =>
        let d := Z.max (Z.max (Z.max h l) c) v in [Z.max (avg_mp ma pf d) (avg_mp ma ps d)]
    | XObv talib period, [c; v] => [Z.max v (c + Z.of_nat period - (if talib then 1 else 0))]
    | XSar _ _, [h; l] | XSarext _ _, [h; l] => [Z.max h l + 1]
    | XHtDcperiod, _ => [ht_mp ms + 32]
    | XHtPhasor, _ => [ht_mp ms + 32; ht_mp ms + 32]
    | XMama _ _, _ => [ht_mp ms + 32; ht_mp ms + 32]
    | XHtDcphase, _ | XHtTrendline, _ | XHtTrendmode, _ => [ht_mp ms + 63]
    | XHtSine, _ => [ht_mp ms + 63; ht_mp ms + 63]
    | _, _ => []
    end.

  (** the minimum periods of all lines of a session *)
  Fixpoint session_mps (ms : list Z) (steps : list (step V)) : list Z :=
    match steps with
    | [] => ms
    | (x, is) :: r => session_mps (ms ++ mps x (map (fun i => nth i ms 0) is)) r
    end.
End Spec.
