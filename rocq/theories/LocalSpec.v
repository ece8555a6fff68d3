(** Specification used by Prop_Local.v: what it means for a computation to be unaffected by old
    history, and which indicators of the catalogue look only at a bounded number of bars. *)
From Coq Require Import ZArith List Bool.
From Verif Require Import Num Series Line Expr Catalog.
Import ListNotations.
Set Implicit Arguments.

Section Spec.
  Context {V : Type}.

  (** [x'] is [x] computed without the first [k] bars: the same minimum period, [k] values fewer,
      and from the bar where [x'] starts delivering on, the very same values. *)
  Definition drops (k : nat) (x x' : line V) : Prop :=
    lmp x' = lmp x /\
    length (lser x) = k + length (lser x') /\
    forall i, (lmp x <= Z.of_nat i + 1)%Z ->
      nth_error (lser x') i = nth_error (lser x) (k + i).

  (** Both computations succeed with related results, or both raise the same exception. *)
  Definition same_outcome {A A'} (P : A -> A' -> Prop) (r : res A) (r' : res A') : Prop :=
    match r, r' with
    | Ok a, Ok a' => P a a'
    | Raise e, Raise e' => e = e'
    | _, _ => False
    end.

  (** Averages over a fixed number of bars.  The exponential ones (ewma, ema, smma and what is built
      on them, kama) remember every bar since the first and are left out. *)
  Fixpoint windowed_avg (a : avg V) : bool :=
    match a with
    | ASma | AWma | ATrima | ASum | AMax | AMin | AMaxindex | AMinindex | AVar _ | AStddev _ | AMad
    | ASlope | AAngle | AIntercept _ | ALinearreg | ATsf | AMidpoint | AMom | ARoc | ARocp | ARocr
    | ARocr100 => true
    | ADema a | ATema a | ATrix a | AGdema a _ | AT3gd a _ => windowed_avg a
    | AEwma _ | AEma _ | ASmma _ | AT3 _ | AKama _ _ _ _ | ASmacc _ => false
    end.

  (** Expressions without cumulative sums, forward fills and exponential averages. *)
  Fixpoint windowed_expr (e : expr V) : bool :=
    match e with
    | EIn _ => true
    | EBin _ a b | EClipLo a b | EClipHi a b => windowed_expr a && windowed_expr b
    | EBinS _ a _ | ERBinS _ _ a | EMap _ a | ELag a _ | EDiff a _ | ERoll _ _ a => windowed_expr a
    | EMulB a b => windowed_expr a && windowed_bexpr b
    | ERMulB _ b => windowed_bexpr b
    | ECum _ | EFfill _ | ERepl0 _ | EPct _ _ | EEwm _ _ _ | EEma _ _ _ | ESmma _ _ _
    | ESmacc _ _ _ _ _ => false
    end
  with windowed_bexpr (b : bexpr V) : bool :=
    match b with
    | BCmp _ a b => windowed_expr a && windowed_expr b
    | BCmpS _ a _ => windowed_expr a
    | BBin _ a b => windowed_bexpr a && windowed_bexpr b
    end.

  (** Indicators over a fixed number of bars.  Left out: absolute indexes (counted from the first
      bar), crossings that are not strict and returns (they carry the last value over gaps), correl
      (its own theorem), everything smoothed exponentially, running totals, the parabolic SAR and
      the Hilbert transform. *)
  Definition windowed (x : ind V) : bool :=
    match x with
    | XExpr e => windowed_expr e
    | XAvg a _ | XApo a _ _ | XCci _ _ a _ | XBbands _ _ a _ | XAtr a _ _ | XNatr a _ _
    | XRsi a _ _ | XCmo a _ | XStochf a _ _ => windowed_avg a
    | XMacd a b _ _ _ | XPpo a b _ _ _ | XPpofast a b _ _ _ | XStochastic a b _ _ _ =>
        windowed_avg a && windowed_avg b
    | XAvgprice _ | XTypprice _ | XWclprice _ _ | XMedprice _ | XMathrad _ _ | XMath _ | XSqrt
    | XAdd | XDiv | XMult | XSub | XMinmax _ | XMidprice _ | XCrossover _ | XTruehigh _
    | XTruelow _ | XTruerange _ | XMfi _ | XWilliamsr _ | XAroon _ | XAroonosc _
    | XUltosc _ _ _ _ _ _ | XBop => true
    | XMinmaxindex _ absidx => negb absidx
    | XCrossup strict | XCrossdown strict => strict
    | XBeta _ _ rets => negb rets
    | XPlusDm alt _ ma _ _ | XMinusDm alt _ ma _ _ | XDm alt _ ma _ _ | XPlusDi alt _ ma _ _
    | XMinusDi alt _ ma _ _ | XDi alt _ ma _ _ | XDx alt _ ma _ _ | XAdx alt _ ma _ _
    | XAdxr _ _ alt _ ma _ _ => alt && windowed_avg ma
    | XMaxindexAbs _ | XMinindexAbs _ | XMacdTalib _ _ _ | XCorrel _ _ _ | XStochrsi _ _ _
    | XStochrsiTalib _ _ _ _ _ | XAd | XAdosc _ _ _ | XObv _ _ | XSar _ _ | XSarext _ _
    | XHtDcperiod | XHtPhasor | XMama _ _ | XHtDcphase | XHtSine | XHtTrendline | XHtTrendmode => false
    end.
End Spec.
