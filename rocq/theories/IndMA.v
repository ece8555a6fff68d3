(** Models of the moving averages (btalib/indicators).

    Parameters are arguments; [self.i0] is the line argument; the value is the output
    line.  An indicator with one output used as operand or input behaves as that output
    (lines.py:424-427, linesholder.py).  A moving average passed as parameter [_ma] is a
    function argument. *)
From Coq Require Import ZArith QArith List Bool.
From Verif Require Import Num Series Line.
Import ListNotations.
Set Implicit Arguments.

Section MA.
  Context {V : Type} {N : Num V}.
  Notation line := (line V).

  Definition ma_fun := nat -> line -> res line.

  (** sma.py:27-28 *)
  Definition sma (p : nat) (i0 : line) : line := rolling p win_mean i0.
  Definition sma_ : ma_fun := fun p a => Ok (sma p a).

  (** ewma.py:33-35 *)
  Definition ewma (p : nat) (adjust : bool) (i0 : line) : line := ewm_mean p adjust i0.

  (** ema.py:37-39; [poffset] is only given by macd *)
  Definition ema_full (p : nat) (sd : seed) (poffset : Z) (i0 : line) : res line :=
    ewm_span p poffset sd i0.
  Definition ema : ma_fun := fun p i0 => ema_full p SEED_AVG 0 i0.

  (** smma.py:39-41 *)
  Definition smma_seed (p : nat) (sd : seed) (i0 : line) : res line := ewm_com p sd i0.
  Definition smma : ma_fun := fun p i0 => smma_seed p SEED_AVG i0.

  (** wma.py:36-37 weights 1..period and the dot product of the window *)
  Definition win_wma (l : list V) : V :=
    vsum (map2 vmul l (map (fun i => vofZ (Z.of_nat i)) (seq 1 (length l)))).
  (** wma.py:33-40; the parameter [coef] is not used by the code *)
  Definition wma (p : nat) (i0 : line) : line :=
    let coef := vdiv (vofZ 2) (vofZ (Z.of_nat p * (Z.of_nat p + 1))) in
    rbinop_s vmul coef (rolling p win_wma i0).

  (** dema.py:32-35 *)
  Definition dema (ma : ma_fun) (p : nat) (i0 : line) : res line :=
    ema1 <- ma p i0 ;;
    ema2 <- ma p ema1 ;;
    Ok (lsub (rbinop_s vmul (vofZ 2) ema1) ema2).

  (** tema.py:35-39 *)
  Definition tema (ma : ma_fun) (p : nat) (i0 : line) : res line :=
    ema1 <- ma p i0 ;;
    ema2 <- ma p ema1 ;;
    ema3 <- ma p ema2 ;;
    Ok (ladd (lsub (rbinop_s vmul (vofZ 3) ema1) (rbinop_s vmul (vofZ 3) ema2)) ema3).

  (** trima.py:32-39; the parameter [_ma] is not used by the code *)
  Definition trima (p : nat) (i0 : line) : line :=
    let '(p1, p2) :=
      if Nat.odd p then (Nat.div (p + 1) 2, Nat.div (p + 1) 2)
      else (Nat.div p 2 + 1, Nat.div p 2)%nat in
    sma p1 (sma p2 i0).

  (** trix.py:39-43 *)
  Definition trix (ma : ma_fun) (p : nat) (i0 : line) : res line :=
    ema1 <- ma p i0 ;;
    ema2 <- ma p ema1 ;;
    ema3 <- ma p ema2 ;;
    Ok (rbinop_s vmul (vofZ 100)
          (binop_s vsub (ldiv ema3 (at_ago ema3 (-1))) (vofZ 1))).

  (** t3.py:30-34 gdema *)
  Definition gdema (ma : ma_fun) (p : nat) (vfactor : V) (i0 : line) : res line :=
    ema1 <- ma p i0 ;;
    ema2 <- ma p ema1 ;;
    Ok (lsub (rbinop_s vmul (vadd v1 vfactor) ema1) (rbinop_s vmul vfactor ema2)).

  (** t3.py:72-75 t3 with _gd=True *)
  Definition t3_gd (ma : ma_fun) (p : nat) (vfactor : V) (i0 : line) : res line :=
    g1 <- gdema ma p vfactor i0 ;;
    g2 <- gdema ma p vfactor g1 ;;
    gdema ma p vfactor g2.

  (** t3.py:78-90 t3 with _gd=False: uses ema, not the parameter [_ma] *)
  Definition t3 (p : nat) (vfactor : V) (i0 : line) : res line :=
    let a := vfactor in
    let a2 := vmul a a in
    let a3 := vmul a2 a in
    let c1 := vsub v0 a3 in
    let c2 := vadd (vmul (vofZ 3) a2) (vmul (vofZ 3) a3) in
    let c3 := vsub (vsub (vmul (vofZ (-6)) a2) (vmul (vofZ 3) a)) (vmul (vofZ 3) a3) in
    let c4 := vadd (vadd (vadd v1 (vmul (vofZ 3) a)) a3) (vmul (vofZ 3) a2) in
    ema1 <- ema p i0 ;;
    ema2 <- ema p ema1 ;;
    ema3 <- ema p ema2 ;;
    ema4 <- ema p ema3 ;;
    ema5 <- ema p ema4 ;;
    ema6 <- ema p ema5 ;;
    Ok (ladd (ladd (ladd (rbinop_s vmul c1 ema6) (rbinop_s vmul c2 ema5))
                   (rbinop_s vmul c3 ema4))
             (rbinop_s vmul c4 ema3)).

  (** mathop.py:253-254 sum (alias SumN) *)
  Definition sumn (p : nat) (i0 : line) : line := rolling p win_sum i0.

  (** line.pow(2): a binary operation with the scalar 2 *)
  Definition pow2 (a : line) : line := binop_s (fun x _ => vmul x x) a (vofZ 2).

  (** kama.py:68-81 efficiency ratio and smoothing constant *)
  Definition kama_er (p pvol : nat) (i0 : line) : line :=
    let direction := diff i0 (Z.of_nat p) in
    let volseries := diff i0 (Z.of_nat pvol) in
    let volatility := sumn p (labs volseries) in
    labs (ldiv direction volatility).
  Definition kama_sc (p pvol : nat) (fast slow : V) (i0 : line) : line :=
    let scfast := vdiv (vofZ 2) (vadd fast v1) in
    let scslow := vdiv (vofZ 2) (vadd slow v1) in
    pow2
      (binop_s vadd (binop_s vmul (kama_er p pvol i0) (vsub scfast scslow)) scslow).
  (** kama.py:83-85; _talib (kama.py:87-89) only changes the default seed to SEED_LAST *)
  Definition kama (p pvol : nat) (fast slow : V) (sd : seed) (i0 : line) : res line :=
    ewm_dyn (Z.of_nat p) (kama_sc p pvol fast slow i0) sd i0.
End MA.
Arguments ma_fun : clear implicits.
