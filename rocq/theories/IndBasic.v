(** Models of the pointwise, window-extreme, rate-of-change, MACD-family and cross
    indicators (btalib/indicators).

    Conventions as in IndMA.v: parameters are arguments, an input is a line argument, the
    value is the output line (a tuple for several outputs). *)
From Coq Require Import ZArith QArith List Bool.
From Verif Require Import Num Series Line IndMA.
Import ListNotations.
Set Implicit Arguments.

Section Basic.
  Context {V : Type} {N : Num V}.
  Notation line := (line V).

  (** ** price.py *)

  (** price.py:28-30; default divisor 4 *)
  Definition avgprice (divisor : V) (open high low close : line) : line :=
    binop_s vdiv (ladd (ladd (ladd open high) low) close) divisor.
  (** price.py:51-52; default divisor 3 *)
  Definition typprice (divisor : V) (high low close : line) : line :=
    binop_s vdiv (ladd (ladd high low) close) divisor.
  (** price.py:75-77; default weight 2 and divisor 4 *)
  Definition wclprice (weight divisor : V) (high low close : line) : line :=
    let wclose := binop_s vmul close weight in
    binop_s vdiv (ladd (ladd high low) wclose) divisor.
  (** price.py:99-100; default divisor 2 *)
  Definition medprice (divisor : V) (high low : line) : line :=
    binop_s vdiv (ladd high low) divisor.

  (** ** math.py *)

  (** math.py:12-13 np.radians *)
  Definition radians {T : NumT V} (x : V) : V := vdiv (vmul x vpi) (vofZ 180).
  Definition to_radians {T : NumT V} (a : line) (convert : bool) : line :=
    if convert then mapop radians a else a.
  (** math.py:22-23 _mathrad, [func] being the ufunc of the subclass (math.py:28-176) *)
  Definition mathrad {T : NumT V} (func : V -> V) (degrees : bool) (i0 : line) : line :=
    mapop func (to_radians i0 degrees).
  (** math.py:181-273 ceil, exp, floor, ln, log10 *)
  Definition mathapply (func : V -> V) (i0 : line) : line := mapop func i0.
  (** math.py:290-291 sqrt is pow(0.5), which (like C's pow) maps -inf to +inf *)
  Definition pow_half {T : NumT V} (x : V) : V := if visinf x then vabs x else vsqrt x.
  Definition sqrt_ind {T : NumT V} (i0 : line) : line :=
    binop_s (fun x _ => pow_half x) i0 (vofQ (1#2)).

  (** ** mathop.py *)

  (** mathop.py:28-29, 44-45, 60-61, 76-77 *)
  Definition add_ind (a b : line) : line := ladd a b.
  Definition div_ind (a b : line) : line := ldiv a b.
  Definition mult_ind (a b : line) : line := lmul a b.
  Definition sub_ind (a b : line) : line := lsub a b.

  (** mathop.py:96-97 max (alias highest), 114-115 min (alias lowest), 133-135 minmax *)
  Definition max_ind (p : nat) (i0 : line) : line := rolling p win_max i0.
  Definition min_ind (p : nat) (i0 : line) : line := rolling p win_min i0.
  Definition minmax (p : nat) (i0 : line) : line * line := (min_ind p i0, max_ind p i0).

  (** mathop.py:156-160, 192-196 with _absidx False *)
  Definition vofnat (n : nat) : V := vofZ (Z.of_nat n).
  Definition maxindex (p : nat) (i0 : line) : line := rolling p (fun l => vofnat (argmax l)) i0.
  Definition minindex (p : nat) (i0 : line) : line := rolling p (fun l => vofnat (argmin l)) i0.

  (** rolling(window).apply(F) with a stateful function: [F] also gets the number of calls
      made before (itertools.count); pandas calls it only for windows without missing
      values *)
  Fixpoint roll_count (w : nat) (F : nat -> list V -> V) (s : list V) (is : list nat) (c : nat)
    : list V :=
    match is with
    | [] => []
    | i :: is' =>
        let win := map prep (window s i w) in
        if (S i <? w)%nat || existsb visnan win then vnan :: roll_count w F s is' c
        else F c win :: roll_count w F s is' (S c)
    end.
  Definition rolling_count (w : nat) (F : nat -> list V -> V) (a : line) : line :=
    let mp := Z.max (lmp a + (Z.of_nat w - 0 - 1)) 1 in
    let s := slice_from (lser a) (lmp a - 1) in
    clone a (set_from (nans (bars a)) (lmp a - 1) (roll_count w F s (seq 0 (length s)) 0)) mp.

  (** Series.fillna(0) *)
  Definition fillna0 (s : list V) : list V := map (fun x => if visnan x then v0 else x) s.

  (** mathop.py:153-154, 161-164 (189-190, 197-200) with _absidx True: the output is assigned
      a plain Series, so its minimum period is 1 (lines.py:431-433) *)
  Definition maxindex_abs (p : nat) (i0 : line) : line :=
    raw (fillna0 (lser (rolling_count p (fun c l => vofnat (argmax l + c * 1)) i0))).
  Definition minindex_abs (p : nat) (i0 : line) : line :=
    raw (fillna0 (lser (rolling_count p (fun c l => vofnat (argmin l + c * 1)) i0))).

  (** mathop.py:225-236 minmaxindex *)
  Definition minmaxindex (p : nat) (absidx : bool) (i0 : line) : line * line :=
    if absidx then (minindex_abs p i0, maxindex_abs p i0) else (minindex p i0, maxindex p i0).

  (** ** midpoint.py:28-31, 51-52 *)
  Definition midprice (p : nat) (high low : line) : line :=
    let hh := max_ind p high in
    let ll := min_ind p low in
    binop_s vdiv (ladd hh ll) (vofZ 2).
  Definition midpoint (p : nat) (i0 : line) : line := midprice p i0 i0.

  (** ** mom.py:30-31, roc.py *)
  Definition mom (p : nat) (i0 : line) : line := diff i0 (Z.of_nat p).
  (** roc.py:17-18 *)
  Definition rocbase (p : nat) (i0 : line) : line := ldiv i0 (at_ago i0 (- Z.of_nat p)).
  (** roc.py:40-41 *)
  Definition roc (p : nat) (i0 : line) : line :=
    rbinop_s vmul (vofZ 100) (binop_s vsub (rocbase p i0) (vofZ 1)).
  (** roc.py:59-60 *)
  Definition rocp (p : nat) (i0 : line) : line := binop_s vsub (rocbase p i0) (vofZ 1).
  (** roc.py:63-76 *)
  Definition rocr (p : nat) (i0 : line) : line := rocbase p i0.
  (** roc.py:94-95 *)
  Definition rocr100 (p : nat) (i0 : line) : line := rbinop_s vmul (vofZ 100) (rocbase p i0).

  (** ** macd.py:39-47; [ma1] builds the fast average: [_ma] with [**self._talibkw] *)
  Definition macd_from (fast slow : line -> res line) (masig : ma_fun V) (psignal : nat)
             (i0 : line) : res (line * line * line) :=
    ma1 <- fast i0 ;;
    ma2 <- slow i0 ;;
    let m := lsub ma1 ma2 in
    signal <- masig psignal m ;;
    Ok (m, signal, lsub m signal).
  (** [_masig or _ma] is resolved by the caller *)
  Definition macd (ma masig : ma_fun V) (pfast pslow psignal : nat) (i0 : line)
    : res (line * line * line) :=
    macd_from (ma pfast) (ma pslow) masig psignal i0.
  (** macd.py:51-60 _talib: the fast average gets poffset=pslow (with the default ema) *)
  Definition macd_talib (pfast pslow psignal : nat) (i0 : line) : res (line * line * line) :=
    macd_from (ema_full pfast SEED_AVG (Z.of_nat pslow)) (ema pslow) ema psignal i0.

  (** ** ppo.py *)

  (** ppo.py:21-25 _posc; the averages are swapped when [_fast] *)
  Definition posc (fast : bool) (ma : ma_fun V) (pfast pslow : nat) (i0 : line)
    : res (line * line) :=
    ma1 <- ma pfast i0 ;;
    ma2 <- ma pslow i0 ;;
    Ok (if fast then (ma2, ma1) else (ma1, ma2)).
  (** ppo.py:48-49 *)
  Definition apo (ma : ma_fun V) (pfast pslow : nat) (i0 : line) : res line :=
    m <- posc false ma pfast pslow i0 ;; Ok (lsub (fst m) (snd m)).
  (** ppo.py:76-80 (ppo), 112-116 (ppofast) *)
  Definition ppo_from (fast : bool) (ma masig : ma_fun V) (pfast pslow psignal : nat) (i0 : line)
    : res (line * line * line) :=
    m <- posc fast ma pfast pslow i0 ;;
    let o := rbinop_s vmul (vofZ 100) (binop_s vsub (ldiv (fst m) (snd m)) (vofZ 1)) in
    signal <- masig psignal o ;;
    Ok (o, signal, lsub o signal).
  Definition ppo := ppo_from false.
  Definition ppofast := ppo_from true.

  (** ** crossover.py *)

  (** crossover.py:26-40 _crossbase; Line.replace is a standard_op (linesops.py:105) *)
  Definition cross_idiff (strict : bool) (i0 i1 : line) : line :=
    let d := shift (lsub i0 i1) 1 in
    if strict then d else stdop ser_replace0_ffill d.
  Definition cross_up (strict : bool) (i0 i1 : line) : bline :=
    bbinop andb (cmpop_s vltb (cross_idiff strict i0 i1) v0) (cmpop (fun x y => vltb y x) i0 i1).
  Definition cross_down (strict : bool) (i0 i1 : line) : bline :=
    bbinop andb (cmpop_s (fun x y => vltb y x) (cross_idiff strict i0 i1) v0) (cmpop vltb i0 i1).
  (** crossover.py:60-61 *)
  Definition crossup (strict : bool) (i0 i1 : line) : line := rmul_b v1 (cross_up strict i0 i1).
  (** crossover.py:81-82 *)
  Definition crossdown (strict : bool) (i0 i1 : line) : line :=
    rmul_b (vofZ (-1)) (cross_down strict i0 i1).
  (** crossover.py:106-107: the difference of two boolean lines *)
  Definition crossover (strict : bool) (i0 i1 : line) : res line :=
    sub_bb (cross_up strict i0 i1) (cross_down strict i0 i1).
End Basic.
