(** Models of the bounded oscillators (btalib/indicators): rsi, stochastics, Williams' %R,
    aroon, cmo, mfi, ultimate oscillator, balance of power, stochrsi.  Conventions as in
    IndMA.v. *)
From Coq Require Import ZArith QArith List Bool.
From Verif Require Import Num Series Line IndMA IndBasic IndRange.
Import ListNotations.
Set Implicit Arguments.

Section Osc.
  Context {V : Type} {N : Num V}.
  Notation line := (line V).

  (** rsi.py:43-44 (cmo.py:33-35): the changes, split into gains and losses *)
  Definition updays (lookback : nat) (i0 : line) : line := lclip_lo (diff i0 (Z.of_nat lookback)) v0.
  Definition downdays (lookback : nat) (i0 : line) : line :=
    labs (lclip_hi (diff i0 (Z.of_nat lookback)) v0).

  (** 100.0 - 100.0 / (1.0 + rs)   (rsi.py:48, mfi.py:44) *)
  Definition strength (rs : line) : line :=
    rbinop_s vsub (vofZ 100) (rbinop_s vdiv (vofZ 100) (rbinop_s vadd v1 rs)).

  (** rsi.py:42-48 *)
  Definition rsi (ma : ma_fun V) (p lookback : nat) (i0 : line) : res line :=
    maup <- ma p (updays lookback i0) ;;
    madown <- ma p (downdays lookback i0) ;;
    Ok (strength (ldiv maup madown)).

  (** cmo.py:32-36; [sm] is the parameter [_sum] (default SumN, smma with _talib) *)
  Definition sumn_ : ma_fun V := fun p a => Ok (sumn p a).
  Definition cmo (sm : ma_fun V) (p : nat) (i0 : line) : res line :=
    up <- sm p (updays 1 i0) ;;
    down <- sm p (downdays 1 i0) ;;
    Ok (ldiv (rbinop_s vmul (vofZ 100) (lsub up down)) (ladd up down)).

  (** mfi.py:39-44 *)
  Definition mfi (p : nat) (high low close volume : line) : line :=
    let tprice := binop_s vdiv (ladd (ladd high low) close) (vofZ 3) in
    let mfraw := lmul tprice volume in
    let flowpos := sumn p (mul_b mfraw (cmpop (fun x y => vltb y x) tprice (at_ago tprice (-1)))) in
    let flowneg := sumn p (mul_b mfraw (cmpop vltb tprice (at_ago tprice (-1)))) in
    strength (ldiv flowpos flowneg).

  (** stochastic.py:41-45; _talib (47-49) only changes the default period *)
  Definition stoch_k (p : nat) (high low close : line) : line :=
    let hh := max_ind p high in
    let ll := min_ind p low in
    ldiv (rbinop_s vmul (vofZ 100) (lsub close ll)) (lsub hh ll).
  Definition stochf (ma : ma_fun V) (p pfast : nat) (high low close : line) : res (line * line) :=
    let k := stoch_k p high low close in
    d <- ma pfast k ;; Ok (k, d).
  (** stochastic.py:80-83; [_maslow or _ma] is resolved by the caller *)
  Definition stochastic (ma maslow : ma_fun V) (p pfast pslow : nat) (high low close : line)
    : res (line * line) :=
    f <- stochf ma p pfast high low close ;;
    d <- maslow pslow (snd f) ;; Ok (snd f, d).

  (** williamsr.py:34-37 *)
  Definition williamsr (p : nat) (high low close : line) : line :=
    let hh := max_ind p high in
    let ll := min_ind p low in
    ldiv (rbinop_s vmul (vofZ (-100)) (lsub hh close)) (lsub hh ll).

  (** aroon.py:12-17: position counted from the newest bar.  (np.argmax of a Series is
      positional in pandas 1.0.) *)
  Definition first_idx_highest (l : list V) : V := vofnat (argmax (rev l)).
  Definition first_idx_lowest (l : list V) : V := vofnat (argmin (rev l)).
  (** aroon.py:32-39; [100.0 * idx / p] with a period of 0 never divides by zero in Python
      (Series / 0) and is covered by the hypotheses p >= 1 *)
  Definition aroon_from (F : list V -> V) (p : nat) (a : line) : line :=
    let idx := rolling (p + 1) F a in
    rbinop_s vsub (vofZ 100) (binop_s vdiv (rbinop_s vmul (vofZ 100) idx) (vofnat p)).
  Definition aroon_up (p : nat) (high : line) : line := aroon_from first_idx_highest p high.
  Definition aroon_dn (p : nat) (low : line) : line := aroon_from first_idx_lowest p low.
  (** aroon.py:68-70: outputs aroondn, aroonup *)
  Definition aroon (p : nat) (high low : line) : line * line := (aroon_dn p low, aroon_up p high).
  (** aroon.py:89-90 *)
  Definition aroonosc (p : nat) (high low : line) : line := lsub (aroon_up p high) (aroon_dn p low).

  (** ultimateoscillator.py:41-54.  The factors are Python floats: a zero sum raises *)
  Definition ultosc (p1 p2 p3 : nat) (f1 f2 f3 : V) (high low close : line) : res line :=
    let bp := lsub close (truelow 1 low close) in
    let tr := truerange 1 high low close in
    let av p := ldiv (sumn p bp) (sumn p tr) in
    let total := vadd (vadd f1 f2) f3 in
    if veqb total v0 then Raise ZeroDivisionError
    else
      let factor := vdiv (vofZ 100) total in
      Ok (ladd (ladd (rbinop_s vmul (vmul f1 factor) (av p1))
                     (rbinop_s vmul (vmul f2 factor) (av p2)))
               (rbinop_s vmul (vmul f3 factor) (av p3))).

  (** bop.py:31-32 *)
  Definition bop (open high low close : line) : line :=
    ldiv (lsub close open) (lsub high low).

  (** stochrsi.py:42-48; [philo] 0 stands for None or 0 ([_philo or period]) *)
  Definition stochrsi (p philo : nat) (scale : V) (i0 : line) : res line :=
    let ph := if Nat.eqb philo 0 then p else philo in
    r <- rsi smma p 1 i0 ;;
    let maxrsi := max_ind ph r in
    let minrsi := min_ind ph r in
    Ok (binop_s vmul (ldiv (lsub r minrsi) (lsub maxrsi minrsi)) scale).
  (** stochrsi.py:50-51, 53-79: the second output of the ta-lib mode *)
  Definition stochrsi_talib (p philo : nat) (scale : V) (ma : ma_fun V) (pfast : nat) (i0 : line)
    : res (line * line) :=
    s <- stochrsi p philo scale i0 ;;
    d <- ma pfast s ;; Ok (s, d).
End Osc.
