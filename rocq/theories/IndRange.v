(** Models of the true range family (btalib/indicators/atr.py) and of the directional movement
    system (directionalmove.py).  Conventions as in IndMA.v. *)
From Coq Require Import ZArith QArith List Bool.
From Verif Require Import Num Series Line IndMA.
Import ListNotations.
Set Implicit Arguments.

Section Range.
  Context {V : Type} {N : Num V}.
  Notation line := (line V).

  (** ** atr.py *)

  (** atr.py:26, 32-33: the declared inputs are 'low' and 'close', the code reads
      [self.i.high], which no inputs object of the class has *)
  Definition truehigh (lookback : nat) (low close : line) : res line := Raise AttributeError.

  (** atr.py:58-59; [lookback] is the parameter [_period] *)
  Definition truelow (lookback : nat) (low close : line) : line :=
    lclip_hi_l (at_ago close (- Z.of_nat lookback)) low.

  (** atr.py:88-92 *)
  Definition truerange (lookback : nat) (high low close : line) : line :=
    let close1 := at_ago close (- Z.of_nat lookback) in
    let truehi := lclip_lo_l close1 high in
    let truelo := lclip_hi_l close1 low in
    lsub truehi truelo.

  (** atr.py:118-119 *)
  Definition atr (ma : ma_fun V) (p lookback : nat) (high low close : line) : res line :=
    ma p (truerange lookback high low close).

  (** atr.py:137-138 *)
  Definition natr (ma : ma_fun V) (p lookback : nat) (high low close : line) : res line :=
    a <- atr ma p lookback high low close ;;
    Ok (ldiv (rbinop_s vmul (vofZ 100) a) close).

  (** ** directionalmove.py *)

  (** directionalmove.py:49-52; _talib (54-56) only changes the default of [_pearly].
      The filter is called with alpha 1.0 and beta (p - 1) / p *)
  Definition smacc (p : nat) (pearly : bool) (sd : seed) (i0 : line) : res line :=
    ewm_call i0 (Z.of_nat p) 0 (if pearly then 1 else 0)%Z 1 sd
      (fun t => Ok (lfilter v1 (Some (vdiv (vofZ (Z.of_nat p - 1)) (vofZ (Z.of_nat p)))) t)).

  (** directionalmove.py:85-89: the smoother and its arguments.  [_accum] is the default
      [smacc]; [ma] is the parameter [_ma] *)
  Definition dm_smoother (alt pearly : bool) (ma : ma_fun V) (p : nat) (a : line) : res line :=
    if alt then ma p a else smacc p pearly SEED_SUM a.

  (** directionalmove.py:92-93 *)
  Definition upmove (lookback : nat) (high : line) : line := diff high (Z.of_nat lookback).
  Definition downmove (lookback : nat) (low : line) : line :=
    lsub (at_ago low (- Z.of_nat lookback)) low.
  (** directionalmove.py:96, 100: the movement before smoothing *)
  Definition pdm1 (lookback : nat) (high low : line) : line :=
    let up := upmove lookback high in
    let down := downmove lookback low in
    mul_b (lclip_lo up v0) (cmpop (fun x y => vltb y x) up down).
  Definition mdm1 (lookback : nat) (high low : line) : line :=
    let up := upmove lookback high in
    let down := downmove lookback low in
    mul_b (lclip_lo down v0) (cmpop (fun x y => vltb y x) down up).

  (** directionalmove.py:97, 101, 138-139, 172-173, 208-210: plus_dm, minus_dm and both (dm);
      [sm] is the smoother *)
  Definition plus_dm (sm : line -> res line) (lookback : nat) (high low : line) : res line :=
    sm (pdm1 lookback high low).
  Definition minus_dm (sm : line -> res line) (lookback : nat) (high low : line) : res line :=
    sm (mdm1 lookback high low).
  Definition dm (sm : line -> res line) (lookback : nat) (high low : line) : res (line * line) :=
    p <- plus_dm sm lookback high low ;;
    m <- minus_dm sm lookback high low ;;
    Ok (p, m).

  (** directionalmove.py:251-254: the smoothed true range.  [trp] is an indicator object and
      its [_period] (linesholder.py:104-106) ignores the argument and adds 1 to the minimum
      period of the object; as right operand the object counts with that minimum period and
      its first output's values (lines.py:108-134) *)
  Definition di_range (sm : line -> res line) (lookback : nat) (high low close : line) : res line :=
    trp <- sm (truerange lookback high low close) ;;
    Ok (mkLine (lmp trp + 1) (lser trp)).

  (** directionalmove.py:250-260, 295-296, 327-328, 362-364: both directional indicators.
      plus_di and minus_di calculate only their own side; as the calculations are
      independent (and raise in the same circumstances) the pair is modelled *)
  Definition di (sm : line -> res line) (lookback : nat) (high low close : line)
    : res (line * line) :=
    d <- dm sm lookback high low ;;
    trp <- di_range sm lookback high low close ;;
    Ok (ldiv (rbinop_s vmul (vofZ 100) (fst d)) trp,
        ldiv (rbinop_s vmul (vofZ 100) (snd d)) trp).
  Definition plus_di (sm : line -> res line) (lookback : nat) (high low close : line) : res line :=
    d <- plus_dm sm lookback high low ;;
    trp <- di_range sm lookback high low close ;;
    Ok (ldiv (rbinop_s vmul (vofZ 100) d) trp).
  Definition minus_di (sm : line -> res line) (lookback : nat) (high low close : line) : res line :=
    d <- minus_dm sm lookback high low ;;
    trp <- di_range sm lookback high low close ;;
    Ok (ldiv (rbinop_s vmul (vofZ 100) d) trp).

  (** directionalmove.py:399-400 *)
  Definition dx (sm : line -> res line) (lookback : nat) (high low close : line) : res line :=
    d <- di sm lookback high low close ;;
    Ok (ldiv (rbinop_s vmul (vofZ 100) (labs (lsub (fst d) (snd d)))) (ladd (fst d) (snd d))).

  (** directionalmove.py:436-437 *)
  Definition adx (ma : ma_fun V) (p : nat) (sm : line -> res line) (lookback : nat)
             (high low close : line) : res line :=
    d <- dx sm lookback high low close ;; ma p d.

  (** directionalmove.py:460-462; [prating] 0 stands for None or 0 ([_prating or period]) *)
  Definition adxr (talib : bool) (prating : nat) (ma : ma_fun V) (p : nat) (sm : line -> res line)
             (lookback : nat) (high low close : line) : res line :=
    let period := (Z.of_nat (if Nat.eqb prating 0 then p else prating)
                   - (if talib then 1 else 0))%Z in
    a <- adx ma p sm lookback high low close ;;
    Ok (binop_s vdiv (ladd a (at_ago a (- period))) (vofZ 2)).
End Range.
