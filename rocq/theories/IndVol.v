(** Models of the volume indicators (btalib/indicators/ad.py, obv.py).  Conventions as in
    IndMA.v. *)
From Coq Require Import ZArith QArith List Bool.
From Verif Require Import Num Series Line IndMA.
Import ListNotations.
Set Implicit Arguments.

Section Vol.
  Context {V : Type} {N : Num V}.
  Notation line := (line V).

  (** ad.py:32-37 *)
  Definition ad (high low close volume : line) : line :=
    let hilo := lsub high low in
    let mfm := ldiv (lsub (lsub (rbinop_s vmul (vofZ 2) close) high) low) hilo in
    let mfv := lmul mfm volume in
    stdop ser_cumsum mfv.

  (** ad.py:60-63 ([self.o.ad] is the value the base class initialiser has just set) *)
  Definition adosc (ma : ma_fun V) (pfast pslow : nat) (high low close volume : line) : res line :=
    let a := ad high low close volume in
    ma3 <- ma pfast a ;;
    ma10 <- ma pslow a ;;
    Ok (lsub ma3 ma10).

  (** numpy.sign *)
  Definition vsign (v : V) : V :=
    if visnan v then vnan
    else if vltb v0 v then v1 else if vltb v v0 then vofZ (-1) else v0.

  (** obv.py:42-49 *)
  Definition obv (talib : bool) (period : nat) (close volume : line) : line :=
    let close1 := diff close (Z.of_nat period) in
    let close1 := if talib then period_ close1 (-1) false (Some v1) else close1 in
    stdop ser_cumsum (lmul volume (mapop vsign close1)).
End Vol.
