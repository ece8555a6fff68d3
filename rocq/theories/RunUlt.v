(** The ultimate oscillator on the running totals of pandas 1.0 (Running.v). *)
From Coq Require Import ZArith List Bool.
From Verif Require Import Num Series Line IndMA IndRange IndOsc Running.
Import ListNotations.
Set Implicit Arguments.

Section RunUlt.
  Context {V : Type} {N : Num V}.
  Notation line := (line V).
  (** ultimateoscillator.py:41-54 with running totals.  The factors are Python floats: a zero sum raises *)
  Definition ultosc_run (p1 p2 p3 : nat) (f1 f2 f3 : V) (high low close : line) : res line :=
    let bp := lsub close (truelow 1 low close) in
    let tr := truerange 1 high low close in
    let av p := ldiv (sumn_run p bp) (sumn_run p tr) in
    let total := vadd (vadd f1 f2) f3 in
    if veqb total v0 then Raise ZeroDivisionError
    else
      let factor := vdiv (vofZ 100) total in
      Ok (ladd (ladd (rbinop_s vmul (vmul f1 factor) (av p1))
                     (rbinop_s vmul (vmul f2 factor) (av p2)))
               (rbinop_s vmul (vmul f3 factor) (av p3))).
End RunUlt.
