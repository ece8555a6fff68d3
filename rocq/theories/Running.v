(** Rolling sums and means the way pandas 1.0 computes them: one running total per call, to
    which every new value is added and from which the value that leaves the window is
    subtracted (pandas/_libs/window/aggregations.pyx: roll_sum_fixed, roll_mean_fixed, not part
    of /repo).  The other files add up each window afresh; Prop_Running.v relates both.
    Simplification: pandas counts negative values by their sign bit, here by [x < 0], which
    differs for -0.0 only. *)
From Coq Require Import ZArith List Bool.
From Verif Require Import Num Series Line IndMA IndBasic IndOsc.
Import ListNotations.
Set Implicit Arguments.

Section Running.
  Context {V : Type} {N : Num V}.
  Notation line := (line V).

  (** number of values that are not NaN, of negative values, and the total *)
  Record rstate := mkRs { r_nobs : nat; r_neg : nat; r_sum : V }.
  Definition r_start : rstate := mkRs 0 0 v0.
  (** add_sum, add_mean *)
  Definition r_add (x : V) (st : rstate) : rstate :=
    if visnan x then st
    else mkRs (S (r_nobs st)) (if vltb x v0 then S (r_neg st) else r_neg st) (vadd (r_sum st) x).
  (** remove_sum, remove_mean *)
  Definition r_rem (x : V) (st : rstate) : rstate :=
    if visnan x then st
    else mkRs (pred (r_nobs st)) (if vltb x v0 then pred (r_neg st) else r_neg st) (vsub (r_sum st) x).

  (** calc_sum, calc_mean with minp = w >= 1 *)
  Definition calc_sum (w : nat) (st : rstate) : V := if w <=? r_nobs st then r_sum st else vnan.
  Definition calc_mean (w : nat) (st : rstate) : V :=
    if w <=? r_nobs st then
      let r := vdiv (r_sum st) (vofZ (Z.of_nat (r_nobs st))) in
      if (r_neg st =? 0) && vltb r v0 then v0
      else if (r_neg st =? r_nobs st) && vltb v0 r then v0
      else r
    else vnan.

  (** the loop over the values; [cnt] values are still to come before the first one leaves,
      [old] starts with the next value to leave *)
  Fixpoint run_from (calc : rstate -> V) (cnt : nat) (st : rstate) (old new : list V) : list V :=
    match new with
    | [] => []
    | x :: new' =>
        let st1 := r_add x st in
        match cnt with
        | S c => calc st1 :: run_from calc c st1 old new'
        | O =>
            match old with
            | [] => calc st1 :: run_from calc 0 st1 [] new'
            | y :: old' => let st2 := r_rem y st1 in calc st2 :: run_from calc 0 st2 old' new'
            end
        end
    end.
  (** Series.rolling(w).sum() and mean(); infinities are turned into NaN first *)
  Definition ser_running (calc : rstate -> V) (w : nat) (s : list V) : list V :=
    let s' := map prep s in run_from calc w r_start s' s'.

  (** line.rolling(window=w).<f>(), as [Line.rolling] (lines.py:299-308, 207-251) *)
  Definition running (w : nat) (calc : rstate -> V) (a : line) : line :=
    let mp := Z.max (lmp a + (Z.of_nat w - 0 - 1)) 1 in
    clone a (set_from (nans (bars a)) (lmp a - 1)
               (ser_running calc w (slice_from (lser a) (lmp a - 1)))) mp.

  (** sma.py:27-28 *)
  Definition sma_run (p : nat) (i0 : line) : line := running p (calc_mean p) i0.
  (** mathop.py:253-254 sum (alias SumN) *)
  Definition sumn_run (p : nat) (i0 : line) : line := running p (calc_sum p) i0.
  (** mfi.py:39-44 with these sums *)
  Definition mfi_run (p : nat) (high low close volume : line) : line :=
    let tprice := binop_s vdiv (ladd (ladd high low) close) (vofZ 3) in
    let mfraw := lmul tprice volume in
    let flowpos := sumn_run p (mul_b mfraw (cmpop (fun x y => vltb y x) tprice (at_ago tprice (-1)))) in
    let flowneg := sumn_run p (mul_b mfraw (cmpop vltb tprice (at_ago tprice (-1)))) in
    strength (ldiv flowpos flowneg).
End Running.
Arguments rstate : clear implicits.
