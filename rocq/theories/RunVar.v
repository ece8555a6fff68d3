(** Rolling variances and standard deviations the way pandas 1.0 computes them: number, mean and sum of squared
    distances are carried from window to window (Welford's method; pandas/_libs/window/aggregations.pyx: add_var,
    remove_var, calc_var, roll_var_fixed, not part of /repo).  Series.v takes each window afresh; Prop_Bands.v relates
    both.  Simplification: [delta ** 2] is the rounded product. *)
From Coq Require Import ZArith List Bool.
From Verif Require Import Num Series Line IndMA IndStat.
Import ListNotations.
Set Implicit Arguments.

Section RunVar.
  Context {V : Type} {N : Num V} {T : NumT V}.
  Notation line := (line V).

  (** number of values that are not NaN, their mean, the sum of their squared distances from it *)
  Record vstate := mkVs { w_nobs : nat; w_mean : V; w_ss : V }.
  Definition w_start : vstate := mkVs 0 v0 v0.
  Definition vnum (n : nat) : V := vofZ (Z.of_nat n).
  (** add_var *)
  Definition w_add (x : V) (st : vstate) : vstate :=
    if visnan x then st
    else
      let n := S (w_nobs st) in
      let delta := vsub x (w_mean st) in
      mkVs n (vadd (w_mean st) (vdiv delta (vnum n)))
           (vadd (w_ss st) (vdiv (vmul (vnum (n - 1)) (vmul delta delta)) (vnum n))).
  (** remove_var *)
  Definition w_rem (x : V) (st : vstate) : vstate :=
    if visnan x then st
    else
      match pred (w_nobs st) with
      | O => mkVs 0 v0 v0
      | n =>
          let delta := vsub x (w_mean st) in
          mkVs n (vsub (w_mean st) (vdiv delta (vnum n)))
               (vsub (w_ss st) (vdiv (vmul (vnum (n + 1)) (vmul delta delta)) (vnum n)))
      end.
  (** roll_var_fixed, a value comes and another one leaves *)
  Definition w_swap (x prev : V) (st : vstate) : vstate :=
    if visnan x then w_rem prev st
    else if visnan prev then w_add x st
    else
      let n := w_nobs st in
      let delta := vsub x prev in
      mkVs n (vadd (w_mean st) (vdiv delta (vnum n)))
           (vadd (w_ss st)
              (vdiv (vmul (vsub (vadd (vmul (vnum (n - 1)) x) (vmul (vnum (n + 1)) prev)) (vmul (vnum (2 * n)) (w_mean st))) delta)
                    (vnum n))).
  (** calc_var with minp = w *)
  Definition calc_var (w ddof : nat) (st : vstate) : V :=
    if (w <=? w_nobs st) && (ddof <? w_nobs st) then
      if w_nobs st =? 1 then v0
      else
        let r := vdiv (w_ss st) (vofZ (Z.of_nat (w_nobs st) - Z.of_nat ddof)) in
        if vltb r v0 then v0 else r
    else vnan.
  (** the loop over the values; [cnt] values are still to come before the first one leaves, [old] starts with the next
      value to leave *)
  Fixpoint walk (calc : vstate -> V) (cnt : nat) (st : vstate) (old new : list V) : list V :=
    match new with
    | [] => []
    | x :: new' =>
        match cnt, old with
        | S c, _ => let st1 := w_add x st in calc st1 :: walk calc c st1 old new'
        | O, y :: old' => let st1 := w_swap x y st in calc st1 :: walk calc 0 st1 old' new'
        | O, [] => let st1 := w_add x st in calc st1 :: walk calc 0 st1 [] new'
        end
    end.
  (** Series.rolling(w).var(ddof); infinities are turned into NaN first *)
  Definition ser_walk (calc : vstate -> V) (w : nat) (s : list V) : list V :=
    let s' := map prep s in walk calc w w_start s' s'.
  (** line.rolling(window=w).<f>(), as [Line.rolling] (lines.py:299-308, 207-251) *)
  Definition walking (w : nat) (calc : vstate -> V) (a : line) : line :=
    let mp := Z.max (lmp a + (Z.of_nat w - 0 - 1)) 1 in
    clone a (set_from (nans (bars a)) (lmp a - 1) (ser_walk calc w (slice_from (lser a) (lmp a - 1)))) mp.

  (** var.py:26-28 *)
  Definition var_run (p ddof : nat) (i0 : line) : line := walking p (calc_var p ddof) i0.
  (** stddev.py:26-28; Rolling.std is the square root of the variance *)
  Definition stddev_run (p ddof : nat) (i0 : line) : line := walking p (fun st => vsqrt (calc_var p ddof st)) i0.
  (** bbands.py:33-38 *)
  Definition bbands_run (p : nat) (devs : V) (ma : ma_fun V) (i0 : line) : res (line * line * line) :=
    mid <- ma p i0 ;;
    let devdist := rbinop_s vmul devs (stddev_run p 0 i0) in
    Ok (mid, ladd mid devdist, lsub mid devdist).
End RunVar.
Arguments vstate : clear implicits.
