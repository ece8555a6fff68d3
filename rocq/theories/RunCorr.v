(** Rolling correlations and beta the way pandas 1.0 computes them, from carried means, variances and sums
    (pandas/core/window/rolling.py: _Rolling_and_Expanding.corr, cov, not part of /repo; Running.v, RunVar.v).
    Simplification: the number of pairs in [bias_adj] is the window, as everywhere where the result is not NaN. *)
From Coq Require Import ZArith List Bool.
From Verif Require Import Num Series Line IndMA IndBasic IndStat Running RunVar.
Import ListNotations.
Set Implicit Arguments.

Section RunCorr.
  Context {V : Type} {N : Num V} {T : NumT V}.
  Notation line := (line V).

  (** _prep_binary: [arg1 + 0 * arg2], missing where either is *)
  Definition paired (s t : list V) : list V := map2 (fun x y => vadd x (vmul v0 y)) s t.
  Definition means (w : nat) (s : list V) : list V := ser_running (calc_mean w) w s.
  (** Rolling.std with ddof = 1 *)
  Definition devs (w : nat) (s : list V) : list V := ser_walk (fun st => vsqrt (calc_var w 1 st)) w s.
  (** Rolling.cov: (mean(X * Y) - mean(X) * mean(Y)) * bias_adj *)
  Definition covs (w : nat) (x y : list V) : list V :=
    let n := Z.of_nat w in
    map2 (fun m q => vmul (vsub m q) (vdiv (vofZ n) (vofZ (n - 1))))
      (means w (map2 vmul x y)) (map2 vmul (means w x) (means w y)).
  (** Rolling.corr: cov / (std * std), after _prep_binary *)
  Definition ser_corr (w : nat) (s t : list V) : list V :=
    let x := paired s t in
    let y := paired t s in
    map2 vdiv (covs w x y) (map2 vmul (devs w x) (devs w y)).
  (** correl.py:30-31; slices and storage as [Line.rolling2] (lines.py:207-251) *)
  Definition correl_run (p : nat) (i0 i1 : line) : line :=
    let mp := Z.max (lmp i0 + (Z.of_nat p - 0 - 1)) 1 in
    let x := slice_from (lser i0) (lmp i0 - 1) in
    let y := slice_from (lser i1) (lmp i0 - 1) in
    clone i0 (set_from (nans (bars i0)) (lmp i0 - 1) (ser_corr p x y)) mp.
  (** beta.py:38-53 with running totals *)
  Definition beta_run (p : nat) (prets : Z) (rets : bool) (asset market : line) : line :=
    let x := if rets then pct_change asset prets else asset in
    let y := if rets then pct_change market prets else market in
    let s_x := sumn_run p x in
    let s_y := sumn_run p y in
    let s_xx := sumn_run p (pow2 x) in
    let s_xy := sumn_run p (lmul x y) in
    let vp := vofZ (Z.of_nat p) in
    ldiv (lsub (rbinop_s vmul vp s_xy) (lmul s_x s_y))
         (lsub (rbinop_s vmul vp s_xx) (pow2 s_x)).
End RunCorr.
