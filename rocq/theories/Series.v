(** pandas / numpy primitives used by the library, by position.

    These functions are not part of /repo; they model the documented behaviour of
    pandas 1.0 (the version range of the project) for the calls made in
    btalib/meta/lines.py and btalib/indicators.  A Series is the list of its
    values; all Series of one calculation share one (non-integer) index, so index
    alignment never changes anything (Indexed.v models operators between Series with
    different indexes). *)
From Coq Require Import ZArith List Bool.
From Verif Require Import Num.
Import ListNotations.
Set Implicit Arguments.

(** ** Results that may be an exception *)

Inductive exc : Type :=
| IndexError | TypeError | ValueError | AttributeError | KeyError | ZeroDivisionError
| RecursionError
| InputsError.                         (* btalib/errors.py *)

Inductive res (A : Type) : Type :=
| Ok : A -> res A
| Raise : exc -> res A.
Arguments Ok {A} _. Arguments Raise {A} _.

Definition bind {A B : Type} (x : res A) (f : A -> res B) : res B :=
  match x with Ok a => f a | Raise e => Raise e end.
Notation "x <- e ;; f" := (bind e (fun x => f))
  (at level 61, e at next level, right associativity).

(** ** Positional slices  s[i:], s[i:j], s[i:] = r  (Python bounds, negative allowed) *)

Definition slice_lo (n : nat) (i : Z) : nat :=
  if (i <? 0)%Z then Z.to_nat (Z.of_nat n + i) else Nat.min (Z.to_nat i) n.

Definition slice_from {A} (s : list A) (i : Z) : list A :=
  skipn (slice_lo (length s) i) s.

Definition slice {A} (s : list A) (i j : Z) : list A :=
  firstn (slice_lo (length s) j - slice_lo (length s) i) (skipn (slice_lo (length s) i) s).

(** [s[i:] = r].  In the library [r] always has the length of [s[i:]] (pandas would
    raise otherwise). *)
Definition set_from {A} (s : list A) (i : Z) (r : list A) : list A :=
  firstn (slice_lo (length s) i) s ++ r.

(** [s[i:j] = v] for a scalar v. *)
Definition set_slice {A} (s : list A) (i j : Z) (v : A) : list A :=
  let a := slice_lo (length s) i in
  let b := slice_lo (length s) j in
  firstn a s ++ repeat v (b - a) ++ skipn (Nat.max a b) s.

(** [s[i]] (positional; IndexError when outside). *)
Definition getitem {A} (s : list A) (i : Z) : res A :=
  let n := Z.of_nat (length s) in
  let j := if (i <? 0)%Z then (n + i)%Z else i in
  if (j <? 0)%Z then Raise IndexError
  else match nth_error s (Z.to_nat j) with
       | Some a => Ok a
       | None => Raise IndexError
       end.

Fixpoint map2 {A B C} (f : A -> B -> C) (l : list A) (m : list B) : list C :=
  match l, m with
  | a :: l', b :: m' => f a b :: map2 f l' m'
  | _, _ => []
  end.

Section Prim.
  Context {V : Type} {N : Num V}.

  Definition v0 : V := vofZ 0.
  Definition v1 : V := vofZ 1.

  (** sum of an array (the summation order only matters for rounding) *)
  Definition vsum (l : list V) : V := fold_left vadd l v0.

  Definition notnan (l : list V) : list V := filter (fun x => negb (visnan x)) l.

  (** Series.sum() and Series.mean(), skipna=True *)
  Definition ser_sum (l : list V) : V := vsum (notnan l).
  Definition ser_mean (l : list V) : V :=
    match notnan l with
    | [] => vnan
    | m => vdiv (vsum m) (vofZ (Z.of_nat (length m)))
    end.

  (** Series.shift(periods=p) *)
  Definition ser_shift (s : list V) (p : Z) : list V :=
    if (p <? 0)%Z then
      skipn (Z.to_nat (- p)) s ++ repeat vnan (Nat.min (Z.to_nat (- p)) (length s))
    else
      repeat vnan (Nat.min (Z.to_nat p) (length s)) ++ firstn (length s - Z.to_nat p) s.

  (** Series.diff(periods=p) *)
  Definition ser_diff (s : list V) (p : Z) : list V := map2 vsub s (ser_shift s p).

  (** Series.ffill() (also the pad fill of pct_change) *)
  Fixpoint ffill_from (prev : V) (s : list V) : list V :=
    match s with
    | [] => []
    | x :: s' => let y := if visnan x then prev else x in y :: ffill_from y s'
    end.
  Definition ser_ffill (s : list V) : list V := ffill_from vnan s.

  (** Series.pct_change(periods=p): pad fill, then x / x.shift(p) - 1 *)
  Definition ser_pct_change (s : list V) (p : Z) : list V :=
    let d := ser_ffill s in
    map (fun x => vsub x v1) (map2 vdiv d (ser_shift d p)).

  (** Series.cumsum(), skipna=True: NaN stays NaN and counts as 0 *)
  Fixpoint cumsum_from (acc : V) (s : list V) : list V :=
    match s with
    | [] => []
    | x :: s' => if visnan x then vnan :: cumsum_from acc s'
                 else let a := vadd acc x in a :: cumsum_from a s'
    end.
  Definition ser_cumsum (s : list V) : list V := cumsum_from v0 s.

  (** Series.clip(lower=t) / clip(upper=t) at one position; NaN values stay *)
  Definition clip_lo (t x : V) : V := if visnan x then x else if vleb t x then x else t.
  Definition clip_hi (t x : V) : V := if visnan x then x else if vleb x t then x else t.

  (** Series.replace(to_replace=0.0, method='ffill'): a zero takes the value of the
      last earlier non-zero position (the leading zeros stay) *)
  Fixpoint repl0_from (prev : option V) (s : list V) : list V :=
    match s with
    | [] => []
    | x :: s' =>
        if veqb x v0 then
          match prev with
          | None => x :: repl0_from None s'
          | Some y => y :: repl0_from prev s'
          end
        else x :: repl0_from (Some x) s'
    end.
  Definition ser_replace0_ffill (s : list V) : list V := repl0_from None s.

  (** ** Rolling windows

      _prep_values turns infinities into NaN; min_periods defaults to the window, so
      a window with a missing value yields NaN. *)
  Definition prep (x : V) : V := if visinf x then vnan else x.

  Definition window {A} (s : list A) (i w : nat) : list A :=
    firstn w (skipn (S i - w) s).

  Definition guard_win (G : list V -> V) (win : list V) : V :=
    let win' := map prep win in
    if existsb visnan win' then vnan else G win'.

  Definition ser_rolling (w : nat) (G : list V -> V) (s : list V) : list V :=
    map (fun i => if S i <? w then vnan else guard_win G (window s i w))%nat
        (seq 0 (length s)).

  Definition vmax2 (a b : V) : V := if vltb a b then b else a.
  Definition vmin2 (a b : V) : V := if vltb b a then b else a.

  Definition win_sum (l : list V) : V := vsum l.
  Definition win_mean (l : list V) : V := vdiv (vsum l) (vofZ (Z.of_nat (length l))).
  Definition win_max (l : list V) : V :=
    match l with [] => vnan | x :: l' => fold_left vmax2 l' x end.
  Definition win_min (l : list V) : V :=
    match l with [] => vnan | x :: l' => fold_left vmin2 l' x end.

  (** numpy argmax / argmin: position of the first extreme *)
  Fixpoint argbest_from (better : V -> V -> bool) (best : V) (bi i : nat) (l : list V) : nat :=
    match l with
    | [] => bi
    | x :: l' => if better best x then argbest_from better x i (S i) l'
                 else argbest_from better best bi (S i) l'
    end.
  Definition argmax (l : list V) : nat :=
    match l with [] => 0 | x :: l' => argbest_from (fun b y => vltb b y) x 0 1 l' end.
  Definition argmin (l : list V) : nat :=
    match l with [] => 0 | x :: l' => argbest_from (fun b y => vltb y b) x 0 1 l' end.

  (** Rolling.var(ddof): NaN unless more than ddof values, 0 for a single value *)
  Definition win_var (ddof : nat) (l : list V) : V :=
    let n := length l in
    if (n <=? ddof)%nat then vnan
    else if (n =? 1)%nat then v0
    else
      let m := win_mean l in
      let ss := vsum (map (fun x => vmul (vsub x m) (vsub x m)) l) in
      let r := vdiv ss (vofZ (Z.of_nat n - Z.of_nat ddof)) in
      if vltb r v0 then v0 else r.

  (** Rolling.cov(other) with ddof=1:
      (mean(X*Y) - mean(X)*mean(Y)) * (n / (n - 1)) *)
  Definition win_cov (l m : list V) : V :=
    let n := Z.of_nat (length l) in
    vmul (vsub (win_mean (map2 vmul l m)) (vmul (win_mean l) (win_mean m)))
         (vdiv (vofZ n) (vofZ (n - 1))).

  (** ** Exponentially weighted mean: pandas _libs.window ewma, ignore_na=False, min_periods=0 *)
  Fixpoint ewma_from (alpha : V) (adjust : bool) (wa oldw : V) (s : list V) : list V :=
    match s with
    | [] => []
    | cur :: s' =>
        let newwt := if adjust then v1 else alpha in
        let '(wa', oldw') :=
          if visnan wa then
            ((if visnan cur then wa else cur), oldw)
          else
            let ow := vmul oldw (vsub v1 alpha) in
            if visnan cur then (wa, ow)
            else
              let wa2 := if veqb wa cur then wa
                         else vdiv (vadd (vmul ow wa) (vmul newwt cur)) (vadd ow newwt) in
              (wa2, if adjust then vadd ow newwt else v1)
        in wa' :: ewma_from alpha adjust wa' oldw' s'
    end.
  (** ewm(...).mean() of a Series; _prep_values as for rolling *)
  Definition ser_ewma (alpha : V) (adjust : bool) (s : list V) : list V :=
    match map prep s with
    | [] => []
    | x :: s' => x :: ewma_from alpha adjust x v1 s'
    end.
  (** com / span to alpha: alpha = 1 / (1 + com), com = (span - 1) / 2 *)
  Definition alpha_com (com : V) : V := vdiv v1 (vadd v1 com).
  Definition alpha_span (span : V) : V := alpha_com (vdiv (vsub span v1) (vofZ 2)).
End Prim.
