(** Line._apply and Line._applymulti with any function and any arguments: lines, indicators, Series and other objects.
    (Apply.v has the calls of the library itself, whose functions return as many values as they get.) *)
From Coq Require Import ZArith String List Bool.
From Verif Require Import Num Series Line Py LinesGen Holder Operand LineApi.
Import ListNotations.
Set Implicit Arguments.

Section ApplyAny.
  Context {V : Type} {N : Num V} {A : Type}.
  Notation line := (line V).
  Open Scope Z_scope.

  (** what the caller may pass besides the function *)
  Inductive uarg := UInd (h : holder (list V)) | ULine (l : line) | USer (s : list V) | UOther (x : A).
  (** what the function is called with *)
  Inductive farg := FSer (s : list V) | FOther (x : A).

  (** lines.py:548-550 getattr(x, '_minperiod', 1) *)
  Definition arg_mp (x : uarg) : res Z :=
    match x with
    | UInd h => asked_minperiod h
    | ULine l => Ok (lmp l)
    | USer _ | UOther _ => Ok 1
    end.
  (** lines.py:557-562, 567-572 getattr(x, '_series', x), cut if it is a Series.  [raw] only changes the container of
      the values (array or Series) and is left out. *)
  Definition arg_cut (idx : Z) (x : uarg) : res farg :=
    match x with
    | UInd h => s <- asked_series h ;; Ok (FSer (slice_from s idx))
    | ULine l => Ok (FSer (slice_from (lser l) idx))
    | USer s => Ok (FSer (slice_from s idx))
    | UOther x => Ok (FOther x)
    end.
  Fixpoint all_ok {B C} (f : B -> res C) (l : list B) : res (list C) :=
    match l with
    | [] => Ok []
    | x :: l' => y <- f x ;; ys <- all_ok f l' ;; Ok (y :: ys)
    end.

  (** lines.py:546-575 Line._minperiodize: the common minimum period and the cut arguments *)
  Definition minperiodize (a : line) (args : list uarg) (kwargs : list (string * uarg))
    : res (Z * list farg * list (string * farg)) :=
    ms <- all_ok arg_mp args ;;
    ks <- all_ok (fun kx => arg_mp (snd kx)) kwargs ;;
    let mp := fold_left Z.max (ms ++ ks) (lmp a) in
    nargs <- all_ok (arg_cut (mp - 1)) args ;;
    nkw <- all_ok (fun kx => y <- arg_cut (mp - 1) (snd kx) ;; Ok (fst kx, y)) kwargs ;;
    Ok (mp, nargs, nkw).

  (** lines.py:577-587 Line._apply *)
  Definition apply_any (F : list V -> list farg -> list (string * farg) -> res (list V))
    (a : line) (args : list uarg) (kwargs : list (string * uarg)) : res line :=
    t <- minperiodize a args kwargs ;;
    let '(mp, nargs, nkw) := t in
    r <- F (slice_from (lser a) (mp - 1)) nargs nkw ;;
    s <- put vnan (bars a) (mp - 1) r ;;
    Ok (clone a s mp).

  (** lines.py:589-603 Line._applymulti *)
  Definition applymulti_any (F : list V -> list farg -> list (string * farg) -> res (list (list V)))
    (a : line) (args : list uarg) (kwargs : list (string * uarg)) : res (list line) :=
    t <- minperiodize a args kwargs ;;
    let '(mp, nargs, nkw) := t in
    rs <- F (slice_from (lser a) (mp - 1)) nargs nkw ;;
    all_ok (fun r => s <- put vnan (bars a) (mp - 1) r ;; Ok (clone a s mp)) rs.
End ApplyAny.
Arguments uarg : clear implicits.
Arguments farg : clear implicits.
