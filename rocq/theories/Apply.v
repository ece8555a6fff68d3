(** Line._apply and Line._applymulti: a function over the raw bars of several lines. *)
From Coq Require Import ZArith List Bool.
From Verif Require Import Num Series Line.
Import ListNotations.
Set Implicit Arguments.

Section Apply.
  Context {V : Type} {N : Num V}.
  Notation line := (line V).
  Open Scope Z_scope.

  (** lines.py:546-575 Line._minperiodize: the largest minimum period of the line and its
      arguments *)
  Definition max_mp (a : line) (args : list line) : Z :=
    fold_left (fun m x => Z.max m (lmp x)) args (lmp a).

  (** lines.py:577-587 Line._apply: [F] gets the bars of the line and of the arguments from
      the common minimum period on; the result is stored from there.  (The arguments of
      the code that are not lines are closed over by [F].  A result of another length
      makes pandas raise; no caller returns one.) *)
  Definition apply_ (F : list V -> list (list V) -> res (list V)) (a : line) (args : list line) : res line :=
    let mp := max_mp a args in
    let idx := mp - 1 in
    r <- F (slice_from (lser a) idx) (map (fun x => slice_from (lser x) idx) args) ;;
    Ok (clone a (set_from (nans (length (lser a))) idx r) mp).

  (** lines.py:589-603 Line._applymulti: the same with several results *)
  Definition applymulti_ (F : list V -> list (list V) -> res (list (list V))) (a : line) (args : list line)
    : res (list line) :=
    let mp := max_mp a args in
    let idx := mp - 1 in
    rs <- F (slice_from (lser a) idx) (map (fun x => slice_from (lser x) idx) args) ;;
    Ok (map (fun r => clone a (set_from (nans (length (lser a))) idx r) mp) rs).
End Apply.
