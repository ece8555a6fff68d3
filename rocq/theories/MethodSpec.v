(** Methods of a line that read lines, indicators and Series among their arguments. *)
From Coq Require Import String List.
From Verif Require Import Operand ApplyAny MethodArgs.
Import ListNotations.
Local Open Scope string_scope.
(** passed by position, as in line.where(cond, other) *)
Definition by_position : list string := ["append"; "between"; "combine"; "combine_first"; "concat"; "isin"; "mask"; "where"].
(** passed by keyword, as in line.clip(lower=other) *)
Definition by_keyword : list string := ["apply"; "clip"; "mask"; "where"].
(** methods that give one value, arguments passed by position *)
Definition reduced_with : list string := ["corr"; "cov"; "dot"; "equals"].

(** What pandas is called with for an argument that was read: the values of a line, indicator or Series, and any other
    object itself. *)
Inductive passed {V A} : farg V A -> marg V A -> Prop :=
  | passed_values s : passed (FSer s) (MSer s)
  | passed_other y : passed (FOther y) (MObj (UOther y)).
(** What pandas is called with for an argument that was not read: the very object; for a Series that is its values. *)
Inductive unread {V A} : uarg V A -> marg V A -> Prop :=
  | unread_series s : unread (USer s) (MSer s)
  | unread_line l : unread (ULine l) (MObj (ULine l))
  | unread_indicator m : unread (UInd m) (MObj (UInd m))
  | unread_other y : unread (UOther y) (MObj (UOther y)).
(** Keyword arguments keep their names. *)
Definition unread_kw {V A} (x : string * uarg V A) (y : string * marg V A) : Prop := fst y = fst x /\ unread (snd x) (snd y).
