(** Notions used in the statements about the containers of lines. *)
From Coq Require Import List String Bool Arith ZArith.
From Verif Require Import Series Py LinesGen Holder.
Import ListNotations.
Set Implicit Arguments.
Local Open Scope string_scope.
Local Open Scope list_scope.
Local Open Scope nat_scope.

(** [v] is the last value assigned to the output [s], directly or through an old name *)
Definition last_given {A} (cls : lclass) (outs : list (string * hval A)) (s : string) (v : hval A) : Prop :=
  exists l1 n l2, outs = l1 ++ (n, v) :: l2 /\ resolve cls n = Slot s /\
    forall m w, In (m, w) l2 -> resolve cls m <> Slot s.

(** names that are looked up on the indicator before its outputs *)
Definition reserved {A} (h : holder A) (s : string) : Prop :=
  In s holder_props \/ In s holder_own \/ In s (hd_extra h) \/ In s (dkeys (hd_attrs h)).

(** the name [s] refers to the line [n] of the outputs: [n] is [s] itself, or the new name when [s] is the name of an
    output of a base class that was renamed *)
Definition refers (cls : lclass) (s n : string) : Prop := resolve cls s = Slot n \/ resolve cls s = Plain n.

(** the body leaves the attribute alone *)
Definition leaves (body : list act) (s : string) : Prop :=
  forall a, In a body -> match a with ASet x _ => x <> s | ADel x => x <> s end.
(** the names made from a prefix and a number *)
Definition prefixes : list string := ["i"; "input"; "d"; "data"; "i_"; "input_"; "d_"; "data_"].

(** the names without a number *)
Definition fixed_names : list string :=
  ["outputs"; "o"; "lines"; "l"; "inputs"; "i"; "datas"; "d"; "data"; "_minperiods"; "_minperiod"; "params"; "p"].

(** outputs assigned by position, one after the other: indicator.outputs[i] = v (lines.py:662-663) *)
Fixpoint lsetitems {A} (c : cont A) (l : list (Z * hval A)) : res (cont A) :=
  match l with [] => Ok c | (i, v) :: l' => c' <- lsetitem c i v ;; lsetitems c' l' end.
(** the same indicator with these outputs *)
Definition with_outputs {A} (h : holder A) (o : cont A) : holder A := mkHolder (hd_attrs h) (hd_extra h) o.
