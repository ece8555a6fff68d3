(** What a function applied to lines gets to see. *)
From Coq Require Import ZArith String List.
From Verif Require Import Num Series Line Spec LineApiSpec Py LinesGen Holder Operand OperandSpec ApplyAny.
Import ListNotations.
Set Implicit Arguments.

Section Sees.
  Context {V : Type} {N : Num V} {A : Type}.
  (** [sees n x k v]: with data of [n] bars the argument [x] is complete from bar [k] on, and the function that starts
      at bar [m] gets [v m].  An indicator is complete when all its outputs are, and stands for its first output. *)
  Inductive sees (n : nat) : uarg V A -> nat -> (nat -> farg V A) -> Prop :=
  | sees_line l k f : feeds l n k f -> sees n (ULine l) k (fun m => FSer (delivered f m n))
  | sees_indicator h k K f : built h -> yields h n k K f -> sees n (UInd h) K (fun m => FSer (delivered f m n))
  | sees_series s f : (forall i, (i < n)%nat -> nth_error s i = Some (f i)) -> length s = n ->
      sees n (USer s) 0 (fun m => FSer (delivered f m n))
  | sees_other x : sees n (UOther x) 0 (fun _ => FOther x).
  (** the same for a list of arguments: the bar from which on all are complete *)
  Inductive see_all (n : nat) : list (uarg V A) -> nat -> (nat -> list (farg V A)) -> Prop :=
  | see_none : see_all n [] 0 (fun _ => [])
  | see_cons x l k K v vs : sees n x k v -> see_all n l K vs -> see_all n (x :: l) (Nat.max k K) (fun m => v m :: vs m).
End Sees.
