(** Vocabulary of C138: what is seen where prices do not move. *)
From Coq Require Import Reals.
From Verif Require Import Num Series Line Float64 FloatSpec.
Local Open Scope R_scope.

(** nothing: missing or a zero of either sign *)
Definition nothing (x : float) : Prop := missing x \/ (finite x /\ val x = 0).
(** an average of nothing is nothing *)
Definition keeps_nothing (ma : nat -> line float -> res (line float)) : Prop :=
  forall p a y, (1 <= p)%nat -> every nothing a -> ma p a = Ok y -> every nothing y.

