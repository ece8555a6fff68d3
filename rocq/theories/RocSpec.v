(** Vocabulary of the statements about the direction of a change. *)
From Verif Require Import Num Float64.

(** [r] is above, at or below [m] exactly when [x] is above, at or below [y] *)
Definition compares_as (r m x y : float) : Prop :=
  vltb m r = vltb y x /\ vltb r m = vltb x y /\ veqb r m = veqb x y.
