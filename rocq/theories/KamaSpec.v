(** Vocabulary of the properties of Kaufman's adaptive average. *)
From Coq Require Import List Reals.
From Verif Require Import Num Series Line Spec RSpec.
Local Open Scope R_scope.

(** length of the path walked in the last [p] bars, in steps of [q] bars *)
Definition path (p q : nat) (x : nat -> R) (i : nat) : R :=
  Rsum (lastp (fun j => Rabs (x j - x (j - q)%nat)) i p).

(** Kaufman's efficiency ratio: net move over path walked *)
Definition efficiency (p q : nat) (x : nat -> R) (i : nat) : R :=
  Rabs (x i - x (i - p)%nat) / path p q x i.

(** exponential factor of an average with period [m] *)
Definition factor (m : R) : R := 2 / (m + 1).

(** smoothing constant *)
Definition smoothing (fast slow e : R) : R :=
  (e * (factor fast - factor slow) + factor slow) ^ 2.

(** [y] is the adaptive average started at bar [m] with [seed], up to bar [n - 1] *)
Definition is_kama (p q m n : nat) (fast slow seed : R) (x y : nat -> R) : Prop :=
  y m = seed /\
  forall i, (m <= i)%nat -> (S i < n)%nat ->
    y (S i) = y i + smoothing fast slow (efficiency p q x (S i)) * (x (S i) - y i).
