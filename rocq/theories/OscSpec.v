(** Vocabulary of the oscillator properties (textbook definitions over the reals). *)
From Coq Require Import List Reals.
From Verif Require Import Num Series Line Spec RSpec.
Import ListNotations.
Local Open Scope R_scope.

(** typical price; money that flowed in (out) on a bar whose typical price rose (fell) *)
Definition typical (h l c : nat -> R) (i : nat) : R := (h i + l i + c i) / 3.
Definition inflow (t v : nat -> R) (i : nat) : R :=
  if Rlt_dec (t (i - 1)%nat) (t i) then t i * v i else 0.
Definition outflow (t v : nat -> R) (i : nat) : R :=
  if Rlt_dec (t i) (t (i - 1)%nat) then t i * v i else 0.

(** highest high and lowest low of the last [p] bars *)
Definition highest (h : nat -> R) (p i : nat) : R := lmax (lastp h i p).
Definition lowest (l : nat -> R) (p i : nat) : R := lmin (lastp l i p).

(** [d] bars ago lies the most recent of the highest (lowest) of the last [w] values *)
Definition bars_since_high (x : nat -> R) (w i d : nat) : Prop :=
  (d < w)%nat /\
  (forall j, (j < w)%nat -> x (i - j)%nat <= x (i - d)%nat) /\
  (forall j, (j < d)%nat -> x (i - j)%nat < x (i - d)%nat).
Definition bars_since_low (x : nat -> R) (w i d : nat) : Prop :=
  (d < w)%nat /\
  (forall j, (j < w)%nat -> x (i - d)%nat <= x (i - j)%nat) /\
  (forall j, (j < d)%nat -> x (i - d)%nat < x (i - j)%nat).

(** buying pressure of a bar *)
Definition pressure (l c : nat -> R) (i : nat) : R := c i - Rmin (l i) (c (i - 1)%nat).

(** where a value lies between the lowest and highest of the last [p], as a number between
    0 and [scale] *)
Definition rank_of (scale lo hi x : R) : ext R := quot (scale * (x - lo)) (hi - lo).
