(** Vocabulary of C97 to C102. *)
From Coq Require Import List Bool.
From Verif Require Import Num Series Line.
Import ListNotations.

(** the values of the bars from [k] on, of [n] bars *)
Definition delivered {A} (f : nat -> A) (k n : nat) : list A := map f (seq k (n - k)).

(** the values of the bars from [k] to [i] *)
Definition since {A} (f : nat -> A) (k i : nat) : list A := map f (seq k (S i - k)).

(** the number of bars from [k] to [n - 1] with a value *)
Definition number_of (p : nat -> bool) (k n : nat) : nat := length (filter p (seq k (n - k))).
