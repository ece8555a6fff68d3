(** Vocabulary of the statements about running totals and accuracy in float64. *)
From Coq Require Import ZArith Reals List.
From Flocq Require Import Core.
From Verif Require Import Num Float64 FloatSpec.
Import ListNotations.
Local Open Scope R_scope.

(** the relative error of one rounded operation is at most this *)
Definition ulp1 : R := bpow radix2 (-53).
(** the usual bound for the relative error of [k] rounded operations *)
Definition gamma (k : nat) : R := INR k * ulp1 / (1 - INR k * ulp1).
(** the exact sum of doubles, and of their sizes *)
Fixpoint fsum (l : list float) : R := match l with [] => 0 | x :: l' => val x + fsum l' end.
Fixpoint fabs (l : list float) : R := match l with [] => 0 | x :: l' => Rabs (val x) + fabs l' end.
(** finite and at most [M] in size *)
Definition sized (M : R) (x : float) : Prop := finite x /\ Rabs (val x) <= M.
