(** Textbook definitions for the true range and the directional movement system. *)
From Coq Require Import ZArith List Bool Reals.
From Verif Require Import Num Series Line Spec RSpec BoundSpec IndMA.
Import ListNotations.
Local Open Scope R_scope.

(** true range of bar [i] against the close [q] bars before *)
Definition true_range (h l c : nat -> R) (q i : nat) : R :=
  Rmax (h i) (c (i - q)%nat) - Rmin (l i) (c (i - q)%nat).

(** up and down moves over [q] bars and the directional movement *)
Definition up_move (h : nat -> R) (q i : nat) : R := h i - h (i - q)%nat.
Definition down_move (l : nat -> R) (q i : nat) : R := l (i - q)%nat - l i.
Definition plus_move (h l : nat -> R) (q i : nat) : R :=
  if Rlt_dec (down_move l q i) (up_move h q i) then Rmax (up_move h q i) 0 else 0.
Definition minus_move (h l : nat -> R) (q i : nat) : R :=
  if Rlt_dec (up_move h q i) (down_move l q i) then Rmax (down_move l q i) 0 else 0.

(** Wilder's smoothed accumulation [e] of [x], with the value [s] at bar [q] *)
Definition is_accumulation (p q : nat) (s : R) (x e : nat -> R) : Prop :=
  e q = s /\ forall i, (q <= i)%nat -> e (S i) = e i - e i / INR p + x (S i).

(** [sm] can smooth a line whose first value is at bar [k] (1 or later; missing values before):
    it delivers from bar [first k] on, and a larger non-negative line has a larger
    non-negative result *)
Definition smooths (sm : line (ext R) -> res (line (ext R))) (first : nat -> nat) : Prop :=
  (forall a n k x, delivers a n k (fin x) -> (1 <= k)%nat -> (first k < n)%nat ->
     exists y e, sm a = Ok y /\ delivers y n (first k) (fin e)) /\
  (forall a a' y y' n k x x' e e',
     delivers a n k (fin x) -> delivers a' n k (fin x') -> (1 <= k)%nat -> (first k < n)%nat ->
     sm a = Ok y -> delivers y n (first k) (fin e) ->
     sm a' = Ok y' -> delivers y' n (first k) (fin e') ->
     (forall j, (k <= j < n)%nat -> 0 <= x j <= x' j) ->
     forall i, (first k <= i < n)%nat -> 0 <= e i <= e' i).
