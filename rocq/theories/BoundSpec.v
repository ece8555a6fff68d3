(** Vocabulary of the bounds on oscillators. *)
From Coq Require Import List Reals.
From Verif Require Import Num Series Line Spec RSpec IndMA.
Local Open Scope R_scope.

(** missing, or a number between [lo] and [hi] *)
Definition num_in (lo hi : R) (v : ext R) : Prop :=
  v = NaN \/ exists r, v = Fin r /\ lo <= r <= hi.

(** [y] is a line with [n] bars and minimum period [k + 1] that holds, at every bar, a
    missing value or a number between [lo] and [hi] (and only missing values before [k]) *)
Definition bounded (y : line (ext R)) (n k : nat) (lo hi : R) : Prop :=
  exists f, delivers y n k f /\ forall i, (k <= i < n)%nat -> num_in lo hi (f i).

(** an average [ma] that delivers [p - 1] bars after its input and never leaves the range of
    its inputs, even when some of them are missing *)
Definition keeps_range (ma : ma_fun (ext R)) : Prop :=
  forall p a n k f lo hi,
    feeds a n k f -> (1 <= p)%nat -> (k + p <= n)%nat ->
    (forall i, (k <= i < n)%nat -> num_in lo hi (f i)) ->
    exists y, ma p a = Ok y /\ bounded y n (k + p - 1) lo hi.

(** an average or sum [ma] of non-negative numbers: it delivers [p - 1] bars after its input,
    is never negative, and is zero exactly when all the values it remembers are zero.
    [since p k i] is the oldest bar remembered at bar [i] when the input starts at bar [k]. *)
Definition accumulates (ma : ma_fun (ext R)) (since : nat -> nat -> nat -> nat) : Prop :=
  forall p a n k x,
    feeds a n k (fin x) -> (1 <= p)%nat -> (k + p <= n)%nat ->
    (forall i, (k <= i < n)%nat -> 0 <= x i) ->
    exists y e, ma p a = Ok y /\ delivers y n (k + p - 1) (fin e) /\
      forall i, (k + p - 1 <= i < n)%nat ->
        0 <= e i /\ (e i = 0 <-> forall j, (since p k i <= j <= i)%nat -> x j = 0).

(** the last [p] bars; and (from a period of 2 on) all bars since the first one *)
Definition last_bars (p k i : nat) : nat := (S i - p)%nat.
Definition all_bars (p k i : nat) : nat := if Nat.eqb p 1 then i else k.

(** strength index of gains [U] against losses [D] *)
Definition strength_of (U D : R) : ext R := quot (100 * U) (U + D).
