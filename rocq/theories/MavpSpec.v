(** Vocabulary of the properties of the average with variable period. *)
From Coq Require Import ZArith List Arith.
From Verif Require Import Num Series Line Spec IndMA.
Import ListNotations.
Set Implicit Arguments.

(** period [p] restricted to lo..hi *)
Definition clamp (lo hi p : nat) : nat := Nat.max lo (Nat.min hi p).

(** [M] is the largest of the restricted periods *)
Definition largest_period (lo hi : nat) (periods : list nat) (M : nat) : Prop :=
  In M (map (clamp lo hi) periods) /\ forall p, In p periods -> clamp lo hi p <= M.

(** a moving average that does not repaint and has the usual minimum period *)
Definition steady {V} {N : Num V} (ma : ma_fun V) : Prop :=
  forall p (a a' : line V) y,
    1 <= p -> (1 <= lmp a)%Z -> extends a a' -> ma p a = Ok y ->
    lmp y = (lmp a + Z.of_nat p - 1)%Z /\ length (lser y) = length (lser a) /\
    exists y', ma p a' = Ok y' /\ extends y y'.
