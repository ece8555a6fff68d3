(** Vocabulary of the property theorems. *)
From Coq Require Import ZArith List Reals.
From Verif Require Import Num Series Line.
Import ListNotations.
Set Implicit Arguments.

Section Spec.
  Context {V : Type} {N : Num V}.

  (** [feeds l n k f]: line [l] has [n] bars, declares the minimum period [k + 1] and
      holds the value [f i] at every bar [i] (0-based) from [k] on.  What it holds
      before is not restricted. *)
  Definition feeds (l : line V) (n k : nat) (f : nat -> V) : Prop :=
    lmp l = Z.of_nat (S k) /\
    length (lser l) = n /\
    forall i, (k <= i < n)%nat -> nth_error (lser l) i = Some (f i).

  (** [delivers l n k f]: in addition every bar before [k] is NaN. *)
  Definition delivers (l : line V) (n k : nat) (f : nat -> V) : Prop :=
    feeds l n k f /\
    forall i, (i < k)%nat -> (i < n)%nat -> nth_error (lser l) i = Some vnan.

  (** the same for boolean lines; their warm-up bars hold True *)
  Definition bfeeds (l : bline) (n k : nat) (f : nat -> bool) : Prop :=
    bmp l = Z.of_nat (S k) /\
    length (bser l) = n /\
    forall i, (k <= i < n)%nat -> nth_error (bser l) i = Some (f i).
  Definition bdelivers (l : bline) (n k : nat) (f : nat -> bool) : Prop :=
    bfeeds l n k f /\
    forall i, (i < k)%nat -> (i < n)%nat -> nth_error (bser l) i = Some true.

  (** the last [w] values up to bar [i], oldest first *)
  Definition win (f : nat -> V) (i w : nat) : list V := map f (seq (S i - w) w).

  (** a usable number: neither NaN nor infinite *)
  Definition usable (v : V) : Prop := visnan v = false /\ visinf v = false.

  (** [extends l l']: the same line calculated on a longer history: the bars of [l] are
      unchanged in [l'] and the minimum period is the same. *)
  Definition extends (l l' : line V) : Prop :=
    lmp l = lmp l' /\ exists t, lser l' = lser l ++ t.
End Spec.
