(** Vocabulary of the volume properties. *)
From Coq Require Import List Reals.
From Verif Require Import Num Series Line Spec RSpec.
Import ListNotations.
Local Open Scope R_scope.

(** total of the bars k..i *)
Definition total (x : nat -> R) (k i : nat) : R := Rsum (map x (seq k (S i - k))).

(** position of the close inside its bar, -1 at the low and 1 at the high; 0 for a bar
    without range *)
Definition close_position (h l c : nat -> R) (i : nat) : R :=
  if Req_EM_T (h i) (l i) then 0 else ((c i - l i) - (h i - c i)) / (h i - l i).

(** volume with the sign of the change over [q] bars *)
Definition signed_volume (c v : nat -> R) (q i : nat) : R :=
  if Rlt_dec (c (i - q)%nat) (c i) then v i
  else if Rlt_dec (c i) (c (i - q)%nat) then - v i else 0.
