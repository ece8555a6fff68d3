(** Specification used by Prop_Forget.v: results that stop depending on old history. *)
From Coq Require Import List Reals.
From Verif Require Import Num Series Line Spec RSpec LineFacts.
Import ListNotations.
Local Open Scope R_scope.

(** [f] settles: for prices between [lo] and [hi] and any tolerance there is a number of bars [M],
    chosen before the prices, such that whichever and however many old bars are left out, from the
    [M]-th kept bar on the result differs from the one over the full history by at most the
    tolerance.  [a] is the full history: [d + n] bars, usable from bar [k] on; [a'] is what remains
    of it without its first [d] bars. *)
Definition settles (f : line (ext R) -> res (line (ext R))) : Prop :=
  forall lo hi eps, 0 < eps ->
  exists M : nat, forall (a a' : line (ext R)) (d n k : nat) (x : nat -> R),
    feeds a (d + n) k (fin x) ->
    feeds a' n k (fin (fun i => x (d + i)%nat)) ->
    (forall j, (k <= j < d + n)%nat -> lo <= x j <= hi) ->
    (k + M <= n)%nat ->
    exists y y', f a = Ok y /\ f a' = Ok y' /\
      forall i, (k + M <= i < n)%nat ->
      exists v v', nth_error (lser y) (d + i) = Some (Fin v) /\
                   nth_error (lser y') i = Some (Fin v') /\ Rabs (v' - v) <= eps.
