(** Textbook definitions of the statistics used in the property theorems. *)
From Coq Require Import List Reals.
From Verif Require Import Num Spec RSpec.
Import ListNotations.
Local Open Scope R_scope.

(** sum of the squared deviations from the mean *)
Definition sqdev (l : list R) : R := Rsum (map (fun v => (v - Rmean l) ^ 2) l).
(** variance with [ddof] degrees of freedom removed: 0 population, 1 sample *)
Definition Rvar (ddof : nat) (l : list R) : R := sqdev l / (INR (length l) - INR ddof).
(** mean absolute deviation from the mean *)
Definition Rmad (l : list R) : R := Rmean (map (fun v => Rabs (v - Rmean l)) l).

(** all values are equal *)
Definition constant (l : list R) : Prop := forall u v, In u l -> In v l -> u = v.

(** squared error of the straight line y = b + m * x over a list of points (x, y) *)
Definition sse (pts : list (R * R)) (b m : R) : R :=
  Rsum (map (fun '(x, y) => (y - (b + m * x)) ^ 2) pts).
(** b + m * x is the only straight line with the smallest squared error *)
Definition least_squares (pts : list (R * R)) (b m : R) : Prop :=
  forall b' m', sse pts b m <= sse pts b' m' /\
                (sse pts b' m' <= sse pts b m -> b' = b /\ m' = m).

(** the window as points: the oldest value at x = 0, the newest at x = p - 1 *)
Definition by_position (l : list R) : list (R * R) :=
  combine (map INR (seq 0 (length l))) l.

(** sum of the products of the deviations, and Pearson's correlation coefficient *)
Definition codev (l m : list R) : R :=
  Rsum (map (fun '(u, v) => (u - Rmean l) * (v - Rmean m)) (combine l m)).
Definition pearson (l m : list R) : R := codev l m / sqrt (sqdev l * sqdev m).
