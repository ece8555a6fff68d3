(** Real-valued vocabulary of the property theorems (textbook definitions). *)
From Coq Require Import List Reals.
From Verif Require Import Num Series Line Spec.
Import ListNotations.
Local Open Scope R_scope.

(** a finite line: the values [x i] are real numbers *)
Definition fin (x : nat -> R) : nat -> ext R := fun i => Fin (x i).

Definition Rsum (l : list R) : R := fold_right Rplus 0 l.
Definition Rmean (l : list R) : R := Rsum l / INR (length l).

(** the last [p] values of [x] up to bar [i] *)
Definition lastp (x : nat -> R) (i p : nat) : list R := win x i p.

(** [m] is the largest / smallest element of [l] *)
Definition is_max (m : R) (l : list R) : Prop := In m l /\ forall v, In v l -> v <= m.
Definition is_min (m : R) (l : list R) : Prop := In m l /\ forall v, In v l -> m <= v.

(** all of the bars k..i lie between lo and hi *)
Definition within (x : nat -> R) (k i : nat) (lo hi : R) : Prop :=
  forall j, (k <= j <= i)%nat -> lo <= x j <= hi.

(** [e] is the exponential moving average with period [p] of the values [x] available
    from bar [k] on: the seed is the mean of the first [p] values, then the usual
    recurrence with factor 2 / (p + 1). *)
Definition is_ema (p k : nat) (x e : nat -> R) : Prop :=
  e (k + p - 1)%nat = Rmean (lastp x (k + p - 1) p) /\
  forall i, (k + p - 1 <= i)%nat ->
    e (S i) = (1 - 2 / (INR p + 1)) * e i + 2 / (INR p + 1) * x (S i).

(** Wilder's smoothed / modified moving average *)
Definition is_smma (p k : nat) (x e : nat -> R) : Prop :=
  e (k + p - 1)%nat = Rmean (lastp x (k + p - 1) p) /\
  forall i, (k + p - 1 <= i)%nat ->
    e (S i) = (e i * (INR p - 1) + x (S i)) / INR p.

(** weighted mean *)
Definition Rdot (w x : list R) : R := Rsum (map (fun '(a, b) => a * b) (combine w x)).
Definition wmean (w x : list R) : R := Rdot w x / Rsum w.

(** floating point quotient of two numbers: a division by zero gives an infinity with the
    sign of the numerator, and NaN for 0/0 *)
Definition quot (a b : R) : ext R :=
  if Req_EM_T b 0 then
    (if Rlt_dec 0 a then PInf else if Rlt_dec a 0 then NInf else NaN)
  else Fin (a / b).

(** largest / smallest element of a list (first element when there is only one) *)
Definition lmax (l : list R) : R :=
  match l with [] => 0 | x :: l' => fold_left Rmax l' x end.
Definition lmin (l : list R) : R :=
  match l with [] => 0 | x :: l' => fold_left Rmin l' x end.
