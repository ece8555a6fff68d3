(** Vocabulary of the statements about double precision numbers. *)
From Coq Require Import ZArith Reals List.
From Flocq Require Import Core IEEE754.BinarySingleNaN.
From Verif Require Import Num Series Line Float64.
Import ListNotations.
Local Open Scope R_scope.

(** the real number a finite double stands for (0 for NaN and the infinities, see [finite]) *)
Definition val (x : float) : R := B2R x.
Definition finite (x : float) : Prop := is_finite x = true.
Definition missing (x : float) : Prop := is_nan x = true.

(** [x] is a finite double between [lo] and [hi] *)
Definition within (lo hi : R) (x : float) : Prop := finite x /\ lo <= val x <= hi.
(** missing or between the two *)
Definition nan_or_within (lo hi : R) (x : float) : Prop := missing x \/ within lo hi x.

(** every bar of a line *)
Definition every {V} (P : V -> Prop) (a : line V) : Prop := Forall P (lser a).

(** not negative: NaN, a zero of either sign, a positive number or +inf *)
Definition nonneg (x : float) : Prop :=
  match x with
  | B754_nan => True
  | B754_zero _ => True
  | B754_infinity s => s = false
  | B754_finite s _ _ _ => s = false
  end.
(** NaN or with a clear sign bit: +0, a positive number or +inf *)
Definition unsigned (x : float) : Prop := is_nan x = true \/ Bsign x = false.

(** an average of values that are not negative is not negative *)
Definition keeps_nonneg (ma : nat -> line float -> res (line float)) : Prop :=
  forall p a y, (1 <= p)%nat -> every nonneg a -> ma p a = Ok y -> every nonneg y.

(** the exact number a double stands for, with NaN and the infinities; both zeros are 0 *)
Definition exact (x : float) : ext R :=
  match x with
  | B754_nan => NaN
  | B754_infinity false => PInf
  | B754_infinity true => NInf
  | B754_zero _ => Fin 0
  | B754_finite _ _ _ _ => Fin (B2R x)
  end.
(** a line with the same bars, in exact arithmetic *)
Definition exact_line (a : line float) : line (ext R) := mkLine (lmp a) (map exact (lser a)).

(** prices and differences of them far from overflow *)
Definition usual (x : float) : Prop := within (- bpow radix2 999) (bpow radix2 999) x.
