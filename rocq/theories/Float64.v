(** Double precision numbers as an instance of [Num].

    pandas and numpy hold the values of a line as IEEE-754 binary64 and compute on them with rounding to the nearest,
    ties to even.  [float] is the type of these numbers from Flocq, with one NaN (which bits a NaN has is not
    observable in the library); zeros are signed and there are subnormal numbers.
    Simplifications: the sums inside of rolling windows are taken from left to right for each window, while pandas
    updates a running total, so the last bits of rolling means and sums are not those of pandas; Running.v models the
    totals of pandas 1.0 on the same numbers.  Maxima,
    minima, element-wise operations, comparisons and the recursions of the exponential averages are those of the
    library.  The transcendental functions are not specified by IEEE-754 and are left to an instance of [NumT]. *)
From Coq Require Import ZArith QArith Bool.
From Flocq Require Import Core IEEE754.BinarySingleNaN.
From Verif Require Import Num.
Set Implicit Arguments.

Local Open Scope Z_scope.
(** the format float64 *)
Definition prec : Z := 53.
Definition emax : Z := 1024.
Lemma prec_gt_0 : Prec_gt_0 prec.
Proof. reflexivity. Qed.
Lemma prec_lt_emax : Prec_lt_emax prec emax.
Proof. reflexivity. Qed.
Global Existing Instance prec_gt_0.
Global Existing Instance prec_lt_emax.

Definition float : Type := binary_float prec emax.

(** int -> float64 *)
Definition fofZ (z : Z) : float := binary_normalize prec emax _ _ mode_NE z 0 false.
(** a decimal literal: the quotient of two integers that are exact in float64 *)
Definition fofQ (q : Q) : float := Bdiv mode_NE (fofZ (Qnum q)) (fofZ (Zpos (Qden q))).
Definition fisinf (x : float) : bool := match x with B754_infinity _ => true | _ => false end.
(** int(x) *)
Definition ftrunc (x : float) : option Z :=
  match x with B754_nan | B754_infinity _ => None | _ => Some (Btrunc x) end.

(** the operations of numpy on float64 (numpy's + - * / abs, < <= ==, isnan, isinf) *)
Global Instance NumF : Num float := {
  vnan := B754_nan;
  vofZ := fofZ;
  vofQ := fofQ;
  vadd := Bplus mode_NE; vsub := Bminus mode_NE; vmul := Bmult mode_NE; vdiv := Bdiv mode_NE; vabs := @Babs prec emax;
  vltb := @Bltb prec emax; vleb := @Bleb prec emax; veqb := @Beqb prec emax;
  visnan := @is_nan prec emax; visinf := fisinf; vtrunc := ftrunc
}.
