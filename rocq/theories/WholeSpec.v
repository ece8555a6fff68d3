(** Vocabulary of the statements about values that are multiples of one unit. *)
From Coq Require Import ZArith Reals List.
From Flocq Require Import Core.
From Verif Require Import Num Float64 FloatSpec.
Local Open Scope R_scope.

(** a finite double that is a whole multiple of 2^e: shares (e = 0), quarters (e = -2), ... *)
Definition of_unit (e : Z) (x : float) : Prop :=
  finite x /\ exists z, val x = IZR z * bpow radix2 e.
(** 2^53 such units: every smaller number of units is a double *)
Definition room (e : Z) : R := bpow radix2 (53 + e).
(** units a double can hold, with room for 2^53 of them *)
Definition unit_fits (e : Z) : Prop := (-1074 <= e <= 900)%Z.
(** the double nearest to a number that is not too large *)
Definition nearest (x : R) : R := round radix2 (FLT_exp (-1074) 53) ZnearestE x.
