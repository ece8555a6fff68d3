(** Vocabulary of the statements about Bollinger bands in float64. *)
From Coq Require Import ZArith List.
From Flocq Require Import Core IEEE754.BinarySingleNaN.
From Verif Require Import Num Float64 FloatSpec.
(** numpy.sqrt is the correctly rounded square root of IEEE-754; nothing is said about the other functions *)
Definition rounded_sqrt (T : NumT float) : Prop := forall x : float, vsqrt x = Bsqrt mode_NE x.
(** the comparison of two doubles; false if one of them is NaN *)
Definition at_most (x y : float) : Prop := vleb x y = true.
(** [n] values, [x] and [y] in turn *)
Fixpoint turns (x y : float) (n : nat) : list float := match n with O => nil | S m => cons x (turns y x m) end.
