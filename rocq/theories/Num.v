(** Numbers.

    The library computes on float64 values held in pandas Series / numpy arrays.
    [Num V] lists the operations the library performs on such values; every model
    of a line operation or an indicator is polymorphic in it.

    [ext F] adds NaN and the two infinities to an exact field.  Simplifications
    with respect to IEEE-754: no rounding, and a single (unsigned) zero, so that
    x / 0 is +inf for x > 0, -inf for x < 0 and NaN for x = 0. *)
From Coq Require Import ZArith QArith Qreduction Qround Reals Bool.

Set Implicit Arguments.

(** ** Interface *)

Class Num (V : Type) := {
  vnan   : V;
  vofZ   : Z -> V;                 (* integer literal / int -> float conversion *)
  vofQ   : Q -> V;                 (* decimal literal *)
  vadd   : V -> V -> V;
  vsub   : V -> V -> V;
  vmul   : V -> V -> V;
  vdiv   : V -> V -> V;
  vabs   : V -> V;
  vltb   : V -> V -> bool;         (* x < y, false if one is NaN *)
  vleb   : V -> V -> bool;         (* x <= y *)
  veqb   : V -> V -> bool;         (* x == y, false if one is NaN *)
  visnan : V -> bool;
  visinf : V -> bool;
  vtrunc : V -> option Z           (* int(x); None: NaN and infinities raise *)
}.

(** Square root and the transcendental functions (math / numpy). *)
Class NumT (V : Type) := {
  vsqrt : V -> V;
  vexp  : V -> V;
  vln   : V -> V;
  vsin  : V -> V;
  vcos  : V -> V;
  vtan  : V -> V;
  vatan : V -> V;
  vasin : V -> V;
  vacos : V -> V;
  vpi   : V
}.

(** Exact base field of [ext]. *)
Class Base (F : Type) := {
  bofZ : Z -> F;
  bofQ : Q -> F;
  badd : F -> F -> F;
  bsub : F -> F -> F;
  bmul : F -> F -> F;
  bdiv : F -> F -> F;              (* only used with a non-zero divisor *)
  bltb : F -> F -> bool;
  btrunc : F -> Z                  (* truncation towards zero *)
}.

Inductive ext (F : Type) : Type :=
| NaN : ext F
| PInf : ext F
| NInf : ext F
| Fin : F -> ext F.
Arguments NaN {F}. Arguments PInf {F}. Arguments NInf {F}. Arguments Fin {F} _.

Section Ext.
  Context {F : Type} {B : Base F}.

  Definition b0 : F := bofZ 0.
  Definition bpos (a : F) : bool := bltb b0 a.
  Definition bneg (a : F) : bool := bltb a b0.
  Definition bleb (a b : F) : bool := negb (bltb b a).
  Definition beqb (a b : F) : bool := negb (bltb a b) && negb (bltb b a).

  (** an infinity with the sign of [a] (NaN if a = 0), resp. the opposite sign *)
  Definition inf_signed (a : F) : ext F :=
    if bpos a then PInf else if bneg a then NInf else NaN.
  Definition inf_opp (a : F) : ext F :=
    if bpos a then NInf else if bneg a then PInf else NaN.

  Definition eadd (x y : ext F) : ext F :=
    match x, y with
    | NaN, _ | _, NaN => NaN
    | PInf, NInf | NInf, PInf => NaN
    | PInf, _ | _, PInf => PInf
    | NInf, _ | _, NInf => NInf
    | Fin a, Fin b => Fin (badd a b)
    end.

  Definition esub (x y : ext F) : ext F :=
    match x, y with
    | NaN, _ | _, NaN => NaN
    | PInf, PInf | NInf, NInf => NaN
    | PInf, _ | _, NInf => PInf
    | NInf, _ | _, PInf => NInf
    | Fin a, Fin b => Fin (bsub a b)
    end.

  Definition emul (x y : ext F) : ext F :=
    match x, y with
    | NaN, _ | _, NaN => NaN
    | PInf, PInf | NInf, NInf => PInf
    | PInf, NInf | NInf, PInf => NInf
    | PInf, Fin b | Fin b, PInf => inf_signed b
    | NInf, Fin b | Fin b, NInf => inf_opp b
    | Fin a, Fin b => Fin (bmul a b)
    end.

  Definition ediv (x y : ext F) : ext F :=
    match x, y with
    | NaN, _ | _, NaN => NaN
    | PInf, (PInf | NInf) | NInf, (PInf | NInf) => NaN
    | PInf, Fin b => if bneg b then NInf else PInf
    | NInf, Fin b => if bneg b then PInf else NInf
    | Fin _, (PInf | NInf) => Fin b0
    | Fin a, Fin b => if beqb b b0 then inf_signed a else Fin (bdiv a b)
    end.

  Definition eabs (x : ext F) : ext F :=
    match x with
    | NaN => NaN
    | PInf | NInf => PInf
    | Fin a => Fin (if bneg a then bsub b0 a else a)
    end.

  Definition eltb (x y : ext F) : bool :=
    match x, y with
    | NaN, _ | _, NaN => false
    | NInf, NInf => false
    | NInf, _ => true
    | _, NInf => false
    | PInf, _ => false
    | Fin _, PInf => true
    | Fin a, Fin b => bltb a b
    end.

  Definition eeqb (x y : ext F) : bool :=
    match x, y with
    | PInf, PInf | NInf, NInf => true
    | Fin a, Fin b => beqb a b
    | _, _ => false
    end.

  Definition eleb (x y : ext F) : bool := eltb x y || eeqb x y.

  Definition eisnan (x : ext F) : bool := match x with NaN => true | _ => false end.
  Definition eisinf (x : ext F) : bool :=
    match x with PInf | NInf => true | _ => false end.
  Definition etrunc (x : ext F) : option Z :=
    match x with Fin a => Some (btrunc a) | _ => None end.

  Global Instance NumExt : Num (ext F) := {
    vnan := NaN;
    vofZ := fun z => Fin (bofZ z);
    vofQ := fun q => Fin (bofQ q);
    vadd := eadd; vsub := esub; vmul := emul; vdiv := ediv; vabs := eabs;
    vltb := eltb; vleb := eleb; veqb := eeqb;
    visnan := eisnan; visinf := eisinf; vtrunc := etrunc
  }.
End Ext.

(** ** Exact rationals (always in reduced form, for executable examples) *)

Definition Qltb (a b : Q) : bool := negb (Qle_bool b a).
Definition Qtrunc (q : Q) : Z := Z.quot (Qnum q) (Zpos (Qden q)).

Global Instance BaseQ : Base Q := {
  bofZ := inject_Z;
  bofQ := Qred;
  badd := fun a b => Qred (a + b);
  bsub := fun a b => Qred (a - b);
  bmul := fun a b => Qred (a * b);
  bdiv := fun a b => Qred (a / b);
  bltb := Qltb;
  btrunc := Qtrunc
}.

(** ** Exact reals *)

Definition Rltb (a b : R) : bool := if Rlt_dec a b then true else false.
Definition Rtrunc (a : R) : Z :=
  if Rlt_dec a 0 then Z.opp (Int_part (- a)) else Int_part a.

(** [Q2R] with the division by 1 removed for integers. *)
Definition RofQ (q : Q) : R :=
  match Qden q with
  | 1%positive => IZR (Qnum q)
  | d => (IZR (Qnum q) / IZR (Zpos d))%R
  end.

Global Instance BaseR : Base R := {
  bofZ := IZR;
  bofQ := RofQ;
  badd := Rplus;
  bsub := Rminus;
  bmul := Rmult;
  bdiv := Rdiv;
  bltb := Rltb;
  btrunc := Rtrunc
}.

(** numpy semantics at the edges: sqrt of a negative number is NaN, log of 0 is
    -inf and of a negative number NaN, arcsin/arccos outside [-1,1] NaN,
    sin/cos/tan of an infinity NaN. *)
Definition emap1 (f : R -> ext R) (p m : ext R) (x : ext R) : ext R :=
  match x with NaN => NaN | PInf => p | NInf => m | Fin a => f a end.

Global Instance NumTR : NumT (ext R) := {
  vsqrt := emap1 (fun a => if Rlt_dec a 0 then NaN else Fin (sqrt a)) PInf NaN;
  vexp  := emap1 (fun a => Fin (exp a)) PInf (Fin 0%R);
  vln   := emap1 (fun a => if Rlt_dec a 0 then NaN
                           else if Rlt_dec 0 a then Fin (ln a) else NInf) PInf NaN;
  vsin  := emap1 (fun a => Fin (sin a)) NaN NaN;
  vcos  := emap1 (fun a => Fin (cos a)) NaN NaN;
  vtan  := emap1 (fun a => Fin (tan a)) NaN NaN;
  vatan := emap1 (fun a => Fin (atan a)) (Fin (PI / 2)%R) (Fin (- (PI / 2))%R);
  vasin := emap1 (fun a => if Rlt_dec 1 (Rabs a) then NaN else Fin (asin a)) NaN NaN;
  vacos := emap1 (fun a => if Rlt_dec 1 (Rabs a) then NaN else Fin (acos a)) NaN NaN;
  vpi   := Fin PI
}.
