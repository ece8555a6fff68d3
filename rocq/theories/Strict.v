(** The operators of Expr.v with the length check pandas makes when a result is stored ([result[minidx:] = r]).
    Line.v and Expr.v leave the check out: there the operand is taken to have at least minidx bars. *)
From Coq Require Import ZArith List Bool.
From Verif Require Import Num Series Line Expr LineApi.
Import ListNotations.
Set Implicit Arguments.
Local Open Scope Z_scope.

Section Strict.
  Context {V : Type} {N : Num V}.

  (** the common end of binary_op, standard_op and call_op (lines.py:129-133, 153-156, 380-382): [r] is stored from
      bar [mi] on and the clone gets the minimum period [mp] *)
  Definition place (n : nat) (self mp mi : Z) (r : list V) : res (line V) :=
    s <- put vnan n mi r ;; Ok (mkLine (if mp =? 0 then self else mp) s).
  Definition bplace (n : nat) (self mp mi : Z) (r : list bool) : res bline :=
    s <- put true n mi r ;; Ok (mkBLine (if mp =? 0 then self else mp) s).

  (** one operand, the result computed from bar minperiod - 1 on; [inc] is added to the minimum period *)
  Definition unary (F : list V -> list V) (inc : Z) (a : line V) : res (line V) :=
    l <- place (bars a) (lmp a) (lmp a) (lmp a - 1) (F (slice_from (lser a) (lmp a - 1))) ;;
    Ok (mkLine (lmp l + inc) (lser l)).
  Definition binary (op : V -> V -> V) (a b : line V) : res (line V) :=
    let mp := Z.max (lmp a) (lmp b) in
    place (bars a) (lmp a) mp (mp - 1) (map2 op (slice_from (lser a) (mp - 1)) (slice_from (lser b) (mp - 1))).
  Definition scalar (f : V -> V) (a : line V) : res (line V) :=
    let mp := Z.max (lmp a) 1 in
    place (bars a) (lmp a) mp (mp - 1) (map f (slice_from (lser a) (mp - 1))).
  (** a._ewm(...) followed by a method [F] (lines.py:256-298, 359-383) *)
  Definition smoothed (p : nat) (sd : seed) (F : list V -> list V) (a : line V) : res (line V) :=
    o <- mf_ewm a (Z.of_nat (S p)) 0 0 1 sd ;;
    place (bars a) (lmp a) (Z.max (lmp a + Z.of_nat p) 1) (mf_minidx o) (F (mf_trailer o)).
  Definition mul_bool (a : line V) (b : bline) : res (line V) :=
    let mp := Z.max (lmp a) (bmp b) in
    place (bars a) (lmp a) mp (mp - 1)
      (map2 (fun x y => vmul x (vofbool y)) (slice_from (lser a) (mp - 1)) (slice_from (bser b) (mp - 1))).
  Definition rmul_bool (c : V) (b : bline) : res (line V) :=
    let mp := Z.max (bmp b) 1 in
    place (length (bser b)) (bmp b) mp (mp - 1)
      (map (fun x => vmul c (vofbool x)) (slice_from (bser b) (mp - 1))).
  Definition compare (op : V -> V -> bool) (a b : line V) : res bline :=
    let mp := Z.max (lmp a) (lmp b) in
    bplace (bars a) (lmp a) mp (mp - 1) (map2 op (slice_from (lser a) (mp - 1)) (slice_from (lser b) (mp - 1))).
  Definition compare_s (op : V -> V -> bool) (a : line V) (c : V) : res bline :=
    let mp := Z.max (lmp a) 1 in
    bplace (bars a) (lmp a) mp (mp - 1) (map (fun x => op x c) (slice_from (lser a) (mp - 1))).
  Definition logic (op : bool -> bool -> bool) (a b : bline) : res bline :=
    let mp := Z.max (bmp a) (bmp b) in
    bplace (length (bser a)) (bmp a) mp (mp - 1)
      (map2 op (slice_from (bser a) (mp - 1)) (slice_from (bser b) (mp - 1))).

  (** Expr.v [eval] with the check *)
  Fixpoint seval (env : list (line V)) (e : expr V) : res (line V) :=
    match e with
    | EIn v => match nth_error env v with Some l => Ok l | None => Raise KeyError end
    | EBin op a b => x <- seval env a ;; y <- seval env b ;; binary op x y
    | EBinS op a c => x <- seval env a ;; scalar (fun v => op v c) x
    | ERBinS op c a => x <- seval env a ;; scalar (fun v => op c v) x
    | EMap f a => x <- seval env a ;; unary (map f) 0 x
    | ECum a => x <- seval env a ;; unary ser_cumsum 0 x
    | EFfill a => x <- seval env a ;; unary ser_ffill 0 x
    | ERepl0 a => x <- seval env a ;; unary ser_replace0_ffill 0 x
    | EClipLo a b => x <- seval env a ;; y <- seval env b ;; binary (fun v w => clip_lo w v) x y
    | EClipHi a b => x <- seval env a ;; y <- seval env b ;; binary (fun v w => clip_hi w v) x y
    | ELag a p => x <- seval env a ;; unary (fun s => ser_shift s (Z.of_nat p)) (Z.of_nat p) x
    | EDiff a p => x <- seval env a ;; unary (fun s => ser_diff s (Z.of_nat p)) (Z.of_nat p) x
    | EPct a p => x <- seval env a ;; unary (fun s => ser_pct_change s (Z.of_nat p)) (Z.of_nat p) x
    | ERoll w G a => x <- seval env a ;; unary (ser_rolling (S w) G) (Z.of_nat w) x
    | EEwm p adj a =>
        x <- seval env a ;; unary (ser_ewma (alpha_span (vofZ (Z.of_nat (S p)))) adj) (Z.of_nat p) x
    | EEma p sd a =>
        x <- seval env a ;; smoothed p sd (ser_ewma (alpha_span (vofZ (Z.of_nat (S p)))) false) x
    | ESmma p sd a =>
        x <- seval env a ;; smoothed p sd (ser_ewma (alpha_com (vofZ (Z.of_nat (S p) - 1))) false) x
    | ESmacc p sd al be a => x <- seval env a ;; smoothed p sd (mean_exp al be) x
    | EMulB a b => x <- seval env a ;; y <- sbeval env b ;; mul_bool x y
    | ERMulB c b => y <- sbeval env b ;; rmul_bool c y
    end
  with sbeval (env : list (line V)) (b : bexpr V) : res bline :=
    match b with
    | BCmp op a b => x <- seval env a ;; y <- seval env b ;; compare op x y
    | BCmpS op a c => x <- seval env a ;; compare_s op x c
    | BBin op a b => x <- sbeval env a ;; y <- sbeval env b ;; logic op x y
    end.

  (** The number of bars the operators of an expression skip at most: each operator starts at the minimum period of its
      operands, a seeded average at its seed. *)
  Fixpoint needs (mps : nat -> Z) (e : expr V) : Z :=
    match e with
    | EIn _ => 0
    | EBin _ a b | EClipLo a b | EClipHi a b =>
        Z.max (Z.max (needs mps a) (needs mps b)) (Z.max (look mps a) (look mps b) - 1)
    | EBinS _ a _ | ERBinS _ _ a | EMap _ a | ECum a | EFfill a | ERepl0 a
    | ELag a _ | EDiff a _ | EPct a _ | ERoll _ _ a | EEwm _ _ a =>
        Z.max (needs mps a) (look mps a - 1)
    | EEma p _ a | ESmma p _ a | ESmacc p _ _ _ a =>
        Z.max (needs mps a) (look mps a - 1 + Z.of_nat p)
    | EMulB a b => Z.max (Z.max (needs mps a) (bneeds mps b)) (Z.max (look mps a) (blook mps b) - 1)
    | ERMulB _ b => Z.max (bneeds mps b) (blook mps b - 1)
    end
  with bneeds (mps : nat -> Z) (b : bexpr V) : Z :=
    match b with
    | BCmp _ a b => Z.max (Z.max (needs mps a) (needs mps b)) (Z.max (look mps a) (look mps b) - 1)
    | BCmpS _ a _ => Z.max (needs mps a) (look mps a - 1)
    | BBin _ a b => Z.max (Z.max (bneeds mps a) (bneeds mps b)) (Z.max (blook mps a) (blook mps b) - 1)
    end.
End Strict.
