(** Indicators as users write them: expressions over input lines built with the
    causal operators of the library.  [eval] runs the model of the library (Line.v). *)
From Coq Require Import ZArith List Bool.
From Verif Require Import Num Series Line.
Import ListNotations.
Set Implicit Arguments.

Section Expr.
  Context {V : Type} {N : Num V}.

  Inductive expr : Type :=
  | EIn (v : nat)                                   (* the v-th input line *)
  | EBin (op : V -> V -> V) (a b : expr)            (* a op b *)
  | EBinS (op : V -> V -> V) (a : expr) (c : V)     (* a op scalar *)
  | ERBinS (op : V -> V -> V) (c : V) (a : expr)    (* scalar op a *)
  | EMap (f : V -> V) (a : expr)                    (* abs, round, fillna(c), apply of a scalar function *)
  | ECum (a : expr)                                 (* a.cumsum() *)
  | EFfill (a : expr)                               (* a.ffill() *)
  | ERepl0 (a : expr)                               (* a.replace(to_replace=0.0, method='ffill') *)
  | EClipLo (a b : expr)                            (* a.clip(lower=b) *)
  | EClipHi (a b : expr)                            (* a.clip(upper=b) *)
  | ELag (a : expr) (p : nat)                       (* a(-p), a.shift(periods=p) *)
  | EDiff (a : expr) (p : nat)                      (* a.diff(periods=p) *)
  | EPct (a : expr) (p : nat)                       (* a.pct_change(periods=p) *)
  | ERoll (w : nat) (G : list V -> V) (a : expr)    (* a.rolling(window=w+1).G() *)
  | EEwm (p : nat) (adjust : bool) (a : expr)       (* a.ewm(span=p+1, adjust=..).mean() *)
  | EEma (p : nat) (sd : seed) (a : expr)           (* a._ewm(span=p+1, _seed=sd).mean() *)
  | ESmma (p : nat) (sd : seed) (a : expr)          (* a._ewm(com=p, _seed=sd).mean() *)
  | ESmacc (p : nat) (sd : seed) (al : V) (be : option V) (a : expr)
                                                    (* a._ewm(span=p+1, _seed=sd)._mean_exp(al, be) *)
  | EMulB (a : expr) (b : bexpr)                    (* a * boolean line *)
  | ERMulB (c : V) (b : bexpr)                      (* scalar * boolean line *)
  with bexpr : Type :=
  | BCmp (op : V -> V -> bool) (a b : expr)         (* a < b, a == b, ... *)
  | BCmpS (op : V -> V -> bool) (a : expr) (c : V)
  | BBin (op : bool -> bool -> bool) (a b : bexpr). (* &, |, ^ *)

  Fixpoint eval (env : list (line V)) (e : expr) : res (line V) :=
    match e with
    | EIn v => match nth_error env v with Some l => Ok l | None => Raise KeyError end
    | EBin op a b => x <- eval env a ;; y <- eval env b ;; Ok (binop op x y)
    | EBinS op a c => x <- eval env a ;; Ok (binop_s op x c)
    | ERBinS op c a => x <- eval env a ;; Ok (rbinop_s op c x)
    | EMap f a => x <- eval env a ;; Ok (mapop f x)
    | ECum a => x <- eval env a ;; Ok (stdop ser_cumsum x)
    | EFfill a => x <- eval env a ;; Ok (stdop ser_ffill x)
    | ERepl0 a => x <- eval env a ;; Ok (stdop ser_replace0_ffill x)
    | EClipLo a b => x <- eval env a ;; y <- eval env b ;; Ok (lclip_lo_l x y)
    | EClipHi a b => x <- eval env a ;; y <- eval env b ;; Ok (lclip_hi_l x y)
    | ELag a p => x <- eval env a ;; Ok (shift x (Z.of_nat p))
    | EDiff a p => x <- eval env a ;; Ok (diff x (Z.of_nat p))
    | EPct a p => x <- eval env a ;; Ok (pct_change x (Z.of_nat p))
    | ERoll w G a => x <- eval env a ;; Ok (rolling (S w) G x)
    | EEwm p adj a => x <- eval env a ;; Ok (ewm_mean (S p) adj x)
    | EEma p sd a => x <- eval env a ;; ewm_span (S p) 0 sd x
    | ESmma p sd a => x <- eval env a ;; ewm_com (S p) sd x
    | ESmacc p sd al be a =>
        x <- eval env a ;;
        ewm_call x (Z.of_nat (S p)) 0 0 1 sd (fun t => Ok (mean_exp al be t))
    | EMulB a b => x <- eval env a ;; y <- beval env b ;; Ok (mul_b x y)
    | ERMulB c b => y <- beval env b ;; Ok (rmul_b c y)
    end
  with beval (env : list (line V)) (b : bexpr) : res bline :=
    match b with
    | BCmp op a b => x <- eval env a ;; y <- eval env b ;; Ok (cmpop op x y)
    | BCmpS op a c => x <- eval env a ;; Ok (cmpop_s op x c)
    | BBin op a b => x <- beval env a ;; y <- beval env b ;; Ok (bbinop op x y)
    end.

  (** The minimum period a reader of the expression expects: look-backs add up along a
      path (a window of w bars looks back w - 1), operands are aligned by the maximum.
      [mps v] is the minimum period of input [v]. *)
  Fixpoint look (mps : nat -> Z) (e : expr) : Z :=
    match e with
    | EIn v => mps v
    | EBin _ a b | EClipLo a b | EClipHi a b => Z.max (look mps a) (look mps b)
    | EBinS _ a _ | ERBinS _ _ a | EMap _ a | ECum a | EFfill a | ERepl0 a => look mps a
    | ELag a p | EDiff a p | EPct a p => look mps a + Z.of_nat p
    | ERoll w _ a => look mps a + Z.of_nat w
    | EEwm p _ a | EEma p _ a | ESmma p _ a | ESmacc p _ _ _ a => look mps a + Z.of_nat p
    | EMulB a b => Z.max (look mps a) (blook mps b)
    | ERMulB _ b => blook mps b
    end%Z
  with blook (mps : nat -> Z) (b : bexpr) : Z :=
    match b with
    | BCmp _ a b => Z.max (look mps a) (look mps b)
    | BCmpS _ a _ => look mps a
    | BBin _ a b => Z.max (blook mps a) (blook mps b)
    end%Z.

  (** the outermost operator is not an input line and not an unseeded ewm *)
  Definition proper (e : expr) : bool :=
    match e with EIn _ | EEwm _ _ _ => false | _ => true end.
End Expr.
Arguments expr : clear implicits.
Arguments bexpr : clear implicits.

Scheme expr_mut := Induction for expr Sort Prop
  with bexpr_mut := Induction for bexpr Sort Prop.
Combined Scheme expr_bexpr_ind from expr_mut, bexpr_mut.
