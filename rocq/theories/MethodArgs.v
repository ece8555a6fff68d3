(** Methods of a line that take further arguments: which of them are read as lines. *)
From Coq Require Import ZArith String List Bool.
From Verif Require Import Num Series Line Py Holder Operand LineApi ApplyAny.
Import ListNotations.
Set Implicit Arguments.
Local Open Scope string_scope.
Local Open Scope list_scope.

(** linesops.py:60-107 _STDOPS with the flags sargs and skwargs.  The three methods with parg (diff, shift, pct_change)
    are in Line.v. *)
Definition std_table : list (string * (bool * bool)) :=
  [("abs", (false, false)); ("__abs__", (false, false)); ("append", (true, false)); ("apply", (false, true));
   ("astype", (false, false)); ("between", (true, false)); ("bfill", (false, false)); ("clip", (false, true));
   ("combine", (true, false)); ("combine_first", (true, false)); ("concat", (true, false)); ("copy", (false, false));
   ("cummax", (false, false)); ("cummin", (false, false)); ("cumprod", (false, false)); ("cumsum", (false, false));
   ("drop", (false, false)); ("drop_duplicates", (false, false)); ("dropna", (false, false)); ("duplicated", (false, false));
   ("ffill", (false, false)); ("fillna", (false, false)); ("filter", (false, false)); ("first", (false, false));
   ("head", (false, false)); ("last", (false, false)); ("interpolate", (false, false)); ("isin", (true, false));
   ("isna", (false, false)); ("isnull", (false, false)); ("nlargest", (false, false)); ("mask", (true, true));
   ("notna", (false, false)); ("notnull", (false, false)); ("nsmallest", (false, false)); ("replace", (false, false));
   ("rank", (false, false)); ("round", (false, false)); ("tail", (false, false)); ("where", (true, true))].
(** linesops.py:109-145 _REDOPS with the flag sargs *)
Definition red_table : list (string * bool) :=
  [("all", false); ("any", false); ("autocorr", false); ("corr", true); ("count", false); ("cov", true); ("dot", true);
   ("equals", true); ("factorize", false); ("first_valid_index", false); ("idxmax", false); ("idxmin", false);
   ("item", false); ("items", false); ("iteritems", false); ("keys", false); ("kurt", false); ("kurtosis", false);
   ("last_valid_index", false); ("mad", false); ("max", false); ("mean", false); ("median", false);
   ("memory_usage", false); ("min", false); ("mode", false); ("nunique", false); ("prod", false); ("product", false);
   ("quantile", false); ("sem", false); ("skew", false); ("std", false); ("sum", false); ("unique", false)].

Section MethodArgs.
  Context {V : Type} {N : Num V} {A : Type}.
  Notation line := (line V).
  Notation uarg := (uarg V A).
  Open Scope Z_scope.

  (** what the method of the Series is called with: values, or the object the caller passed *)
  Inductive marg := MSer (s : list V) | MObj (x : uarg).
  Definition handed (x : farg V A) : marg := match x with FSer s => MSer s | FOther y => MObj (UOther y) end.
  Definition handed_kw (kx : string * farg V A) : string * marg := (fst kx, handed (snd kx)).
  Definition as_is (x : uarg) : marg := match x with USer s => MSer s | _ => MObj x end.
  Definition as_is_kw (kx : string * uarg) : string * marg := (fst kx, as_is (snd kx)).
  (** lines.py:546 def _minperiodize(self, *args, raw=False, **kwargs): a keyword argument of that name is taken away *)
  Definition no_raw (kwargs : list (string * uarg)) := filter (fun kx => negb (String.eqb (fst kx) "raw")) kwargs.

  (** lines.py:137-162 standard_op without parg.  Simplification as for [std_any]: the dtype of the result. *)
  Definition std_full (sargs skwargs : bool) (F : list V -> list marg -> list (string * marg) -> res (list V))
    (a : line) (args : list uarg) (kwargs : list (string * uarg)) : res line :=
    t <- minperiodize a (if sargs then args else []) (if skwargs then no_raw kwargs else []) ;;
    let '(mp, nargs, nkw) := t in
    r <- F (slice_from (lser a) (mp - 1))
           (if sargs then map handed nargs else map as_is args)
           (if skwargs then map handed_kw nkw else map as_is_kw kwargs) ;;
    s <- put vnan (bars a) (mp - 1) r ;;
    Ok (clone a s mp).
  (** lines.py:165-176 reduction_op *)
  Definition red_full {B} (sargs : bool) (F : list V -> list marg -> list (string * marg) -> res B)
    (a : line) (args : list uarg) (kwargs : list (string * uarg)) : res B :=
    if sargs
    then t <- minperiodize a args [] ;;
         let '(mp, nargs, _) := t in
         F (slice_from (lser a) (mp - 1)) (map handed nargs) (map as_is_kw kwargs)
    else F (slice_from (lser a) (lmp a - 1)) (map as_is args) (map as_is_kw kwargs).

  (** line.name(...): [F] is the method of the pandas Series of that name *)
  Definition std_method (name : string) F (a : line) args kwargs : res line :=
    match dget std_table name with
    | Some (sargs, skwargs) => std_full sargs skwargs F a args kwargs
    | None => Raise AttributeError
    end.
  Definition red_method {B} (name : string) (F : list V -> list marg -> list (string * marg) -> res B) (a : line) args kwargs
    : res B :=
    match dget red_table name with
    | Some sargs => red_full sargs F a args kwargs
    | None => Raise AttributeError
    end.
End MethodArgs.
Arguments marg : clear implicits.
