(** What Python itself does with lines and indicators: truth values, conditions, chained comparisons, the functions max,
    min, sum, any and all, searching in lists, hashing, and the operators an object takes.  The library defines none of
    __bool__, __neg__, ... ; what happens follows from the special methods the classes do define
    (meta/linesops.py:35-58 and 66, meta/lines.py:457-496, meta/linesholder.py:47-79). *)
From Coq Require Import List String Bool Arith ZArith.
From Verif Require Import Num Series Line Py LinesGen Holder Operand.
Import ListNotations.
Set Implicit Arguments.
Local Open Scope string_scope.
Local Open Scope list_scope.
Local Open Scope nat_scope.

Section Protocol.
  Context {V : Type} {N : Num V}.
  Notation operand := (operand V).

  Inductive cmp := CLt | CLe | CGt | CGe | CEq | CNe.
  Definition cmp_fun (c : cmp) (x y : V) : bool :=
    match c with
    | CLt => vltb x y | CLe => vleb x y | CGt => vltb y x | CGe => vleb y x | CEq => veqb x y | CNe => negb (veqb x y)
    end.

  (** the value of a comparison: a bool for two numbers, else a line of bools *)
  Inductive answer := ABool (b : bool) | ABars (l : bline).

  (** is the class of the second a proper subclass of the class of the first? *)
  Variable sub : operand -> operand -> bool.

  (** [x op y] *)
  Definition ask (c : cmp) (x y : operand) : res answer :=
    match x, y with
    | ONum u, ONum v => Ok (ABool (cmp_fun c u v))
    | _, _ => l <- compare_sub (sub x y) (cmp_fun c) x y ;; Ok (ABars l)
    end.

  (** bool(x): neither Line nor LinesHolder has __bool__, so len(x) != 0 (lines.py:492-493, linesholder.py:72-73, where
      it is the number of outputs) *)
  Definition truth (a : answer) : bool :=
    match a with ABool b => b | ABars l => negb (List.length (bser l) =? 0) end.
  Definition truth_of (x : operand) : bool :=
    match x with
    | OInd h => negb (hlen h =? 0)
    | OLine l => negb (bars l =? 0)
    | ONum v => negb (veqb v (vofZ 0))
    end.

  (** the test of [if x op y:], [while x op y:], [assert x op y] *)
  Definition holds_if (c : cmp) (x y : operand) : res bool := a <- ask c x y ;; Ok (truth a).
  (** [x c y d z], that is [x c y and y d z] *)
  Definition chained (c d : cmp) (x y z : operand) : res answer :=
    a <- ask c x y ;; if truth a then ask d y z else Ok a.
  (** [p and q], [p or q], [not p] of two comparisons already made *)
  Definition py_and (p q : answer) : answer := if truth p then q else p.
  Definition py_or (p q : answer) : answer := if truth p then p else q.
  Definition py_not (p : answer) : bool := negb (truth p).
  (** any(list), all(list) *)
  Definition py_any (l : list answer) : bool := existsb truth l.
  Definition py_all (l : list answer) : bool := forallb truth l.

  (** the builtin functions max and min (not the indicators of that name): an item replaces the best so far if it
      compares as larger (smaller) *)
  Fixpoint best (c : cmp) (m : operand) (xs : list operand) : res operand :=
    match xs with
    | [] => Ok m
    | x :: xs' => t <- holds_if c x m ;; best c (if t : bool then x else m) xs'
    end.
  Definition py_best (c : cmp) (xs : list operand) : res operand :=
    match xs with [] => Raise ValueError | x :: xs' => best c x xs' end.
  Definition py_max : list operand -> res operand := py_best CGt.
  Definition py_min : list operand -> res operand := py_best CLt.

  (** sum(list): 0 + x1 + x2 + ... *)
  Definition plus (x y : operand) : res operand :=
    match x, y with
    | ONum u, ONum v => Ok (ONum (vadd u v))
    | _, _ => l <- combine_op vadd x y ;; Ok (OLine l)
    end.
  Fixpoint sum_from (a : operand) (xs : list operand) : res operand :=
    match xs with [] => Ok a | x :: xs' => b <- plus a x ;; sum_from b xs' end.
  Definition py_sum (xs : list operand) : res operand := sum_from (ONum (vofZ 0)) xs.

  (** lists of objects; the number is the identity of the object.  Searching compares identities first, then the truth
      of [x == y] *)
  Definition obj : Type := nat * operand.
  Definition matches (x y : obj) : res bool :=
    if fst x =? fst y then Ok true else holds_if CEq (snd x) (snd y).
  (** [x in l] *)
  Fixpoint py_in (x : obj) (l : list obj) : res bool :=
    match l with
    | [] => Ok false
    | y :: l' => b <- matches x y ;; if b : bool then Ok true else py_in x l'
    end.
  (** l.index(x) *)
  Fixpoint index_from (k : nat) (x : obj) (l : list obj) : res nat :=
    match l with
    | [] => Raise ValueError
    | y :: l' => b <- matches y x ;; if b : bool then Ok k else index_from (S k) x l'
    end.
  Definition py_index (x : obj) (l : list obj) : res nat := index_from 0 x l.
  (** l.count(x) *)
  Fixpoint py_count (x : obj) (l : list obj) : res nat :=
    match l with
    | [] => Ok 0
    | y :: l' => b <- matches y x ;; n <- py_count x l' ;; Ok (if b : bool then S n else n)
    end.
  (** l.remove(x) *)
  Fixpoint py_remove (x : obj) (l : list obj) : res (list obj) :=
    match l with
    | [] => Raise ValueError
    | y :: l' => b <- matches y x ;; if b : bool then Ok l' else r <- py_remove x l' ;; Ok (y :: r)
    end.
End Protocol.

(** ** Operators and hashing *)

(** linesops.py:35-58 _BINOPS, the special methods *)
Definition binop_dunders : list string :=
  ["__eq__"; "__le__"; "__lt__"; "__ge__"; "__gt__"; "__ne__";
   "__add__"; "__radd__"; "__div__"; "__rdiv__"; "__floordiv__"; "__rfloordiv__"; "__mod__"; "__rmod__";
   "__mul__"; "__rmul__"; "__pow__"; "__rpow__"; "__sub__"; "__rsub__"; "__truediv__"; "__rtruediv__";
   "__and__"; "__or__"; "__xor__"].
(** the special methods in the body of class Line: lines.py:457-499; linesops.py:71 is the only one of _STDOPS, and
    _REDOPS and _MULTIFUNCOPS have none *)
Definition line_body : list string :=
  ["__hash__"] ++ binop_dunders ++ ["__abs__"; "__call__"; "__iter__"; "__len__"; "__getitem__"; "__setitem__"].
(** the same of class LinesHolder: linesholder.py:47-79 *)
Definition holder_body : list string :=
  binop_dunders ++ ["__call__"; "__getattr__"; "__contains__"; "__len__"; "__iter__"; "__getitem__"].
(** class Indicator: indicator.py:183-205; no indicator of the package defines any other *)
Definition indicator_body : list string := ["__init__"].

(** Python: a class whose body has __eq__ and not __hash__ gets __hash__ = None *)
Definition body_hash (body : list string) : option bool :=
  if smem "__hash__" body then Some true else if smem "__eq__" body then Some false else None.
(** the nearest class that says something; object has a hash *)
Fixpoint hash_ok (bodies : list (list string)) : bool :=
  match bodies with
  | [] => true
  | b :: bs => match body_hash b with Some r => r | None => hash_ok bs end
  end.

(** a line, an indicator, or an object that knows nothing of the library, such as a number *)
Inductive kind := KiLine | KiInd | KiOther.
(** the bodies of its class and base classes *)
Definition mro (k : kind) : list (list string) :=
  match k with KiLine => [line_body] | KiInd => [indicator_body; holder_body] | KiOther => [] end.
Definition has (k : kind) (d : string) : bool := existsb (smem d) (mro k).

(** putting an object into a set or using it as a key of a dictionary *)
Definition use_as_key (k : kind) : res unit := if hash_ok (mro k) then Ok tt else Raise TypeError.

Inductive bop := OAdd | OSub | OMul | OTrueDiv | OFloorDiv | OMod | OPow | OMatMul | OLShift | ORShift | OAnd | OOr | OXor | ODivmod.
Definition dunder (r : bool) (o : bop) : string :=
  ((if r then "__r" else "__") ++
   (match o with OAdd => "add" | OSub => "sub" | OMul => "mul" | OTrueDiv => "truediv" | OFloorDiv => "floordiv" | OMod => "mod"
    | OPow => "pow" | OMatMul => "matmul" | OLShift => "lshift" | ORShift => "rshift" | OAnd => "and" | OOr => "or"
    | OXor => "xor" | ODivmod => "divmod" end) ++ "__")%string.
(** whose method Python calls for [x o y], at least one of the two being of the library: special methods are looked up
    in the class, never through __getattr__ *)
Definition binary (o : bop) (x y : kind) : res bool :=
  if has x (dunder false o) then Ok false                (* the method of x *)
  else if has y (dunder true o) then Ok true             (* the reflected method of y *)
  else Raise TypeError.

(** -x, +x, ~x, abs(x), round(x), float(x), int(x) *)
Inductive uop := UNeg | UPos | UInvert | UAbs | URound | UFloat | UInt.
Definition udunder (o : uop) : string :=
  match o with UNeg => "__neg__" | UPos => "__pos__" | UInvert => "__invert__" | UAbs => "__abs__" | URound => "__round__"
  | UFloat => "__float__" | UInt => "__int__" end.
Definition unary (o : uop) (x : kind) : res unit := if has x (udunder o) then Ok tt else Raise TypeError.
