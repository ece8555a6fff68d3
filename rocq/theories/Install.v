(** How the operations get into the classes: linesops.install_cls and the bodies of the classes Line and LinesHolder
    (btalib/meta/linesops.py:13-31, lines.py:108-176, 396-397, 457-608, linesholder.py:40-105). *)
From Coq Require Import String List Bool Arith.
From Verif Require Import Py.
Import ListNotations.
Set Implicit Arguments.
Local Open Scope string_scope.
Local Open Scope list_scope.

(** what a name of a class body can stand for: the function made by binary_op, reduction_op, standard_op or
    multifunc_op for an operation, a property around it, or something else *)
Inductive attr :=
| AOp (maker op : string)
| AProperty (a : attr)
| AText (s : string)
| AOther.

(** the local names of an active call; the innermost call comes first (sys._getframe(0)) *)
Definition frame := dict attr.
Definition stack := list frame.

(** linesops.py:13-31: from level [startlevel] up the first frame that knows __module__ (only class bodies do);
    running out of frames ends the search without an exception.  frame.f_locals of a class body is its namespace *)
Fixpoint install_up (fs : stack) (name : string) (a : attr) : stack :=
  match fs with
  | [] => []
  | f :: fs' => if dmem f "__module__" then dset f name a :: fs' else f :: install_up fs' name a
  end.
Definition install_cls (startlevel : nat) (name : string) (a : attr) (propertize : bool) (st : stack) : stack :=
  firstn startlevel st ++ install_up (skipn startlevel st) name (if propertize then AProperty a else a).

(** lines.py:108-134, 137-162, 165-175, 210-397, linesholder.py:40-44: the maker is called with the name of an
    operation, makes a function and calls install_cls, whose frame is level 0 and its own level 1.  Its other local
    names (parg, sargs, skwargs) are left out *)
Definition make (maker op : string) (propertize : bool) (st : stack) : stack :=
  let own : frame := [("name", AText op); ("real_op", AOp maker op)] in
  skipn 2 (install_cls 2 op (AOp maker op) propertize ([("name", AText op)] :: own :: st)).

(** the statements of a class body: a definition, and a loop over a table.  [keyed] tells whether the table is a
    dictionary (for name, opargs in ...items()) *)
Inductive stmt :=
| Def (name : string)
| Loop (keyed : bool) (maker : string) (table : list (string * bool)).
Definition bind_here (name : string) (a : attr) (st : stack) : stack :=
  match st with [] => [] | f :: fs => dset f name a :: fs end.
Definition turn (keyed : bool) (maker : string) (st : stack) (e : string * bool) : stack :=
  let st1 := bind_here "name" (AText (fst e)) st in
  let st2 := if keyed then bind_here "opargs" AOther st1 else st1 in
  make maker (fst e) (snd e) st2.
Definition exec (st : stack) (s : stmt) : stack :=
  match s with
  | Def n => bind_here n AOther st
  | Loop keyed maker table => fold_left (turn keyed maker) table st
  end.
(** Python starts a class body with these two names *)
Definition fresh : frame := [("__module__", AText "btalib.meta"); ("__qualname__", AText "")].
Definition class_dict (body : list stmt) (outer : stack) : frame := hd [] (fold_left exec body (fresh :: outer)).

(** linesops.py:34-58 *)
Definition binop_table : list string :=
  ["__eq__"; "eq"; "__le__"; "le"; "__lt__"; "lt"; "__ge__"; "ge"; "__gt__"; "gt"; "__ne__"; "ne"; "__add__";
   "__radd__"; "add"; "radd"; "__div__"; "__rdiv__"; "div"; "divide"; "rdiv"; "__floordiv__"; "__rfloordiv__";
   "floordiv"; "rfloordiv"; "__mod__"; "__rmod__"; "mod"; "rmod"; "__mul__"; "__rmul__"; "mul"; "multiply"; "rmul";
   "__pow__"; "__rpow__"; "pow"; "rpow"; "__sub__"; "__rsub__"; "sub"; "subtract"; "rsub"; "__truediv__";
   "__rtruediv__"; "truediv"; "rtruediv"; "__and__"; "__or__"; "__xor__"].
(** linesops.py:60-107 *)
Definition stdop_table : list string :=
  ["diff"; "shift"; "pct_change"; "abs"; "__abs__"; "append"; "apply"; "astype"; "between"; "bfill"; "clip";
   "combine"; "combine_first"; "concat"; "copy"; "cummax"; "cummin"; "cumprod"; "cumsum"; "drop";
   "drop_duplicates"; "dropna"; "duplicated"; "ffill"; "fillna"; "filter"; "first"; "head"; "last"; "interpolate";
   "isin"; "isna"; "isnull"; "nlargest"; "mask"; "notna"; "notnull"; "nsmallest"; "replace"; "rank"; "round";
   "tail"; "where"].
(** linesops.py:109-145 *)
Definition redop_table : list string :=
  ["all"; "any"; "autocorr"; "corr"; "count"; "cov"; "dot"; "equals"; "factorize"; "first_valid_index"; "idxmax";
   "idxmin"; "item"; "items"; "iteritems"; "keys"; "kurt"; "kurtosis"; "last_valid_index"; "mad"; "max"; "mean";
   "median"; "memory_usage"; "min"; "mode"; "nunique"; "prod"; "product"; "quantile"; "sem"; "skew"; "std"; "sum";
   "unique"].
(** only iloc and loc are properties (linesops.py:148-163) *)
Definition plain_ops (l : list string) : list (string * bool) := map (fun n => (n, false)) l.
Definition binops : list (string * bool) := plain_ops binop_table.
Definition stdops : list (string * bool) := plain_ops stdop_table.
Definition redops : list (string * bool) := plain_ops redop_table.
Definition multiops : list (string * bool) :=
  [("expanding", false); ("ewm", false); ("_ewm", false); ("rolling", false); ("iloc", true); ("loc", true)].
(** lines.py:457-608 *)
Definition body_of_Line : list stmt :=
  [ Def "_minperiod"; Def "_series"; Def "_name"; Def "__hash__";
    Loop false "binary_op" binops; Loop true "reduction_op" redops; Loop true "standard_op" stdops;
    Loop true "multifunc_op" multiops;
    Def "__call__"; Def "__iter__"; Def "__len__"; Def "__getitem__"; Def "__setitem__"; Def "_clone"; Def "mpseries";
    Def "series"; Def "index"; Def "_period"; Def "_setval"; Def "_minperiodize"; Def "_apply"; Def "_applymulti" ].
(** linesholder.py:47-105 *)
Definition body_of_LinesHolder : list stmt :=
  [ Def "_df"; Def "_sf"; Loop false "binary_op" binops;
    Def "__call__"; Def "__getattr__"; Def "__contains__"; Def "__len__"; Def "__iter__"; Def "__getitem__"; Def "keys";
    Def "size"; Def "df"; Def "series"; Def "_period" ].
