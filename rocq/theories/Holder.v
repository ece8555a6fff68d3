(** Model of the containers of lines: class Lines (meta/lines.py:613-680), LinesHolder (meta/linesholder.py) and
    the attributes given to an indicator instance (indicator.py:107-176).  Attribute names with two leading
    underscores are left out. *)
From Coq Require Import List String Bool Arith ZArith DecimalString.
From Verif Require Import Series Py LinesGen.
Import ListNotations.
Set Implicit Arguments.
Local Open Scope string_scope.
Local Open Scope list_scope.
Local Open Scope nat_scope.

(** meta/linesops.py:35-58 _BINOPS, names without leading underscores *)
Definition binop_names : list string :=
  ["eq"; "le"; "lt"; "ge"; "gt"; "ne"; "add"; "radd"; "div"; "divide"; "rdiv"; "floordiv"; "rfloordiv"; "mod";
   "rmod"; "mul"; "multiply"; "rmul"; "pow"; "rpow"; "sub"; "subtract"; "rsub"; "truediv"; "rtruediv"].
(** meta/linesops.py:60-107 _STDOPS *)
Definition stdop_names : list string :=
  ["diff"; "shift"; "pct_change"; "abs"; "append"; "apply"; "astype"; "between"; "bfill"; "clip"; "combine";
   "combine_first"; "concat"; "copy"; "cummax"; "cummin"; "cumprod"; "cumsum"; "drop"; "drop_duplicates"; "dropna";
   "duplicated"; "ffill"; "fillna"; "filter"; "first"; "head"; "last"; "interpolate"; "isin"; "isna"; "isnull";
   "nlargest"; "mask"; "notna"; "notnull"; "nsmallest"; "replace"; "rank"; "round"; "tail"; "where"].
(** meta/linesops.py:109-145 _REDOPS *)
Definition redop_names : list string :=
  ["all"; "any"; "autocorr"; "corr"; "count"; "cov"; "dot"; "equals"; "factorize"; "first_valid_index"; "idxmax";
   "idxmin"; "item"; "items"; "iteritems"; "keys"; "kurt"; "kurtosis"; "last_valid_index"; "mad"; "max"; "mean";
   "median"; "memory_usage"; "min"; "mode"; "nunique"; "prod"; "product"; "quantile"; "sem"; "skew"; "std"; "sum";
   "unique"].
(** meta/linesops.py:148-163 _MULTIFUNCOPS *)
Definition multiop_names : list string := ["expanding"; "ewm"; "_ewm"; "rolling"; "iloc"; "loc"].
(** the attributes of a Line: lines.py:452-608; the last two are the variables of the loops in the class body (465-475) *)
Definition line_attrs : list string :=
  binop_names ++ redop_names ++ stdop_names ++ multiop_names ++
  ["_minperiod"; "_series"; "_name"; "_clone"; "mpseries"; "series"; "index"; "_period"; "_setval"; "_minperiodize";
   "_apply"; "_applymulti"; "name"; "opargs"].

(** the properties without setter and the methods of class Lines: lines.py:617-680 *)
Definition lines_ro : list string := ["_minperiods"; "_minperiod"; "size"].
Definition lines_methods : list string := ["_update_minperiod"; "keys"; "_values"; "_items"; "_get"].

(** linesholder.py:81-100: the properties of LinesHolder *)
Definition holder_props : list string := ["size"; "df"; "series"].
(** the other attributes of LinesHolder (linesholder.py:46-105; "name" is left by the loop in its body, 53-54) and of Indicator (indicator.py:188-210); alias and
    group are set by meta/aliases.py and meta/groups.py, params by meta/params.py *)
Definition holder_own : list string :=
  binop_names ++ ["_df"; "_sf"; "name"; "keys"; "_period"; "_minperiod"; "_minperiods"; "inputs"; "outputs"; "params"; "alias";
                  "group"; "_talib_"; "_talib"; "_talib_class"].

Section Containers.
  Context {A : Type}.      (* a pandas Series *)

  (** a Line: lines.py:449-454 *)
  Record hline := mkH { h_mp : Z; h_name : string; h_ser : A }.

  (** an instance of a class made by lines._generate: the class as generated, its __slots__ list as it is now (it is
      shared by the instances and changed by inputs.py:82 and stochrsi.py:77) and the stored lines (in slots or in
      the __dict__ that class Inputs/Outputs gives its instances) *)
  Record cont := mkCont { c_cls : lclass; c_slots : list string; c_vals : dict hline }.
  Definition new_cont (cls : lclass) (slots : list string) : cont := mkCont cls slots [].

  (** what an attribute of a container is: a line, or the property or method of that name of class Lines *)
  Inductive attr := ALine (l : hline) | AMeta (s : string).

  (** getattr(container, s): data descriptors (slots, properties made for old names, properties of Lines), then the
      instance, then the methods.  [resolve] is lines.py:93-101.  Simplified: reading the property size is not
      evaluated here *)
  Definition lget (c : cont) (s : string) : res attr :=
    match resolve (c_cls c) s with
    | Endless => Raise RecursionError
    | Slot n => match dget (c_vals c) n with Some l => Ok (ALine l) | None => Raise AttributeError end
    | Plain n =>
        if smem n lines_ro then Ok (AMeta n)
        else match dget (c_vals c) n with
             | Some l => Ok (ALine l)
             | None => if smem n lines_methods then Ok (AMeta n) else Raise AttributeError
             end
    end.
  (** hasattr(container, s) *)
  Definition lhas (c : cont) (s : string) : res bool :=
    match lget c s with Ok _ => Ok true | Raise AttributeError => Ok false | Raise e => Raise e end.
  (** lines.py:645-646 __contains__ *)
  Definition lcontains : cont -> string -> res bool := lhas.
  (** lines.py:650 *)
  Definition llen (c : cont) : nat := List.length (c_slots c).
  (** lines.py:665 *)
  Definition lkeys (c : cont) : list string := c_slots c.

  (** lines.py:655-660 __getitem__: by name, by position (negative from the end), by slice *)
  Inductive key := KStr (s : string) | KInt (i : Z) | KSlice (i j : Z).
  Definition litem (c : cont) (k : key) : res attr :=
    match k with
    | KStr s => match index_of s (c_slots c) with None => Raise ValueError | Some _ => lget c s end
    | KInt i => n <- getitem (c_slots c) i ;; lget c n
    | KSlice _ _ => Raise TypeError        (* getattr(self, <list>) *)
    end.
  Fixpoint lmapM {B C : Type} (f : B -> res C) (l : list B) : res (list C) :=
    match l with [] => Ok [] | x :: l' => y <- f x ;; r <- lmapM f l' ;; Ok (y :: r) end.
  (** lines.py:652-653 __iter__ *)
  Definition liter (c : cont) : res (list attr) := lmapM (lget c) (c_slots c).

  (** x._series, x._minperiod of what was found; a method has none *)
  Definition as_line (a : attr) : res hline :=
    match a with ALine l => Ok l | AMeta _ => Raise AttributeError end.

  (** lines.py:419-449 MetaLine.__call__ on the kinds of values that reach an output: a Line, a Series, another
      container or the outputs of an indicator (their first line) *)
  Inductive hval := HLine (l : hline) | HSer (a : A) | HCont (c : cont).
  Definition to_line (v : hval) (name : string) : res hline :=
    match v with
    | HLine l => Ok (mkH (h_mp l) name (h_ser l))
    | HSer a => Ok (mkH 1 name a)
    | HCont c => a <- litem c (KInt 0) ;; l <- as_line a ;; Ok (mkH (h_mp l) name (h_ser l))
    end.

  (** lines.py:642-643 __setattr__; the property of an old name sets the attribute again under the new name *)
  Definition lset (c : cont) (s : string) (v : hval) : res cont :=
    l <- to_line v s ;;
    match resolve (c_cls c) s with
    | Endless => Raise RecursionError
    | Slot n => Ok (mkCont (c_cls c) (c_slots c) (dset (c_vals c) n (mkH (h_mp l) n (h_ser l))))
    | Plain n =>
        if smem n lines_ro then Raise AttributeError
        else Ok (mkCont (c_cls c) (c_slots c) (dset (c_vals c) n (mkH (h_mp l) n (h_ser l))))
    end.
  (** lines.py:662-663 __setitem__ *)
  Definition lsetitem (c : cont) (i : Z) (v : hval) : res cont :=
    n <- getitem (c_slots c) i ;; lset c n v.
  (** a run of assignments *)
  Fixpoint lsets (c : cont) (l : list (string * hval)) : res cont :=
    match l with [] => Ok c | (s, v) :: l' => c' <- lset c s v ;; lsets c' l' end.

  (** lines.py:674-680 _get *)
  Definition lget_dflt (c : cont) (s : string) : res (option attr) :=
    match lget c s with Ok a => Ok (Some a) | Raise AttributeError => Ok None | Raise e => Raise e end.

  (** max(list): ValueError when empty *)
  Definition zmax_list (l : list Z) : res Z :=
    match l with [] => Raise ValueError | x :: l' => Ok (fold_left Z.max l' x) end.
  (** lines.py:625-627 _update_minperiod *)
  Definition minperiods (c : cont) : res (list Z * Z) :=
    as_ <- liter c ;; ls <- lmapM as_line as_ ;;
    m <- zmax_list (map h_mp ls) ;; Ok (map h_mp ls, m).

  (** dict(SeriesFetcher): keys() and [key].series; linesholder.py:14-38,90-95 df.  The column of a DataFrame built
      from a dict is named by the key *)
  Definition frame (c : cont) : res (dict A) :=
    cols <- lmapM (fun k => a <- litem c (KStr k) ;; l <- as_line a ;; Ok (k, h_ser l)) (lkeys c) ;;
    Ok (dupdate [] cols).

  (** ** LinesHolder *)
  (** what an instance attribute holds *)
  Inductive ival :=
  | IOuts | IIns                  (* the containers *)
  | IList                         (* the list of input lines *)
  | IIn (k : nat)                 (* the k-th input line *)
  | IStr (s : string)
  | IPers (l : list Z) | IPer (z : Z)
  | IParams
  | IUser (n : nat).              (* anything set by the indicator's own code *)

  Record holder := mkHolder {
    hd_attrs : dict ival;         (* instance __dict__ *)
    hd_extra : list string;       (* attributes of the indicator class other than [holder_own] *)
    hd_out : cont
  }.
  Inductive found :=
  | FProp (s : string)            (* property of LinesHolder *)
  | FInst (v : ival)              (* instance attribute *)
  | FClass (s : string)           (* attribute or method of the class *)
  | FOut (a : attr)               (* attribute of the outputs *)
  | FFirst (l : hline) (s : string).   (* attribute or method of the first output *)

  (** attribute access on an indicator: Python's order, then linesholder.py:57-67 __getattr__ *)
  Definition hget (h : holder) (s : string) : res found :=
    if smem s holder_props then Ok (FProp s)
    else match dget (hd_attrs h) s with
    | Some v => Ok (FInst v)
    | None =>
        if smem s holder_own || smem s (hd_extra h) then Ok (FClass s)
        else b <- lhas (hd_out h) s ;;
             if b : bool then a <- lget (hd_out h) s ;; Ok (FOut a)
             else match (a <- litem (hd_out h) (KInt 0) ;; as_line a) with
                  | Ok l => if smem s line_attrs then Ok (FFirst l s) else Raise AttributeError
                  | Raise AttributeError => Raise AttributeError
                  | Raise e => Raise e
                  end
    end.
  (** linesholder.py:69-79 *)
  Definition hcontains (h : holder) (s : string) : res bool := lhas (hd_out h) s.
  Definition hlen (h : holder) : nat := llen (hd_out h).
  Definition hiter (h : holder) : res (list attr) := liter (hd_out h).
  Definition hitem (h : holder) (k : key) : res attr := litem (hd_out h) k.
  Definition hkeys (h : holder) : list string := lkeys (hd_out h).
  (** linesholder.py:41-45,52-55: a binary operation, or calling the indicator, uses the first output *)
  Definition hoperand (h : holder) : res hline := a <- litem (hd_out h) (KInt 0) ;; as_line a.

  (** linesholder.py:87-92: df is computed once *)
  Definition hdf (cache : option (dict A)) (h : holder) : res (dict A * option (dict A)) :=
    match cache with
    | Some d => Ok (d, cache)
    | None => d <- frame (hd_out h) ;; Ok (d, Some d)
    end.

  (** ** Instance attributes (indicator.py:111-176) *)
  Definition dec (n : nat) : string := NilEmpty.string_of_uint (Nat.to_uint n).
  Definition dsets (d : dict ival) (l : list (string * ival)) : dict ival := dupdate d l.

  (** indicator.py:125-126 and 130-131 *)
  Definition num_aliases (k : nat) : list string :=
    ["i" ++ dec k; "input" ++ dec k; "d" ++ dec k; "data" ++ dec k]%string.
  Definition name_aliases (k : nat) : list string :=
    ["i_" ++ dec k; "input_" ++ dec k; "d_" ++ dec k; "data_" ++ dec k]%string.

  (** indicator.py:111-137,143-145: the attributes before the indicator's own code runs; [slots] are the names of
      the inputs given, [mps] their minimum periods *)
  Definition attrs_before (slots : list string) (mps : list Z) : res (dict ival) :=
    let d := [("outputs", IOuts); ("o", IOuts); ("lines", IOuts); ("l", IOuts); ("inputs", IIns); ("i", IIns);
              ("datas", IList); ("d", IList)] in
    match slots with
    | [] => Raise IndexError                                   (* self.datas[0] *)
    | _ :: _ =>
        let d := dsets d [("data", IIn 0)] in
        let d := dsets d (flat_map (fun k => map (fun a => (a, IIn k)) (num_aliases k)) (seq 0 (List.length slots))) in
        let d := dsets d (flat_map (fun p => map (fun a => (a, IStr (snd p))) (name_aliases (fst p)))
                                   (combine (seq 0 (List.length slots)) slots)) in
        m <- zmax_list mps ;;
        Ok (dsets d [("_minperiods", IPers mps); ("_minperiod", IPer m); ("params", IParams); ("p", IParams)])
    end.

  (** what the indicator's own code may do to the instance *)
  Inductive act := ASet (s : string) (v : ival) | ADel (s : string).
  Definition ddel (d : dict ival) (s : string) : res (dict ival) :=
    if dmem d s then Ok (filter (fun kv => negb (String.eqb (fst kv) s)) d) else Raise AttributeError.
  Definition act_step (d : dict ival) (a : act) : res (dict ival) :=
    match a with ASet s v => Ok (dset d s v) | ADel s => ddel d s end.
  Fixpoint acts (d : dict ival) (l : list act) : res (dict ival) :=
    match l with [] => Ok d | a :: l' => d' <- act_step d a ;; acts d' l' end.

  (** indicator.py:155-166: the temporary names, in the order in which they are deleted *)
  Definition temporaries (n : nat) : list string :=
    ["l"; "lines"; "data"; "d"; "datas"] ++
    flat_map (fun k => ["d" ++ dec k; "data" ++ dec k]%string) (seq 0 n) ++
    flat_map (fun k => ["d_" ++ dec k; "data_" ++ dec k]%string) (seq 0 n).
  Fixpoint ddels (d : dict ival) (l : list string) : res (dict ival) :=
    match l with [] => Ok d | s :: l' => d' <- ddel d s ;; ddels d' l' end.

  (** indicator.py:147-171: run the body (its actions on the instance and on the outputs), delete the temporary
      names, compute the minimum periods *)
  Definition construct (cls : lclass) (oslots : list string) (islots : list string) (mps : list Z)
             (extra : list string) (body : list act) (outs : list (string * hval)) : res holder :=
    d0 <- attrs_before islots mps ;;
    d1 <- acts d0 body ;;
    o <- lsets (new_cont cls oslots) outs ;;
    d2 <- ddels d1 (temporaries (List.length islots)) ;;
    pm <- minperiods o ;;
    Ok (mkHolder (dset (dset d2 "_minperiods" (IPers (fst pm))) "_minperiod" (IPer (snd pm))) extra o).
End Containers.
Arguments hline : clear implicits.
Arguments cont : clear implicits.
Arguments holder : clear implicits.
Arguments hval : clear implicits.
Arguments attr : clear implicits.
Arguments found : clear implicits.
