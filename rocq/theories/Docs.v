(** Model of meta/docs.py: the help text (__doc__) that a class statement generates, and of the package's classes with it.
    The text is modelled as a list of sections; indentation and line breaks (textwrap, docs.py:15-34) are left out.
    Classes have a single base class, as all classes of the package have. *)
From Coq Require Import List String Bool ZArith.
From Verif Require Import Series Py LinesGen Params Table Registry ParamTable.
Import ListNotations.
Set Implicit Arguments.
Local Open Scope string_scope.
Local Open Scope list_scope.
Local Open Scope nat_scope.

(** a default as it is shown: a str in quotes, an indicator class by its name, anything else as it is *)
Inductive shown := ShQuoted (s : string) | ShClass (n : string) | ShValue (v : pyval).
(** an entry of the section on parameters; the description is left out if there is none *)
Record sparam := mkSP { sp_name : string; sp_default : shown; sp_doc : option pyval }.
Inductive section :=
| SText (d : string)              (* the docstring of the class statement, maybe empty *)
| SAliases (l : list string)
| SInputs (l : list string)
| SOutputs (l : list string)
| SParams (l : list sparam)
| STalib (d : string).            (* the docstring of the method _talib *)

Section Docs.
  (** the name of an object that is an indicator class *)
  Variable class_name : nat -> option string.

  (** docs.py:66-74 *)
  Definition show (v : pyval) : shown :=
    match v with
    | PStr s => ShQuoted s
    | PObj k => match class_name k with Some n => ShClass n | None => ShValue v end
    | _ => ShValue v
    end.
  (** docs.py:64,79-81: pinfo.get(name, {}).get('doc', ''), shown if true *)
  Definition described (p : pclass) (n : string) : option pyval :=
    match dget (pinfos p) n with
    | Some (d, _) => if truthy d then Some d else None
    | None => None
    end.
  Definition show_params (p : pclass) : list sparam :=
    map (fun nv => mkSP (fst nv) (show (snd nv)) (described p (fst nv))) (pdefaults p).

  Definition opt_section {A : Type} (f : list A -> section) (l : list A) : list section :=
    match l with [] => [] | _ => [f l] end.
  (** docs.py:37-93 *)
  Definition help (doc : string) (alias ins outs : list string) (p : pclass) (ta : string) : list section :=
    [SText doc] ++ opt_section SAliases alias ++ opt_section SInputs ins ++ opt_section SOutputs outs
    ++ opt_section SParams (show_params p) ++ (if String.eqb ta "" then [] else [STalib ta]).

  (** a class statement.  [None]: not declared.  The docstring of a method without one is empty *)
  Record dstmt := mkDStmt {
    s_doc : string;
    s_alias : option (list string);
    s_in : list ldef; s_inext : lext;
    s_out : list ldef; s_outext : lext;
    s_par : pdecl;
    s_talib : option string
  }.
  Record hclass := mkHC {
    h_alias : list string;          (* cls.alias, empty if there is none *)
    h_in : lclass;
    h_out : lclass;
    h_par : pclass;
    h_talib : string;               (* cls._talib.__doc__ *)
    h_help : list section           (* cls.__doc__ *)
  }.
  (** indicator.py:55-66: the steps of MetaIndicator.__new__ that matter here.  aliases.py:24-29: cls.alias is set if
      aliases are declared and inherited if not; cls.__doc__ is never inherited (a class statement without docstring
      sets it to None) *)
  Definition declare (base : hclass) (s : dstmt) : res hclass :=
    i <- lgenerate [lnames (h_in base)] (s_in s) (s_inext s) ;;
    o <- lgenerate [lnames (h_out base)] (s_out s) (s_outext s) ;;
    p <- generate [h_par base] (s_par s) ;;
    let alias := match s_alias s with Some a => a | None => h_alias base end in
    let ta := match s_talib s with Some d => d | None => h_talib base end in
    Ok (mkHC alias i o p ta (help (s_doc s) alias (lnames i) (lnames o) p ta)).
  (** indicator.py:183-210 class Indicator *)
  Definition root : hclass :=
    mkHC [] (mkLClass ["close"] []) (mkLClass [] []) (mkPClass [] []) ""
         (help "" [] ["close"] [] (mkPClass [] []) "").
  Fixpoint declare_all (base : hclass) (ss : list dstmt) : res hclass :=
    match ss with [] => Ok base | s :: ss' => c <- declare base s ;; declare_all c ss' end.
End Docs.

(** ** The package *)
Definition object_class (k : nat) : option string :=
  match nth_error objects k with Some (OClass n) => Some n | _ => None end.
Definition find_params (n : string) : option pentry := find (fun p => String.eqb (pe_name p) n) ptable.
(** the class statement of an entry of [table].  The texts themselves are not transcribed: the name of the class stands
    for its docstring and for that of its method _talib *)
Definition stmt_of (e : entry) (p : pentry) : dstmt :=
  mkDStmt (if pe_doc p then e_name e else "") (match e_alias e with [] => None | l => Some l end)
          (e_inputs e) (e_inext e) (e_outputs e) (ExtTuple []) (DSeq (pe_params p))
          (if pe_talib p then Some (e_name e) else None).
(** the class statements of a class and its base classes, the oldest first *)
Fixpoint stmts_of (ch : list entry) : option (list dstmt) :=
  match ch with
  | [] => Some []
  | e :: ch' => match find_params (e_name e), stmts_of ch' with
                | Some p, Some ss => Some (ss ++ [stmt_of e p])
                | _, _ => None
                end
  end.
Definition class_of (n : string) : option (res hclass) :=
  option_map (declare_all object_class (root object_class)) (stmts_of (chain depth_bound n)).
