(** Model of the registry of indicator.py:22-48,68-75, of meta/groups.py and of the namespaces filled by
    meta/aliases.py and the star imports of indicators/__init__.py. *)
From Coq Require Import List String Ascii Bool Arith.
From Verif Require Import Series Py LinesGen Table.
Import ListNotations.
Set Implicit Arguments.
Local Open Scope string_scope.
Local Open Scope list_scope.
Local Open Scope nat_scope.

(** ** Registry *)

(** str <= str: lexicographic by code point *)
Fixpoint sleb (a b : string) : bool :=
  match a, b with
  | EmptyString, _ => true
  | String _ _, EmptyString => false
  | String x a', String y b' =>
      if nat_of_ascii x <? nat_of_ascii y then true
      else if nat_of_ascii y <? nat_of_ascii x then false
      else sleb a' b'
  end.
(** sorted(list of str) *)
Fixpoint insert_s (x : string) (l : list string) : list string :=
  match l with
  | [] => [x]
  | y :: l' => if sleb x y then x :: y :: l' else y :: insert_s x l'
  end.
Definition sorted_s (l : list string) : list string := fold_right insert_s [] l.

(** indicator.py:22-24: _NAMES_IND, _IND_NAMES and _GRP_IND; a class is identified by a number *)
Record registry := mkReg {
  names_ind : dict nat;
  ind_names : list (nat * string);
  grp_ind : dict (list nat)
}.
Definition reg0 : registry := mkReg [] [] [].

(** a class statement: module path, class name, class, groups (meta/groups.py:10-18 already applied) *)
Record reg_op := mkRegOp { r_path : list string; r_name : string; r_cls : nat; r_groups : list string }.

Definition private (n : string) : bool :=
  match n with String c _ => Ascii.eqb c "_"%char | EmptyString => false end.

(** _GRP_IND[grp].append(cls) on a defaultdict(list) *)
Definition grp_append (g : dict (list nat)) (grp : string) (c : nat) : dict (list nat) :=
  dset g grp (match dget g grp with Some l => l | None => [] end ++ [c]).

(** indicator.py:68-75 *)
Definition register (r : registry) (op : reg_op) : registry :=
  let to_register := match r_path op with p :: _ => String.eqb p "btalib" | [] => false end
                     && (2 <? List.length (r_path op)) in
  if to_register && negb (private (r_name op)) then
    mkReg (dset (names_ind r) (r_name op) (r_cls op))
          ((r_cls op, r_name op) :: ind_names r)
          (fold_left (fun g grp => grp_append g grp (r_cls op)) (r_groups op) (grp_ind r))
  else r.
Definition register_all (ops : list reg_op) : registry := fold_left register ops reg0.

(** indicator.py:27-48 *)
Definition get_ind_names (r : registry) : list string := sorted_s (dkeys (names_ind r)).
Definition get_indicators (r : registry) : list (option nat) :=
  map (dget (names_ind r)) (get_ind_names r).
Definition get_ind_by_name (r : registry) : list (string * option nat) :=
  map (fun n => (n, dget (names_ind r) n)) (get_ind_names r).
Definition get_ind_by_group (r : registry) : dict (list nat) := grp_ind r.
(** _IND_NAMES[i]: keyed by class, the entry written last *)
Definition class_name (r : registry) (c : nat) : res string :=
  match find (fun p => fst p =? c) (ind_names r) with Some p => Ok (snd p) | None => Raise KeyError end.
Fixpoint class_names (r : registry) (l : list nat) : res (list string) :=
  match l with [] => Ok [] | c :: l' => n <- class_name r c ;; ns <- class_names r l' ;; Ok (n :: ns) end.
Fixpoint names_by (r : registry) (g : dict (list nat)) : res (dict (list string)) :=
  match g with
  | [] => Ok []
  | (k, il) :: g' => ns <- class_names r il ;; d <- names_by r g' ;; Ok ((k, sorted_s ns) :: d)
  end.
Definition get_ind_names_by_group (r : registry) : res (dict (list string)) := names_by r (grp_ind r).
Definition get_groups (r : registry) : list string := dkeys (grp_ind r).

(** ** The package's classes *)

(** the entries of the bases of a class, nearest first; Indicator itself is not in the table *)
Definition find_class (n : string) : option entry := find (fun e => String.eqb (e_name e) n) table.
Fixpoint chain (fuel : nat) (n : string) : list entry :=
  match fuel with
  | 0 => []
  | S f => match find_class n with
           | None => []
           | Some e => e :: chain f (e_base e)
           end
  end.
Definition depth_bound : nat := 10.

(** meta/groups.py:13: own declaration, else the attribute inherited from the bases *)
Definition group_of (e : entry) : list string :=
  match find (fun x => match e_group x with [] => false | _ => true end) (chain depth_bound (e_name e)) with
  | Some x => e_group x
  | None => []
  end.

Fixpoint number {A : Type} (n : nat) (l : list A) : list (nat * A) :=
  match l with [] => [] | x :: l' => (n, x) :: number (S n) l' end.
Definition package_ops : list reg_op :=
  map (fun p => mkRegOp ["btalib"; "indicators"; e_module (snd p)] (e_name (snd p)) (fst p) (group_of (snd p)))
      (number 0 table).

(** inputs and outputs of a class of the package: lines.py:19-105 along the chain; Indicator declares
    inputs = ('close',) (indicator.py:194) and no outputs *)
Fixpoint lines_of (decl : entry -> list ldef) (ext : entry -> lext) (root : list string)
         (ch : list entry) : res lclass :=
  match ch with
  | [] => Ok (mkLClass root [])
  | e :: ch' => b <- lines_of decl ext root ch' ;; lgenerate [lnames b] (decl e) (ext e)
  end.
Definition inputs_of (e : entry) : res lclass :=
  lines_of e_inputs e_inext ["close"] (chain depth_bound (e_name e)).
Definition outputs_of (e : entry) : res lclass :=
  lines_of e_outputs (fun _ => ExtTuple []) [] (chain depth_bound (e_name e)).

(** ** Namespaces *)
Inductive nsval := NModule (m : string) | NClass (c : string).

(** aliases.py:12-33: in a module each class statement binds the class name (Python) and then each alias
    (setattr) and lists them in __all__ *)
Definition module_ns (m : string) : dict nsval :=
  fold_left (fun ns e =>
      fold_left (fun ns a => dset ns a (NClass (e_name e))) (e_alias e)
                (dset ns (e_name e) (NClass (e_name e))))
    (filter (fun e => String.eqb (e_module e) m) table) [].
(** indicators/__init__.py:14-90: importing a submodule binds its name in the package, the star import
    then binds the names in its __all__ *)
Definition package_ns : dict nsval :=
  fold_left (fun ns m => dupdate (dset ns m (NModule m)) (module_ns m)) modules [].
(** btalib/__init__.py: from .indicators import * leaves the private names out *)
Definition public_ns : dict nsval := filter (fun kv => negb (private (fst kv))) package_ns.
