(** Model of btalib/meta/params.py: parameter declarations, inheritance and the split of
    keyword arguments. *)
From Coq Require Import List String Bool ZArith.
From Verif Require Import Series Py.
Import ListNotations.
Set Implicit Arguments.
Local Open Scope string_scope.
Local Open Scope list_scope.

(** Python values as far as the machinery looks into them; [PObj] stands for any other (true) object, such as an
    indicator class, and [PInfo] for the dictionary {'doc': d, 'required': r} of params.py:115 *)
Inductive pyval :=
| PNone
| PBool (b : bool)
| PInt (z : Z)
| PStr (s : string)
| PTuple (l : list pyval)
| PInfo (d r : pyval)
| PObj (id : nat).

(** bool(v), as used by [or] *)
Definition truthy (v : pyval) : bool :=
  match v with
  | PNone => false
  | PBool b => b
  | PInt z => negb (Z.eqb z 0)
  | PStr s => negb (String.eqb s "")
  | PTuple l => match l with [] => false | _ => true end
  | PInfo _ _ | PObj _ => true
  end.
Definition py_or (a b : pyval) : pyval := if truthy a then a else b.

(** a class after params._generate: cls.params and _CLSPINFO[cls] (doc, required) *)
Record pclass := mkPClass { pdefaults : dict pyval; pinfos : dict (pyval * pyval) }.

(** the three ways to write a declaration: a list/tuple of (name, default, ...) or a dict *)
Inductive pdecl :=
| DSeq (l : list (string * list pyval))
| DDict (d : dict pyval).

(** params.py:96-98 *)
Definition decl_dict (p : pdecl) : dict pyval :=
  match p with
  | DSeq l => fold_left (fun acc e => dset acc (fst e) (PTuple (snd e))) l []
  | DDict d => d
  end.

(** params.py:87: the last base wins; only [pbdocs.get('doc', '')] is ever read (line 112) *)
Definition pbdocs (bases : list pclass) : dict (pyval * pyval) :=
  fold_left (fun acc b => dupdate acc (pinfos b)) bases [].
Definition pbdocs_get_doc (bases : list pclass) : pyval :=
  match dget (pbdocs bases) "doc" with Some (d, r) => PInfo d r | None => PStr "" end.

(** params.py:100-115: one turn of the inner loop *)
Definition gen_step (docdef : pyval) (st : pclass) (pname : string) (pval : pyval) : res pclass :=
  let vals := match pval with PTuple l => l | v => [v] end in
  match vals with
  | [] => Raise ValueError                        (* pdefault, *pothers = () *)
  | pdefault :: pothers =>
      let pdoc := match pothers with d :: _ => d | [] => PStr "" end in
      let prequired := match pothers with _ :: r :: _ => r | _ => PBool false end in
      let '(pdoc, prequired) :=
        match pdoc with
        | PBool b => (py_or prequired (PStr ""), PBool b)
        | _ => (pdoc, prequired)
        end in
      let pdoc := if dmem (pdefaults st) pname then py_or pdoc docdef else pdoc in
      Ok (mkPClass (dset (pdefaults st) pname pdefault) (dset (pinfos st) pname (pdoc, prequired)))
  end.
Fixpoint gen_loop (docdef : pyval) (st : pclass) (es : dict pyval) : res pclass :=
  match es with
  | [] => Ok st
  | (n, v) :: es' => st' <- gen_step docdef st n v ;; gen_loop docdef st' es'
  end.

(** params.py:76-122 _generate; the bases are indicator classes, so their [params] attribute is the dictionary of
    defaults this function stored *)
Definition generate (bases : list pclass) (own : pdecl) : res pclass :=
  gen_loop (pbdocs_get_doc bases) (mkPClass [] [])
           (flat_map pdefaults bases ++ decl_dict own).

(** params.py:125-132 _from_kwargs: declared keywords are popped in order, defaults are set and
    then overwritten *)
Fixpoint dremove (V : Type) (d : dict V) (k : string) : dict V :=
  match d with
  | [] => []
  | (k', v) :: d' => if String.eqb k' k then d' else (k', v) :: dremove d' k
  end.
Fixpoint pop_declared (params : dict pyval) (keys : list string) (kwargs : dict pyval)
  : res (dict pyval * dict pyval) :=
  match keys with
  | [] => Ok ([], kwargs)
  | k :: keys' =>
      if dmem params k then
        match dget kwargs k with
        | None => Raise KeyError
        | Some v =>
            p <- pop_declared params keys' (dremove kwargs k) ;;
            Ok ((k, v) :: fst p, snd p)
        end
      else pop_declared params keys' kwargs
  end.
Definition from_kwargs (c : pclass) (kwargs : dict pyval) : res (dict pyval * dict pyval) :=
  p <- pop_declared (pdefaults c) (dkeys kwargs) kwargs ;;
  Ok (dupdate (pdefaults c) (fst p), snd p).
