(** Model of btalib/meta/lines.py:19-105 _generate: the inputs/outputs of a class and the old names
    that refer to renamed ones. *)
From Coq Require Import List String Bool Arith.
From Verif Require Import Series Py.
Import ListNotations.
Set Implicit Arguments.
Local Open Scope string_scope.
Local Open Scope list_scope.

(** one element of a declaration: a name, a pair (new, old) or a dict {new: old, ...} *)
Inductive ldef := LName (s : string) | LPair (new old : string) | LDict (d : dict string).

(** lines.py:44-58 *)
Definition parse_def (st : list string * dict string) (d : ldef) : list string * dict string :=
  let '(cdefs, maps) := st in
  match d with
  | LName s => (cdefs ++ [s], maps)
  | LPair new old => (cdefs ++ [new], dset maps new old)
  | LDict m => (cdefs ++ dkeys m, dupdate maps m)
  end.
Definition parse_decl (decl : list ldef) : list string * dict string :=
  fold_left parse_def decl ([], []).

(** lines.py:76-79: the [_extend] declaration; tuple + list raises *)
Inductive lext := ExtStr (s : string) | ExtTuple (l : list string) | ExtList (l : list string).
Definition ext_names (e : lext) : res (list string) :=
  match e with ExtStr s => Ok [s] | ExtTuple l => Ok l | ExtList _ => Raise TypeError end.

(** lines.py:70-73 *)
Definition automap (cdefs lbdefs : list string) (maps : dict string) : dict string :=
  fold_left (fun acc p => if smem (snd p) cdefs then acc else dsetdefault acc (fst p) (snd p))
            (combine cdefs lbdefs) maps.

(** the generated class: its names (cls.inputs/cls.outputs and __slots__) and the mapping new name -> old name
    for which properties were made *)
Record lclass := mkLClass { lnames : list string; lmaps : dict string }.

(** lines.py:34-105; [bases] are the names of each base class, a single str or dict declaration is a one element
    list (lines 41-42), no declaration is the empty list *)
Definition lgenerate (bases : list (list string)) (decl : list ldef) (ext : lext) : res lclass :=
  let '(cdefs, maps) := parse_decl decl in
  let lbdefs := List.concat bases in
  fm <- match cdefs with
        | [] => e <- ext_names ext ;; Ok (lbdefs ++ e, maps)
        | _ :: _ => Ok (cdefs, automap cdefs lbdefs maps)
        end ;;
  let '(final_defs, maps) := fm in
  let remapped := map snd maps in
  let lines := rev (fromkeys (rev final_defs)) in
  Ok (mkLClass (filter (fun x => negb (smem x remapped)) lines) maps).

(** lines.py:94-101: every property reads the variable [name] of the enclosing function when it is called, that
    is the last key of the mapping *)
Definition last_name (c : lclass) : option string := last (map Some (dkeys (lmaps c))) None.

(** what an attribute access on the generated class refers to *)
Inductive target := Slot (s : string) | Plain (s : string) | Endless.
Definition resolve (c : lclass) (s : string) : target :=
  if smem s (map snd (lmaps c)) then
    match last_name c with
    | None => Plain s
    | Some n => if smem n (map snd (lmaps c)) then Endless
                else if smem n (lnames c) then Slot n else Plain n
    end
  else if smem s (lnames c) then Slot s else Plain s.
