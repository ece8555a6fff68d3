(** Python containers used by the class machinery: insertion ordered dictionaries with
    string keys, list helpers, lower-casing. *)
From Coq Require Import List String Ascii Bool Arith ZArith.
Import ListNotations.
Set Implicit Arguments.

Section Dict.
  Context {V : Type}.
  Definition dict := list (string * V).

  (** d.get(k) *)
  Fixpoint dget (d : dict) (k : string) : option V :=
    match d with
    | [] => None
    | (k', v) :: d' => if String.eqb k' k then Some v else dget d' k
    end.
  (** d[k] = v: replaces in place or appends *)
  Fixpoint dset (d : dict) (k : string) (v : V) : dict :=
    match d with
    | [] => [(k, v)]
    | (k', v') :: d' => if String.eqb k' k then (k', v) :: d' else (k', v') :: dset d' k v
    end.
  (** d.update(e) *)
  Definition dupdate (d e : dict) : dict := fold_left (fun acc kv => dset acc (fst kv) (snd kv)) e d.
  (** d.setdefault(k, v) *)
  Definition dsetdefault (d : dict) (k : string) (v : V) : dict :=
    match dget d k with Some _ => d | None => d ++ [(k, v)] end.
  Definition dmem (d : dict) (k : string) : bool :=
    match dget d k with Some _ => true | None => false end.
  Definition dkeys (d : dict) : list string := map fst d.
End Dict.
Arguments dict : clear implicits.

(** list.index(x); None stands for the ValueError *)
Fixpoint index_of (x : string) (l : list string) : option nat :=
  match l with
  | [] => None
  | y :: l' => if String.eqb y x then Some 0 else option_map S (index_of x l')
  end.

Definition smem (x : string) (l : list string) : bool := existsb (String.eqb x) l.

(** list(dict.fromkeys(l)): first occurrences, in order *)
Fixpoint fromkeys_acc (seen l : list string) : list string :=
  match l with
  | [] => []
  | x :: l' => if smem x seen then fromkeys_acc seen l' else x :: fromkeys_acc (x :: seen) l'
  end.
Definition fromkeys (l : list string) : list string := fromkeys_acc [] l.

(** str.lower() for ASCII letters (other characters are left unchanged) *)
Definition lower_ascii (c : ascii) : ascii :=
  let n := nat_of_ascii c in
  if (65 <=? n) && (n <=? 90) then ascii_of_nat (n + 32) else c.
Fixpoint lower (s : string) : string :=
  match s with
  | EmptyString => EmptyString
  | String c s' => String (lower_ascii c) (lower s')
  end.
