(** Lines with an index: operators between lines whose Series carry different labels.

    The rest of the model works by position and assumes one index for all Series of a calculation
    (Series.v).  Here a Series is a list of (label, value); labels are integers (time stamps as pandas
    orders them).  pandas 1.0 is modelled for the calls of lines.py:108-134 only:
    - an arithmetic operator aligns two Series with different indexes by an outer join: the labels of
      both in ascending order, a missing partner counting as NaN (Index.join, Index.union); repeated
      labels give one row for every pair; if one index is empty, the other is taken as it is;
    - so do the methods of the comparisons (lt, eq, ...) and the logical operators;
    - a comparison operator raises ValueError unless the indexes are equal;
    - [result[minidx:] = r] stores the values of [r] by position, whatever the labels, and raises
      ValueError if their number differs from that of the places (core/indexers.py,
      check_setitem_lengths; an empty Series takes a single value without complaint, by numpy
      broadcasting).
    Left out: labels that cannot be compared, float labels (slices by label), several time zones. *)
From Coq Require Import ZArith List Bool.
From Verif Require Import Num Series Line.
Import ListNotations.
Set Implicit Arguments.
Local Open Scope Z_scope.

Section Indexed.
  Context {V : Type} {N : Num V}.

  (** lines.py:419-449, 501-509: minimum period and Series, with its index *)
  Record iline := mkI { imp : Z; iser : list (Z * V) }.
  Record ibline := mkIB { ibmp : Z; ibser : list (Z * bool) }.

  Definition labels {A} (s : list (Z * A)) : list Z := map fst s.
  (** Index.equals *)
  Definition same_labels {A B} (a : list (Z * A)) (b : list (Z * B)) : bool :=
    if list_eq_dec Z.eq_dec (labels a) (labels b) then true else false.

  (** Index.union with sort=None, both not empty: ascending, every label once *)
  Fixpoint insert_label (t : Z) (l : list Z) : list Z :=
    match l with
    | [] => [t]
    | u :: l' => if t <? u then t :: l else if t =? u then l else u :: insert_label t l'
    end.
  Definition union_labels (a b : list Z) : list Z := fold_right insert_label [] (a ++ b).

  (** the values under one label; the missing value [d] if there is none *)
  Definition under {A} (d : A) (t : Z) (s : list (Z * A)) : list A :=
    match map snd (filter (fun p => fst p =? t) s) with
    | [] => [d]
    | l => l
    end.

  (** Series.align(join='outer'): the pairs of values the operator is applied to *)
  Definition outer {A} (d : A) (a b : list (Z * A)) : list (A * A) :=
    if same_labels a b then combine (map snd a) (map snd b)
    else
      match a, b with
      | _, [] => map (fun p => (snd p, d)) a
      | [], _ => map (fun p => (d, snd p)) b
      | _, _ => flat_map (fun t => list_prod (under d t a) (under d t b)) (union_labels (labels a) (labels b))
      end.

  (** lines.py:108-134 binary_op, other being a Line, for an operator that aligns: minimum period and Series of
      the result; [fill] stands on the bars before it *)
  Definition aligned {A B} (d : A) (fill : B) (f : A -> A -> B) (mpx mpy : Z) (x y : list (Z * A)) : res (Z * list (Z * B)) :=
    let mp := Z.max mpx mpy in
    let mi := mp - 1 in
    let a := slice_from x mi in
    let r := map (fun p => f (fst p) (snd p)) (outer d a (slice_from y mi)) in
    let n := length x in
    if (length r =? length a)%nat then
      Ok (if mp =? 0 then mpx else mp, combine (labels x) (set_from (repeat fill n) mi r))
    else if (n =? 0)%nat && (length r =? 1)%nat then Ok (if mp =? 0 then mpx else mp, [])
    else Raise ValueError.

  (** arithmetic operators and their methods (add, sub, ...) *)
  Definition ibinop (op : V -> V -> V) (x y : iline) : res iline :=
    z <- aligned vnan vnan op (imp x) (imp y) (iser x) (iser y) ;; Ok (mkI (fst z) (snd z)).

  (** the methods eq, ne, lt, le, gt, ge: unlike the operators they align (pandas, Series._binop); True on the bars
      before the minimum period (NaN as bool) *)
  Definition icmp_method (op : V -> V -> bool) (x y : iline) : res ibline :=
    z <- aligned vnan true op (imp x) (imp y) (iser x) (iser y) ;; Ok (mkIB (fst z) (snd z)).

  (** &, | and ^ of lines of truth values: a missing right value counts as False, a missing left one makes the
      result False (pandas, core/ops/array_ops.py logical_op, fill_bool) *)
  Definition logic (op : bool -> bool -> bool) (a b : option bool) : bool :=
    match a, b with
    | None, _ => false
    | Some u, None => op u false
    | Some u, Some v => op u v
    end.
  Definition known (s : list (Z * bool)) : list (Z * option bool) := map (fun p => (fst p, Some (snd p))) s.
  Definition ilogic (op : bool -> bool -> bool) (x y : ibline) : res ibline :=
    z <- aligned None true (logic op) (ibmp x) (ibmp y) (known (ibser x)) (known (ibser y)) ;; Ok (mkIB (fst z) (snd z)).

  (** lines.py:108-134 binary_op for a comparison, other being a Line *)
  Definition icmpop (op : V -> V -> bool) (x y : iline) : res ibline :=
    let mp := Z.max (imp x) (imp y) in
    let mi := mp - 1 in
    let a := slice_from (iser x) mi in
    let b := slice_from (iser y) mi in
    if same_labels a b then
      Ok (mkIB (if mp =? 0 then imp x else mp)
               (combine (labels (iser x))
                  (set_from (repeat true (length (iser x))) mi (map2 op (map snd a) (map snd b)))))
    else Raise ValueError.

  (** the line by position, as in the rest of the model *)
  Definition by_position (x : iline) : line V := mkLine (imp x) (map snd (iser x)).
  Definition bby_position (x : ibline) : bline := mkBLine (ibmp x) (map snd (ibser x)).
End Indexed.
Arguments iline V : clear implicits.
