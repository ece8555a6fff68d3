(** The parts of the user-facing Line object that the indicators do not need: reductions, standard operations whose
    result may have another length, expanding windows, slices and the assignment check of pandas
    (btalib/meta/lines.py:137-176, 210-397, 476-516; linesops.py). *)
From Coq Require Import ZArith List Bool.
From Verif Require Import Num Series Line.
Import ListNotations.
Set Implicit Arguments.
Local Open Scope Z_scope.

Section LineApi.
  Context {V : Type} {N : Num V}.
  Notation line := (line V).

  (** [result[i:] = r] on a Series of n times [d].  pandas refuses a value whose length is not n - i
      (core/indexers.py check_setitem_lengths, length_of_indexer); with no bar at all the check is left out and numpy
      broadcasts a single value.  Line.v ([set_from]) describes only the accepted case. *)
  Definition put {A} (d : A) (n : nat) (i : Z) (r : list A) : res (list A) :=
    if Nat.eqb n 0 then (if Nat.leb (length r) 1 then Ok [] else Raise ValueError)
    else
      let start := if i <? 0 then Z.of_nat n + i else i in
      if Z.of_nat n - start =? Z.of_nat (length r) then Ok (set_from (repeat d n) i r) else Raise ValueError.

  (** lines.py:137-162 standard_op: [F] is the method of the Series, which may raise or give another length.
      Simplification: the result keeps float values (the dtype is not modelled). *)
  Definition std_any (F : list V -> res (list V)) (a : line) : res line :=
    let mp := lmp a in
    r <- F (slice_from (lser a) (mp - 1)) ;;
    s <- put vnan (bars a) (mp - 1) r ;;
    Ok (clone a s mp).
  (** the same with a further Line argument (sargs) *)
  Definition std_any2 (F : list V -> list V -> res (list V)) (a b : line) : res line :=
    let mp := Z.max (lmp a) (lmp b) in
    r <- F (slice_from (lser a) (mp - 1)) (slice_from (lser b) (mp - 1)) ;;
    s <- put vnan (bars a) (mp - 1) r ;;
    Ok (clone a s mp).

  (** Series.head(n): self.iloc[:n] *)
  Definition ser_head (k : Z) (s : list V) : list V := firstn (slice_lo (length s) k) s.
  (** Series.tail(n): self.iloc[-n:], nothing for n = 0 *)
  Definition ser_tail (k : Z) (s : list V) : list V := if k =? 0 then [] else slice_from s (- k).
  (** Series.dropna() *)
  Definition ser_dropna (s : list V) : list V := notnan s.
  (** equality of pandas' hash tables: NaN equals NaN *)
  Definition same (x y : V) : bool := veqb x y || (visnan x && visnan y).
  (** Series.drop_duplicates(): the first of equal values stays *)
  Fixpoint dedup_from (seen s : list V) : list V :=
    match s with
    | [] => []
    | x :: s' => if existsb (same x) seen then dedup_from seen s' else x :: dedup_from (x :: seen) s'
    end.
  Definition ser_drop_duplicates (s : list V) : list V := dedup_from [] s.
  (** Series.nlargest(n) / nsmallest(n): NaN are dropped, the rest is sorted *)
  Fixpoint insert_by (before : V -> V -> bool) (x : V) (s : list V) : list V :=
    match s with
    | [] => [x]
    | y :: s' => if before y x then y :: insert_by before x s' else x :: s
    end.
  Definition sort_by (before : V -> V -> bool) (s : list V) : list V := fold_right (insert_by before) [] s.
  Definition ser_nlargest (k : Z) (s : list V) : list V :=
    firstn (Z.to_nat k) (sort_by (fun y x => vltb x y) (notnan s)).
  Definition ser_nsmallest (k : Z) (s : list V) : list V :=
    firstn (Z.to_nat k) (sort_by (fun y x => vltb y x) (notnan s)).

  (** linesops.py:80-103 as methods of a Line *)
  Definition line_head (k : Z) : line -> res line := std_any (fun s => Ok (ser_head k s)).
  Definition line_tail (k : Z) : line -> res line := std_any (fun s => Ok (ser_tail k s)).
  Definition line_dropna : line -> res line := std_any (fun s => Ok (ser_dropna s)).
  Definition line_drop_duplicates : line -> res line := std_any (fun s => Ok (ser_drop_duplicates s)).
  Definition line_nlargest (k : Z) : line -> res line := std_any (fun s => Ok (ser_nlargest k s)).
  Definition line_nsmallest (k : Z) : line -> res line := std_any (fun s => Ok (ser_nsmallest k s)).
  Definition line_append : line -> line -> res line := std_any2 (fun s t => Ok (s ++ t)).

  (** lines.py:506-508 mpseries *)
  Definition mpseries (a : line) : list V := slice_from (lser a) (lmp a - 1).

  (** lines.py:165-176 reduction_op: the method [F] of the Series from the minimum period on *)
  Definition reduce {A} (F : list V -> A) (a : line) : A := F (slice_from (lser a) (lmp a - 1)).
  Definition breduce {A} (F : list bool -> A) (a : bline) : A := F (slice_from (bser a) (bmp a - 1)).
  (** with a Line argument (sargs, linesops.py: corr, cov, dot, equals) *)
  Definition reduce2 {A} (F : list V -> list V -> A) (a b : line) : A :=
    let mi := Z.max (lmp a) (lmp b) - 1 in
    F (slice_from (lser a) mi) (slice_from (lser b) mi).

  (** Series.count(), max(), min(), all(), any(), dot(other), first_valid_index() (as a position),
      idxmax() (as a position).  sum and mean are in Series.v. *)
  Definition ser_count (s : list V) : nat := length (notnan s).
  Definition ser_max (s : list V) : V := win_max (notnan s).
  Definition ser_min (s : list V) : V := win_min (notnan s).
  Definition ser_all (s : list bool) : bool := forallb (fun b => b) s.
  Definition ser_any (s : list bool) : bool := existsb (fun b => b) s.
  Definition ser_dot (s t : list V) : V := vsum (map2 vmul s t).
  Fixpoint ser_equals (s t : list V) : bool :=
    match s, t with
    | [], [] => true
    | x :: s', y :: t' => same x y && ser_equals s' t'
    | _, _ => false
    end.

  Definition line_sum : line -> V := reduce ser_sum.
  Definition line_mean : line -> V := reduce ser_mean.
  Definition line_count : line -> nat := reduce ser_count.
  Definition line_max : line -> V := reduce ser_max.
  Definition line_min : line -> V := reduce ser_min.
  Definition line_all : bline -> bool := breduce ser_all.
  Definition line_any : bline -> bool := breduce ser_any.
  Definition line_dot : line -> line -> V := reduce2 ser_dot.
  Definition line_equals : line -> line -> bool := reduce2 ser_equals.

  (** Expanding windows of pandas: missing values (and infinities) are left out, min_periods (at least 1) usable
      values are needed *)
  Definition ser_expanding (minp : nat) (G : list V -> V) (s : list V) : list V :=
    map (fun i => let w := notnan (map prep (firstn (S i) s)) in
                  if Nat.ltb (length w) (Nat.max minp 1) then vnan else G w) (seq 0 (length s)).
  (** line.expanding(min_periods=m).G(): linesops.py:164 makes min_periods the period argument; without the keyword
      (None; pandas takes 1, or the positional argument [pos]) the minimum period does not grow *)
  Definition expanding (kw : option nat) (pos : nat) (G : list V -> V) (a : line) : res line :=
    let minp := match kw with Some m => m | None => pos end in
    snd (mf_call (mf_plain a (option_map Z.of_nat kw)) (fun t => Ok (ser_expanding minp G t))).

  (** lines.py:477-487 Line.__call__(ago, val): ago None is [None]; val None is [None] *)
  Definition line_call (ago : option Z) (val : option V) (a : line) : line :=
    match ago with
    | Some z => if z =? 0
                then match val with
                     | Some v => filled a v
                     | None => mkLine (lmp a) (lser a)          (* the values of self._series.copy() *)
                     end
                else shift a (- z)
    | None => mkLine (lmp a) (lser a)
    end.

  (** lines.py:495-496 Line.__getitem__ with a slice (positional): the minimum period is that of the line *)
  Definition line_slice (a : line) (i j : Z) : line := mkLine (lmp a) (slice (lser a) i j).
End LineApi.
