(** Series whose index consists of integers.

    [s[i]] and [s[i] = v] of pandas address a position if the index holds dates or texts, and a
    label if it holds integers (pandas/core/series.py __getitem__, __setitem__; a label which is
    not there is added at the end when assigned).  The other files take dates.  Here are the three
    places of the library where the difference shows: the seed of [_ewm], [Line.__setitem__] and,
    for comparison, [Line.__getitem__], which uses [iloc]. *)
From Coq Require Import ZArith QArith List Bool.
From Verif Require Import Num Series Line Apply LineApi Strict IndMA IndRange IndHT IndMama.
Import ListNotations.
Set Implicit Arguments.
Local Open Scope Z_scope.

(** an index with dates (only the number of rows matters), or with one integer per row.
    Simplified: with repeated labels pandas returns and sets several rows; here integer labels are
    read at their first occurrence. *)
Inductive index := Dates | Ints (labels : list Z).

(** [range(n)], the index of a frame which got none: pd.read_csv without index_col, pd.Series(list) *)
Definition default_index (n : nat) : index := Ints (map Z.of_nat (seq 0 n)).

Section Labels.
  Context {V : Type} {N : Num V}.
  Notation line := (line V).

  (** [s[i]] *)
  Fixpoint at_label (ls : list Z) (s : list V) (i : Z) : res V :=
    match ls, s with
    | l :: ls', x :: s' => if l =? i then Ok x else at_label ls' s' i
    | _, _ => Raise KeyError
    end.
  Definition get_item (ix : index) (s : list V) (i : Z) : res V :=
    match ix with Dates => getitem s i | Ints ls => at_label ls s i end.

  (** [s[i] = v]; the result is the new index with the new values *)
  Fixpoint put_label (ls : list Z) (s : list V) (i : Z) (v : V) : list Z * list V :=
    match ls, s with
    | l :: ls', x :: s' =>
        if l =? i then (l :: ls', v :: s')
        else let r := put_label ls' s' i v in (l :: fst r, x :: snd r)
    | _, _ => ([i], [v])
    end.
  Fixpoint put_nth (s : list V) (k : nat) (v : V) : res (list V) :=
    match s, k with
    | [], _ => Raise IndexError
    | _ :: s', O => Ok (v :: s')
    | x :: s', S k' => r <- put_nth s' k' v ;; Ok (x :: r)
    end.
  Definition put_pos (s : list V) (i : Z) (v : V) : res (list V) :=
    let j := if i <? 0 then Z.of_nat (length s) + i else i in
    if j <? 0 then Raise IndexError else put_nth s (Z.to_nat j) v.
  Definition set_item (ix : index) (s : list V) (i : Z) (v : V) : res (index * list V) :=
    match ix with
    | Dates => s' <- put_pos s i v ;; Ok (Dates, s')
    | Ints ls => let r := put_label ls s i v in Ok (Ints (fst r), snd r)
    end.

  (** [index[i:j]] *)
  Definition index_slice (ix : index) (i j : Z) : index :=
    match ix with Dates => Dates | Ints ls => Ints (slice ls i j) end.

  (** lines.py:256-298 _ewm(...) and 359-383 call_op for any index, with the length check of pandas
      on [result[minidx:] = r] ([put] of LineApi.v).  Same parameters as [mf_ewm] of Line.v *)
  Definition ewm_any (ix : index) (a : line) (pval poffset pearly alphap : Z) (sd : seed)
             (F : list V -> res (list V)) : res line :=
    let po := if poffset =? 0 then pval else poffset in
    let po := if negb (pval =? 0) && (po <? alphap) then po + (alphap - po - 1) else po in
    let p2 := lmp a - 1 + po - pearly in
    let p1 := p2 - pval in
    let pidx := p2 - 1 in
    let s := lser a in
    let pix := index_slice ix pidx p2 in
    let prefix := map (fun _ => vnan) (slice s pidx p2) in
    let set_last (v : V) : res (list V) := r <- set_item pix prefix (-1) v ;; Ok (snd r) in
    pre <- match sd with
           | SEED_AVG => set_last (ser_mean (slice s p1 p2))
           | SEED_LAST => v <- get_item ix s pidx ;; set_last v
           | SEED_SUM => set_last (ser_sum (slice s p1 p2))
           | SEED_NONE => Ok prefix
           | SEED_ZERO => set_last v0
           | SEED_ZFILL => Ok (map (fun _ => v0) prefix)
           end ;;
    r <- F (pre ++ slice_from s p2) ;;
    place (bars a) (lmp a) (Z.max (lmp a + (pval - pearly - 1)) alphap) pidx r.

  (** ema.py:37-39, smma.py:39-41 *)
  Definition ema_any (ix : index) (sd : seed) (poffset : Z) : ma_fun V := fun p a =>
    ewm_any ix a (Z.of_nat p) poffset 0 1 sd
      (fun t => Ok (ser_ewma (alpha_span (vofZ (Z.of_nat p))) false t)).
  Definition smma_any (ix : index) (sd : seed) : ma_fun V := fun p a =>
    ewm_any ix a (Z.of_nat p - 1 + 1) 0 0 1 sd
      (fun t => Ok (ser_ewma (alpha_com (vofZ (Z.of_nat p - 1))) false t)).

  (** directionalmove.py:49-52, kama.py:83-85: [smacc] and [kama] of IndRange.v and IndMA.v *)
  Definition smacc_any (ix : index) (p : nat) (pearly : bool) (sd : seed) (a : line) : res line :=
    ewm_any ix a (Z.of_nat p) 0 (if pearly then 1 else 0) 1 sd
      (fun t => Ok (lfilter v1 (Some (vdiv (vofZ (Z.of_nat p - 1)) (vofZ (Z.of_nat p)))) t)).
  Definition dyn_any (ix : index) (p : Z) (al : line) (sd : seed) (a : line) : res line :=
    ewm_any ix a p 0 0 (lmp al) sd (dyn_mean (slice_from (lser al) (lmp al - 1))).
  Definition kama_any (ix : index) (p pvol : nat) (fast slow : V) (sd : seed) (a : line) : res line :=
    dyn_any ix (Z.of_nat p) (kama_sc p pvol fast slow a) sd a.
  (** lines.py:498-499 Line.__setitem__ with an integer and a number: writes into the Series of the
      line and keeps the minimum period *)
  Definition line_set (ix : index) (a : line) (i : Z) (v : V) : res (index * line) :=
    r <- set_item ix (lser a) i v ;; Ok (fst r, mkLine (lmp a) (snd r)).
  (** lines.py:495-496 Line.__getitem__ with an integer: the value at the position, whatever the
      index.  Simplified: the code wraps it in a Line object whose [_series] is the bare number. *)
  Definition line_get (a : line) (i : Z) : res V := getitem (lser a) i.
End Labels.

Section LabelsT.
  Context {V : Type} {N : Num V} {T : NumT V}.
  Notation line := (line V).
  (** mama.py:46-89: [mama] of IndMama.v; the loop gets numpy arrays (raw=True) and does not see
      the index *)
  Definition mama_any (ix : index) (fastlimit slowlimit : V) (inp : ht_in V) : res (line * line) :=
    let p0 := ht_p0 inp in
    let p0smooth := ht_p0smooth p0 in
    ls <- applymulti_ (fun price _ => Ok (phasorize price)) p0smooth
            [filled p0smooth v0; filled p0smooth v0] ;;
    match ls with
    | [i1; q1] =>
        let alpha := mama_alpha fastlimit slowlimit (mama_phase i1 q1) in
        m <- dyn_any ix 1 alpha SEED_ZERO p0 ;;
        f <- dyn_any ix 0 (binop_s vmul alpha (vofQ (1 # 2))) SEED_ZERO m ;;
        Ok (period_ m 20 false (Some vnan), period_ f 20 false (Some vnan))
    | _ => Raise ValueError
    end.
End LabelsT.
