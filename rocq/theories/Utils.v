(** Model of btalib/utils.py: the seed constants and the helpers which read and write minimum periods and bars
    directly.  They are part of the public names (btalib/__init__.py:9). *)
From Coq Require Import ZArith List Bool.
From Verif Require Import Num Series Line LineApi Strict Labels.
Import ListNotations.
Set Implicit Arguments.
Local Open Scope Z_scope.

(** utils.py:16-21 *)
Definition seed_code (sd : seed) : Z :=
  match sd with SEED_AVG => 0 | SEED_LAST => 1 | SEED_SUM => 2 | SEED_NONE => 4 | SEED_ZERO => 5 | SEED_ZFILL => 6 end.
(** lines.py:288-299: the branch [_ewm] takes for [_seed=z]; a number without a branch leaves the prefix missing, as
    SEED_NONE does *)
Definition seed_branch (z : Z) : seed :=
  if z =? 0 then SEED_AVG else if z =? 1 then SEED_LAST else if z =? 2 then SEED_SUM
  else if z =? 4 then SEED_NONE else if z =? 5 then SEED_ZERO else if z =? 6 then SEED_ZFILL else SEED_NONE.

Section Utils.
  Context {V : Type}.
  Notation line := (line V).
  (** utils.py:24-33 _INCPERIOD(x, p), 36-47 _DECPERIOD(x, p): in place in the code, the new line is returned here *)
  Definition inc_period (a : line) (p : Z) : line := mkLine (lmp a + p) (lser a).
  Definition dec_period (a : line) (p : Z) : line := mkLine (lmp a - p) (lser a).
  (** utils.py:50-58 _MINIDX(x, p) *)
  Definition min_idx (a : line) (p : Z) : Z := lmp a - 1 + p.
  (** utils.py:61-64 _SERIES(x), 67-70 _MPSERIES(x): the values; slices are by position for every index *)
  Definition series (a : line) : list V := lser a.
  Definition mp_series (a : line) : list V := slice_from (lser a) (lmp a - 1).
  (** utils.py:73-76 _SETVAL(x, idx, val), 79-82 _MPSETVAL(x, idx, val) *)
  Definition set_val (ix : index) (a : line) (i : Z) (v : V) : res (index * line) :=
    r <- set_item ix (lser a) i v ;; Ok (fst r, mkLine (lmp a) (snd r)).
  Definition mp_set_val (ix : index) (a : line) (i : Z) (v : V) : res (index * line) :=
    r <- set_item ix (lser a) (lmp a - 1 + i) v ;; Ok (fst r, mkLine (lmp a) (snd r)).
End Utils.
