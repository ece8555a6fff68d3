(** Property theorems C131: the helpers of utils.py for minimum periods, seeds and single bars.  Model: Utils.v. *)
From Coq Require Import ZArith QArith List Bool Lia.
From Verif Require Import Num Series Line LineApi Strict Labels LabelsFacts Utils UtilsFacts.
Import ListNotations.
Local Open Scope Z_scope.

(** Raising the minimum period and lowering it again by the same amount gives the line back; neither touches a
    value, and the amounts of several calls add up. *)
Theorem C131_period :
  forall (V : Type) (a : line V) (p q : Z),
    dec_period (inc_period a p) p = a /\ inc_period (dec_period a p) p = a /\
    series (inc_period a p) = series a /\ series (dec_period a p) = series a /\
    lmp (inc_period (inc_period a p) q) = lmp a + p + q /\ min_idx (inc_period a p) q = min_idx a (p + q).
Proof.
  intros V [m s] p q. unfold dec_period, inc_period, series, min_idx. cbn [lmp lser].
  repeat split; try (f_equal; lia); lia.
Qed.
Print Assumptions C131_period.

(** The delivered bars: the [k]-th of them is the bar at [_MINIDX(x, k)], and there are none before the minimum
    period. *)
Theorem C131_delivered :
  forall (V : Type) (a : line V) (k : nat) (x : V), 1 <= lmp a ->
    (nth_error (mp_series a) k = Some x <-> line_get a (min_idx a (Z.of_nat k)) = Ok x) /\
    Z.of_nat (length (mp_series a)) = Z.max 0 (Z.of_nat (bars a) - (lmp a - 1)).
Proof.
  intros V a k x M. split.
  - rewrite get_nth by (unfold min_idx; lia). rewrite mp_series_nth by exact M. unfold min_idx.
    now replace (Z.to_nat (lmp a - 1 + Z.of_nat k)) with (Z.to_nat (lmp a - 1) + k)%nat by lia.
  - apply from_len. lia.
Qed.
Print Assumptions C131_delivered.

(** Setting the [k]-th delivered bar, on dates: that bar and no other; past the end it raises. *)
Theorem C131_set :
  forall (V : Type) (a : line V) (v : V), 1 <= lmp a ->
    (forall k, lmp a - 1 + Z.of_nat k < Z.of_nat (bars a) ->
       exists b, mp_set_val Dates a (Z.of_nat k) v = Ok (Dates, b) /\ lmp b = lmp a /\ bars b = bars a /\
         (forall j, (j < Z.to_nat (lmp a - 1))%nat -> nth_error (series b) j = nth_error (series a) j) /\
         (forall j, nth_error (mp_series b) j = if (j =? k)%nat then Some v else nth_error (mp_series a) j)) /\
    (forall i, Z.of_nat (bars a) <= lmp a - 1 + i -> mp_set_val Dates a i v = Raise IndexError).
Proof. intros V a v M. split; [intro k; now apply mp_set_dates|intro i; now apply mp_set_dates_out]. Qed.
Print Assumptions C131_set.

(** On numbered bars (0, 1, 2, ...) it does the same inside the data.  Past the end it does not raise: a bar is added. *)
Theorem C131_numbered_refuted :
  forall (V : Type) (a : line V) (v : V) (i : Z), 1 <= lmp a -> 0 <= i ->
    (lmp a - 1 + i < Z.of_nat (bars a) ->
       exists b, mp_set_val Dates a i v = Ok (Dates, b) /\ mp_set_val (default_index (bars a)) a i v = Ok (default_index (bars a), b)) /\
    (Z.of_nat (bars a) <= lmp a - 1 + i ->
       mp_set_val Dates a i v = Raise IndexError /\
       exists ix b, mp_set_val (default_index (bars a)) a i v = Ok (ix, b) /\ series b = series a ++ [v]).
Proof.
  intros V a v i M I. split.
  - intro B. rewrite !mp_set_line. apply default_set. lia.
  - intro B. split; [now apply mp_set_dates_out|]. rewrite mp_set_line, default_add by exact B. eexists. eexists. split; reflexivity.
Qed.
Print Assumptions C131_numbered_refuted.

(** Setting bar [i] of a line, delivered or not: bar [k] counted from the start, [-1] being the last, that bar and no
    other; outside the data it raises on dates.  On numbered bars a negative number or one past the end adds a bar. *)
Theorem C131_set_any :
  forall (V : Type) (a : line V) (v : V) (i : Z),
    (forall k, (k < bars a)%nat -> i = Z.of_nat k \/ i = Z.of_nat k - Z.of_nat (bars a) ->
       exists b, set_val Dates a i v = Ok (Dates, b) /\ lmp b = lmp a /\ bars b = bars a /\
         forall j, nth_error (series b) j = if (j =? k)%nat then Some v else nth_error (series a) j) /\
    (i < - Z.of_nat (bars a) \/ Z.of_nat (bars a) <= i -> set_val Dates a i v = Raise IndexError) /\
    (0 <= i < Z.of_nat (bars a) ->
       exists b, set_val Dates a i v = Ok (Dates, b) /\ set_val (default_index (bars a)) a i v = Ok (default_index (bars a), b)) /\
    (i < 0 \/ Z.of_nat (bars a) <= i ->
       exists ls, set_val (default_index (bars a)) a i v = Ok (Ints ls, mkLine (lmp a) (series a ++ [v])) /\
         nth_error ls (bars a) = Some i /\ length ls = S (bars a)).
Proof.
  intros V a v i. rewrite !set_val_line.
  split; [exact (fun k => @set_dates V a i v k)|]. split; [exact (@set_dates_out V a i v)|]. split; [exact (@default_set V a i v)|].
  exact (@default_add_any V a i v).
Qed.
Print Assumptions C131_set_any.

(** Lowering a minimum period below 1 is accepted; from then on the delivered bars are the last ones of the data
    instead of all, and setting the first of them writes the last bar. *)
Theorem C131_below_one_refuted :
  forall (V : Type) (a : line V), 1 <= lmp a ->
    (forall p, lmp a <= p -> p - lmp a + 1 <= Z.of_nat (bars a) ->
       mp_series (dec_period a p) = skipn (bars a - Z.to_nat (p - lmp a + 1)) (series a)) /\
    (forall v, lmp a = 1 -> (1 <= bars a)%nat ->
       exists b, mp_set_val Dates (dec_period a 1) 0 v = Ok (Dates, b) /\ line_get b (-1) = Ok v /\
         forall j, (j < bars a - 1)%nat -> nth_error (series b) j = nth_error (series a) j).
Proof. intros V a M. split; [intro p; now apply dec_series|intro v; now apply dec_set]. Qed.
Print Assumptions C131_below_one_refuted.

(** The seed constants select six different branches; every other number is taken as "no seed", without an error. *)
Theorem C131_seeds :
  (forall sd sd', seed_code sd = seed_code sd' -> sd = sd') /\ (forall sd, seed_branch (seed_code sd) = sd) /\
  (forall z, (forall sd, seed_code sd <> z) -> seed_branch z = SEED_NONE).
Proof.
  split; [|split].
  - intros [] []; cbn; congruence.
  - now intros [].
  - intros z H. unfold seed_branch. pose proof (H SEED_AVG). pose proof (H SEED_LAST). pose proof (H SEED_SUM). pose proof (H SEED_ZERO).
    pose proof (H SEED_ZFILL). cbn in *. repeat match goal with |- context [?x =? ?y] => destruct (Z.eqb_spec x y) end; congruence.
Qed.
Print Assumptions C131_seeds.

Definition late : line (ext Q) := mkLine 3 [NaN; NaN; Fin 4%Q; Fin 8%Q].
Example C131_met :
  mp_series late = [Fin 4%Q; Fin 8%Q] /\ line_get late (min_idx late 1) = Ok (Fin 8%Q) /\
  mp_set_val Dates late 1 (Fin 9%Q) = Ok (Dates, mkLine 3 [NaN; NaN; Fin 4%Q; Fin 9%Q]) /\
  mp_set_val Dates late 2 (Fin 9%Q) = Raise IndexError /\
  mp_set_val (default_index 4) late 2 (Fin 9%Q) = Ok (Ints [0; 1; 2; 3; 4], mkLine 3 [NaN; NaN; Fin 4%Q; Fin 8%Q; Fin 9%Q]) /\
  mp_series (inc_period late 1) = [Fin 8%Q] /\ mp_series (dec_period late 4) = [Fin 4%Q; Fin 8%Q] /\
  mp_set_val Dates (dec_period late 3) 0 (Fin 1%Q) = Ok (Dates, mkLine 0 [NaN; NaN; Fin 4%Q; Fin 1%Q]) /\
  set_val Dates late (-1) (Fin 9%Q) = Ok (Dates, mkLine 3 [NaN; NaN; Fin 4%Q; Fin 9%Q]) /\
  set_val (default_index 4) late (-1) (Fin 9%Q) = Ok (Ints [0; 1; 2; 3; -1], mkLine 3 [NaN; NaN; Fin 4%Q; Fin 8%Q; Fin 9%Q]) /\
  seed_branch 3 = SEED_NONE /\ forall sd, seed_code sd <> 3.
Proof. do 11 (split; [vm_compute; reflexivity|]). now intros []. Qed.
