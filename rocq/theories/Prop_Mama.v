(** Property theorems C84 to C86: the MESA adaptive moving average.  Model: IndMama.v;
    definitions: MamaSpec.v, HTSpec.v. *)
From Coq Require Import ZArith List Bool Reals Lra Lia.
From Verif Require Import Num Series Line Spec RSpec LineFacts RFacts IndHT HTSpec PropLinesFacts PropHTFacts
  IndMA MAFacts IndMama MamaSpec MamaFacts Prop_HT.
Import ListNotations.
Local Open Scope R_scope.

(** the two outputs follow Ehlers' equations, are delivered from bar 32 on, and need at least
    12 bars not to fail *)
Theorem C84_mama :
  forall inp n x fast slow, priced inp n 0 x -> (12 <= n)%nat ->
    exists ym yf c m f, mama (Fin fast) (Fin slow) inp = Ok (ym, yf) /\
      is_cycle 12 (smooth4 x) c /\ is_mama fast slow 12 x c m f /\
      delivers ym n 32 (fin m) /\ delivers yf n 32 (fin f).
Proof. exact mama_run. Qed.
Print Assumptions C84_mama.
Example C84_mama_met := C84_mama _ 80 sawf 0.5 0.05 saw_priced_hl (ltac:(lia)).

Theorem C84_short :
  forall inp n x fast slow, priced inp n 0 x -> (n < 12)%nat ->
    mama (Fin fast) (Fin slow) inp = Raise IndexError.
Proof. exact mama_short. Qed.
Print Assumptions C84_short.
Example C84_short_met : priced (HLine (raw (map Fin [3; 1; 2]))) 3 0 (fun i => nth i [3; 1; 2] 0).
Proof. exact (raw_fin_feeds [3; 1; 2]). Qed.

(** the weight of a new price lies between the limits *)
Theorem C84_weight :
  forall fast slow c i, 0 <= fast -> slow <= fast -> slow <= mama_weight fast slow c i <= fast.
Proof. exact weight_range. Qed.
Print Assumptions C84_weight.

(** prices that agree up to bar [q] give values that agree up to bar [q] *)
Theorem C84_no_lookahead :
  forall inp inp' n n' x x' fast slow q y y',
    priced inp n 0 x -> priced inp' n' 0 x' -> (forall i, (i <= q)%nat -> x i = x' i) ->
    mama (Fin fast) (Fin slow) inp = Ok y -> mama (Fin fast) (Fin slow) inp' = Ok y' ->
    agree (fst y) (fst y') q /\ agree (snd y) (snd y') q.
Proof. exact mama_prefix. Qed.
Print Assumptions C84_no_lookahead.
Example C84_no_lookahead_met :
  exists y, mama (Fin 0.5) (Fin 0.05) (HLine (raw (map Fin saw))) = Ok y /\
    priced (HLine (raw (map Fin saw))) 80 0 sawf.
Proof.
  destruct (C84_mama _ 80 sawf 0.5 0.05 saw_priced (ltac:(lia))) as (ym & yf & _ & _ & _ & E & _).
  exists (ym, yf). split; [exact E|exact saw_priced].
Qed.

(** C85: with any input that has a warm-up the call fails, however long the history *)
Theorem C85_refuted :
  forall inp n k x fast slow, priced inp n k x -> (1 <= k)%nat ->
    mama (Fin fast) (Fin slow) inp = Raise IndexError.
Proof. exact mama_chained. Qed.
Print Assumptions C85_refuted.
Example C85_met : exists x, priced (HLine (sma 3 (raw (map Fin saw)))) 80 2 x.
Proof.
  exists (fun i => Rmean (lastp sawf i 3)).
  exact (delivers_feeds (@sma_fin _ 80 0 sawf 3 saw_feeds (ltac:(lia)))).
Qed.

(** C86: both averages start from 0 and stay between 0 and the prices *)
Theorem C86_range_partial :
  forall fast slow start x c m f, is_mama fast slow start x c m f -> (1 <= start)%nat ->
    0 <= slow <= fast /\ fast <= 1 ->
    forall lo hi, lo <= 0 <= hi -> (forall i, (start <= i)%nat -> lo <= x i <= hi) ->
      forall i, (start - 1 <= i)%nat -> lo <= m i <= hi /\ lo <= f i <= hi.
Proof. exact mama_range. Qed.
Print Assumptions C86_range_partial.
(** how much of the lowest price is reached at least *)
Theorem C86_floor_partial :
  forall fast slow start x c m f, is_mama fast slow start x c m f -> (1 <= start)%nat ->
    0 <= slow <= fast /\ fast <= 1 ->
    forall lo, 0 <= lo -> (forall i, (start <= i)%nat -> lo <= x i) ->
      forall i, (start - 1 <= i)%nat -> lo * (1 - (1 - slow) ^ (S i - start)) <= m i.
Proof. exact mama_floor. Qed.
Print Assumptions C86_floor_partial.
(** so even for a constant price no delivered value is in the range of the prices *)
Theorem C86_refuted :
  forall inp n v fast slow, priced inp n 0 (fun _ => v) -> (12 <= n)%nat ->
    0 < v -> 0 <= slow <= fast /\ fast <= 1 -> fast < 1 ->
    exists ym yf m f, mama (Fin fast) (Fin slow) inp = Ok (ym, yf) /\
      delivers ym n 32 (fin m) /\ delivers yf n 32 (fin f) /\
      forall i, (32 <= i)%nat -> m i < v /\ f i < v.
Proof. exact mama_constant. Qed.
Print Assumptions C86_refuted.
Example C86_met : priced (HLine (raw (map Fin (repeat 7 50)))) 50 0 (fun _ => 7).
Proof.
  split; [reflexivity|]. split; [reflexivity|]. intros i Hi.
  cbn [lser raw]. rewrite nth_error_map, (nth_error_nth' (repeat 7 50) 7) by (rewrite repeat_length; lia).
  now rewrite nth_repeat.
Qed.
