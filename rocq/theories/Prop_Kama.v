(** Property theorems C39 and C40: Kaufman's adaptive average.  Model: IndMA.v (kama);
    definitions: KamaSpec.v. *)
From Coq Require Import ZArith QArith List Bool Reals Lra Lia.
From Verif Require Import Num Series Line Spec RSpec BoundSpec KamaSpec LineFacts RFacts
  IndMA KamaFacts PropLinesFacts PropKamaFacts.
Import ListNotations.
Local Open Scope R_scope.

Definition kx : list R := [1; 3; 2; 5; 4; 4; 8; 6].
Definition kxf (i : nat) : R := nth i kx 0.
Example kx_feeds : feeds (raw (map Fin kx)) 8 0 (fin kxf).
Proof. exact (raw_fin_feeds kx). Qed.
Example kx_moves : forall i, (3 <= i < 8)%nat -> exists j, (i - 3 <= j <= i)%nat /\ kxf j <> kxf i.
Proof.
  intros i Hi. unfold kxf. do 3 (destruct i as [|i]; [lia|]).
  do 5 (destruct i as [|i]; [
    (exists 1%nat + exists 2%nat + exists 3%nat + exists 4%nat + exists 5%nat); (split; [lia|simpl; lra])|]).
  lia.
Qed.

(** The efficiency ratio lies in [0,1] wherever the price moved at all in the window; in a
    flat window it is 0/0. *)
Theorem C39_efficiency :
  forall (a : line (ext R)) n k x p,
    feeds a n k (fin x) -> (1 <= p)%nat ->
    exists f, delivers (kama_er p 1 a) n (k + p) f /\
      forall i, (k + p <= i < n)%nat ->
        ((exists j, (i - p <= j <= i)%nat /\ x j <> x i) ->
           f i = Fin (efficiency p 1 x i) /\ 0 <= efficiency p 1 x i <= 1) /\
        ((forall j, (i - p <= j <= i)%nat -> x j = x i) -> f i = NaN).
Proof. exact efficiency_all. Qed.
Print Assumptions C39_efficiency.
Example C39_efficiency_met := C39_efficiency _ 8 0 kxf 3 kx_feeds (ltac:(lia)).

Theorem C39_smoothing :
  forall fast slow e : R, 0 <= fast <= slow -> 0 <= e <= 1 ->
    factor slow ^ 2 <= smoothing fast slow e <= factor fast ^ 2.
Proof. exact kama_smoothing. Qed.
Print Assumptions C39_smoothing.

(** [kama] with either of its two seeds, on a series without warm-up: it starts from the
    seed, follows the recurrence and stays within the prices seen so far, until the first
    window of [p + 1] equal prices; from that bar on it is missing for ever. *)
Theorem C39_kama :
  forall (a : line (ext R)) n x p fast slow sd s,
    feeds a n 0 (fin x) -> (1 <= p <= n)%nat -> 1 <= fast <= slow ->
    (sd = SEED_AVG /\ s = Rmean (lastp x (p - 1) p) \/ sd = SEED_LAST /\ s = x (p - 1)%nat) ->
    exists y f e, kama p 1 (Fin fast) (Fin slow) sd a = Ok y /\
      delivers y n p f /\ is_kama p 1 (p - 1) n fast slow s x e /\
      forall i, (p <= i < n)%nat ->
        ((forall j, (p <= j <= i)%nat -> exists u, (j - p <= u <= j)%nat /\ x u <> x j) ->
           f i = Fin (e i) /\
           forall lo hi, within x 0 i lo hi -> lo <= e i <= hi) /\
        ((exists j, (p <= j <= i)%nat /\ forall u, (j - p <= u <= j)%nat -> x u = x j) -> f i = NaN).
Proof. exact kama_all. Qed.
Print Assumptions C39_kama.
Example C39_kama_met := C39_kama _ 8 kxf 3 2 30 SEED_AVG _ kx_feeds (ltac:(lia)) (ltac:(lra)) (or_introl (conj eq_refl eq_refl)).

(** another volatility lookback [q] *)
Theorem C39_lookback :
  forall (a : line (ext R)) n x p q fast slow sd s,
    feeds a n 0 (fin x) -> (1 <= p)%nat -> (1 <= q)%nat -> fast + 1 <> 0 -> slow + 1 <> 0 ->
    let m := (p + q - 2)%nat in
    (m < n)%nat ->
    (sd = SEED_AVG /\ s = Rmean (lastp x m p) \/ sd = SEED_LAST /\ s = x m) ->
    (forall i, (m < i < n)%nat -> exists j, (i - p < j <= i)%nat /\ x j <> x (j - q)%nat) ->
    exists y e, kama p q (Fin fast) (Fin slow) sd a = Ok y /\
      is_kama p q m n fast slow s x e /\ delivers y n (S m) (fin e).
Proof. exact kama_lookback. Qed.
Print Assumptions C39_lookback.
Example C39_lookback_met :
  forall i, (3 < i < 8)%nat -> exists j, (i - 3 < j <= i)%nat /\ kxf j <> kxf (j - 2)%nat.
Proof.
  intros i Hi. unfold kxf. do 4 (destruct i as [|i]; [lia|]).
  do 4 (destruct i as [|i]; [
    (exists 4%nat + exists 5%nat + exists 6%nat + exists 7%nat); (split; [lia|simpl; lra])|]).
  lia.
Qed.

(** numbers: two moves, then four equal prices, after which no value is ever delivered *)
Example C39_computed :
  exists y, kama 2 1 (Fin 2%Q) (Fin 3%Q) SEED_AVG (raw (map Fin [1; 3; 2; 5; 5; 5; 9]%Q)) = Ok y /\
    lmp y = 3%Z /\
    map (fun v => match v with Fin q => Fin (Qred q) | _ => v end) (lser y) =
      [NaN; NaN; Fin 2; Fin (145#48); Fin (1685#432); NaN; NaN]%Q.
Proof. eexists. split; [vm_compute; reflexivity|]. split; vm_compute; reflexivity. Qed.

(** [kama] over another indicator: whenever the input has a warm-up the call raises *)
Theorem C40_refuted :
  forall (a : line (ext R)) n k x p q fast slow sd,
    feeds a n k (fin x) -> (1 <= k)%nat -> (1 <= p)%nat -> (1 <= q)%nat -> fast + 1 <> 0 -> slow + 1 <> 0 ->
    kama p q (Fin fast) (Fin slow) sd a = Raise IndexError.
Proof. exact kama_chained. Qed.
Print Assumptions C40_refuted.
Example C40_refuted_met : feeds (mkLine 2 (NaN :: map Fin [1; 2; 4; 3; 5])) 6 1 (fin (fun i => nth i [0; 1; 2; 4; 3; 5] 0)).
Proof.
  split; [reflexivity|]. split; [reflexivity|]. intros i Hi.
  do 6 (destruct i as [|i]; [try lia; reflexivity|]). lia.
Qed.

(** too short a series raises as well *)
Theorem C40_short_input :
  forall (a : line (ext R)) n x p q fast slow sd,
    feeds a n 0 (fin x) -> (1 <= p)%nat -> (1 <= q)%nat -> fast + 1 <> 0 -> slow + 1 <> 0 ->
    (n < p + q - 1)%nat -> (sd = SEED_AVG \/ sd = SEED_LAST) ->
    kama p q (Fin fast) (Fin slow) sd a = Raise IndexError.
Proof. exact kama_short. Qed.
Print Assumptions C40_short_input.
