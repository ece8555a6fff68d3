(** Property theorems C41 and C42: the moving average with variable period.  Model:
    IndMavp.v; definitions: MavpSpec.v. *)
From Coq Require Import ZArith QArith List Bool Reals Lra Lia.
From Verif Require Import Num Series Line Spec RSpec MavpSpec LineFacts RFacts IndMA MAFacts
  WarmFacts PropLinesFacts IndMavp MavpFacts PropMavpFacts.
Import ListNotations.
Local Open Scope nat_scope.

Definition mx : list R := [1; 3; 2; 5; 4; 4]%R.
Definition mp_ : list nat := [1; 3; 9; 2; 3; 1].
Example mx_feeds : feeds (raw (map Fin mx)) 6 0 (fin (fun i => nth i mx 0%R)).
Proof. exact (raw_fin_feeds mx). Qed.
(** limited to 2..4 the periods are 2, 3, 4, 2, 3, 2 *)
Example mp_largest : largest_period 2 4 mp_ 4.
Proof.
  split; [vm_compute; tauto|]. intros p Hp. unfold clamp. lia.
Qed.

(** for every moving average: bar [i] holds the value at bar [i] of the average with the
    restricted period of that bar *)
Theorem C41_any_average :
  forall (V : Type) (N : Num V) (talib : bool) (ma : ma_fun V) lo hi (close : line V) periods n k f g M,
    feeds close n k f -> length periods = n -> 1 <= n -> 1 <= lo <= hi ->
    (if talib then M = hi else largest_period lo hi periods M) ->
    (forall p, In p (map (clamp lo hi) periods) -> exists y, ma p close = Ok y /\ delivers y n (k + p - 1) (g p)) ->
    exists y, mavp talib ma lo hi close periods = Ok y /\
      delivers y n (k + M - 1) (fun i => g (clamp lo hi (nth i periods 0)) i).
Proof. exact @mavp_any. Qed.
Print Assumptions C41_any_average.

Theorem C41_sma :
  forall (talib : bool) lo hi (close : line (ext R)) periods n k x M,
    feeds close n k (fin x) -> length periods = n -> 1 <= n -> 1 <= lo <= hi ->
    (if talib then M = hi else largest_period lo hi periods M) ->
    exists y, mavp talib sma_ lo hi close periods = Ok y /\
      delivers y n (k + M - 1) (fin (fun i => Rmean (lastp x i (clamp lo hi (nth i periods 0))))).
Proof. exact mavp_sma. Qed.
Print Assumptions C41_sma.
Example C41_sma_met := C41_sma false 2 4 _ mp_ 6 0 _ 4 mx_feeds eq_refl (ltac:(lia)) (ltac:(lia)) mp_largest.
Example C41_sma_talib_met := C41_sma true 2 5 _ mp_ 6 0 _ 5 mx_feeds eq_refl (ltac:(lia)) (ltac:(lia)) eq_refl.

Theorem C41_ema :
  forall (talib : bool) lo hi (close : line (ext R)) periods n k x M,
    feeds close n k (fin x) -> length periods = n -> 1 <= n -> 1 <= lo <= hi ->
    (if talib then M = hi else largest_period lo hi periods M) -> k + M <= n ->
    exists y e, mavp talib ema lo hi close periods = Ok y /\
      (forall p, In p (map (clamp lo hi) periods) -> is_ema p k x (e p)) /\
      delivers y n (k + M - 1) (fin (fun i => e (clamp lo hi (nth i periods 0)) i)).
Proof. exact mavp_ema. Qed.
Print Assumptions C41_ema.
Example C41_ema_met := C41_ema false 2 4 _ mp_ 6 0 _ 4 mx_feeds eq_refl (ltac:(lia)) (ltac:(lia)) mp_largest (ltac:(lia)).

(** a single bar asking for a period longer than the history makes the call fail *)
Theorem C41_ema_short :
  forall talib lo hi (close : line (ext R)) periods n k x,
    feeds close n k (fin x) -> 1 <= lo <= hi ->
    (exists p, In p periods /\ n < k + clamp lo hi p) ->
    mavp talib ema lo hi close periods = Raise IndexError.
Proof. exact mavp_ema_short. Qed.
Print Assumptions C41_ema_short.
Example C41_ema_short_met : exists p, In p mp_ /\ 6 < 0 + clamp 2 8 p.
Proof. exists 9. split; [vm_compute; tauto|vm_compute; lia]. Qed.

Example C41_computed :
  exists y, mavp false sma_ 2 4 (raw (map Fin [1; 3; 2; 5; 4; 4]%Q)) mp_ = Ok y /\ lmp y = 4%Z /\
    map (fun v => match v with Fin q => Fin (Qred q) | _ => v end) (lser y) =
      [NaN; NaN; NaN; Fin (7#2); Fin (11#3); Fin 4]%Q.
Proof. eexists. split; [vm_compute; reflexivity|]. split; vm_compute; reflexivity. Qed.

(** C42.  In the ta-lib emulation, and otherwise as long as no later bar asks for a period
    longer than all before, a longer history leaves the delivered values alone. *)
Theorem C42_no_repaint_partial :
  forall (V : Type) (N : Num V) (talib : bool) (ma : ma_fun V) lo hi (close close' : line V) periods more y y',
    steady ma -> 1 <= lo <= hi ->
    (1 <= lmp close)%Z -> extends close close' ->
    length periods = length (lser close) -> length (periods ++ more) = length (lser close') -> periods <> [] ->
    (talib = true \/ forall M, largest_period lo hi periods M -> forall p, In p more -> clamp lo hi p <= M) ->
    mavp talib ma lo hi close periods = Ok y ->
    mavp talib ma lo hi close' (periods ++ more) = Ok y' ->
    extends y y'.
Proof. exact @mavp_extends. Qed.
Print Assumptions C42_no_repaint_partial.

(** Outside of the emulation a later, longer period [M'] erases the values delivered between
    the old and the new warm-up: before, bar [i] held the chosen average; afterwards NaN. *)
Theorem C42_refuted :
  forall (V : Type) (N : Num V) (ma : ma_fun V) lo hi (close close' : line V) periods more y y' M M',
    steady ma -> 1 <= lo <= hi ->
    (1 <= lmp close)%Z -> extends close close' ->
    length periods = length (lser close) -> length (periods ++ more) = length (lser close') -> periods <> [] ->
    largest_period lo hi periods M -> largest_period lo hi (periods ++ more) M' ->
    mavp false ma lo hi close periods = Ok y ->
    mavp false ma lo hi close' (periods ++ more) = Ok y' ->
    forall i, (lmp close - 1 + Z.of_nat M - 1 <= Z.of_nat i < lmp close - 1 + Z.of_nat M' - 1)%Z ->
      i < length (lser close) ->
      (exists z, ma (clamp lo hi (nth i periods 0)) close = Ok z /\ nth_error (lser y) i = nth_error (lser z) i) /\
      nth_error (lser y') i = Some vnan.
Proof. exact @mavp_repaints. Qed.
Print Assumptions C42_refuted.

(** the averages of the library qualify *)
Theorem C42_averages :
  steady (sma_ (V:=ext R)) /\ steady (fun p (a : line (ext R)) => Ok (wma p a)) /\
  steady (ema (V:=ext R)) /\ steady (smma (V:=ext R)).
Proof. exact mas_steady. Qed.
Print Assumptions C42_averages.

Example C42_refuted_run :
  exists y y', mavp false sma_ 2 4 (raw (map Fin [1; 3; 2; 5]%Q)) [2; 2; 2; 2] = Ok y /\
    mavp false sma_ 2 4 (raw (map Fin [1; 3; 2; 5; 4]%Q)) ([2; 2; 2; 2] ++ [4]) = Ok y' /\
    map (fun v => match v with Fin q => Fin (Qred q) | _ => v end) (lser y) = [NaN; Fin 2; Fin (5#2); Fin (7#2)]%Q /\
    map (fun v => match v with Fin q => Fin (Qred q) | _ => v end) (lser y') = [NaN; NaN; NaN; Fin (7#2); Fin (7#2)]%Q.
Proof. do 2 eexists. split; [vm_compute; reflexivity|]. split; [vm_compute; reflexivity|]. split; vm_compute; reflexivity. Qed.
Example C42_refuted_met :
  extends (raw (map Fin [1; 3; 2; 5]%Q)) (raw (map Fin [1; 3; 2; 5; 4]%Q)) /\
  largest_period 2 4 [2; 2; 2; 2] 2 /\ largest_period 2 4 ([2; 2; 2; 2] ++ [4]) 4.
Proof.
  split; [split; [reflexivity|exists [Fin 4%Q]; reflexivity]|].
  split; (split; [vm_compute; tauto|intros p Hp; simpl in Hp; unfold clamp; lia]).
Qed.
