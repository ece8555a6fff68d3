(** Property theorems C69 and C76 to C80: the Hilbert transform indicators.  Model: IndHT.v;
    definitions: HTSpec.v. *)
From Coq Require Import ZArith List Bool Reals Lra Lia.
From Verif Require Import Num Series Line Spec RSpec LineFacts RFacts IndHT HTSpec HTFacts PropLinesFacts PropHTFacts.
Import ListNotations.
Local Open Scope R_scope.

(** a rising sawtooth of 80 bars, once as a single line and once as high and low *)
Definition saw : list R := map (fun i => INR i / 10 + INR (i mod 7)) (seq 0 80).
Definition sawf (i : nat) : R := nth i saw 0.
Example saw_feeds : feeds (raw (map Fin saw)) 80 0 (fin sawf).
Proof.
  replace 80%nat with (length saw) by (unfold saw; now rewrite map_length, seq_length).
  exact (raw_fin_feeds saw).
Qed.
Example saw_priced : priced (HLine (raw (map Fin saw))) 80 0 sawf.
Proof. exact saw_feeds. Qed.
Example saw_priced_hl : priced (HHighLow (raw (map Fin saw)) (raw (map Fin saw))) 80 0 sawf.
Proof.
  exists 0%nat, 0%nat, sawf, sawf. split; [exact saw_feeds|]. split; [exact saw_feeds|].
  split; [reflexivity|]. intro i. lra.
Qed.

(** [ht_dcperiod] never fails, whatever the length and the values of the price history.  It
    measures the cycle according to the equations of HTSpec, the smoothed period (the divisor
    of the phase indicators) is never zero, and every delivered value lies between 5.88 and
    50 bars. *)
Theorem C69_dcperiod :
  forall inp n k x, priced inp n k x ->
    exists y c, ht_dcperiod inp = Ok y /\ is_cycle (k + 12) (smooth4 x) c /\
      delivers y n (k + 32) (fin (c_smooth c)) /\
      (forall i, (k + 12 <= i)%nat -> 0.39 <= c_smooth c i) /\
      forall i, (k + 32 <= i)%nat -> 5.88 <= c_smooth c i <= 50.
Proof. exact dcperiod_bounds. Qed.
Print Assumptions C69_dcperiod.
Example C69_dcperiod_met := C69_dcperiod _ 80 0 sawf saw_priced.

(** [ht_phasor]: the in-phase and quadrature parts of the same measurement *)
Theorem C76_phasor :
  forall inp n k x, priced inp n k x ->
    exists yi yq c, ht_phasor inp = Ok (yi, yq) /\ is_cycle (k + 12) (smooth4 x) c /\
      delivers yi n (k + 32) (fin (c_i1 c)) /\ delivers yq n (k + 32) (fin (c_q1 c)).
Proof. exact phasor_all. Qed.
Print Assumptions C76_phasor.
Example C76_phasor_met := C76_phasor _ 80 0 sawf saw_priced_hl.

(** the equations determine the measurement *)
Theorem C76_determined :
  forall start s c c', (1 <= start)%nat -> is_cycle start s c -> is_cycle start s c' ->
    forall i, c_i1 c i = c_i1 c' i /\ c_q1 c i = c_q1 c' i /\ c_smooth c i = c_smooth c' i.
Proof.
  exact (fun start s c c' H C C' i =>
    match @cycle_prefix start s s c c' i H C C' (fun j _ => eq_refl) i (le_n i) with
    | conj _ (conj A (conj B (conj _ (conj _ (conj _ (conj _ (conj _ D))))))) => conj A (conj B D)
    end).
Qed.
Print Assumptions C76_determined.
Example C76_determined_met := the_cycle_ok sawf (start := 12) (ltac:(lia)).

(** [ht_dcphase] follows the phase equations and delivers angles above -45 and up to 315
    degrees *)
Theorem C77_dcphase :
  forall inp n k x, priced inp n k x ->
    exists y c ph, ht_dcphase inp = Ok y /\
      is_cycle (k + 37) (smooth4 x) c /\ is_phase (k + 37) (smooth4 x) c ph /\
      delivers y n (k + 63) (fin ph) /\
      forall i, (k + 63 <= i)%nat -> -45 < ph i <= 315.
Proof. exact phase_all. Qed.
Print Assumptions C77_dcphase.
Example C77_dcphase_met := C77_dcphase _ 80 0 sawf saw_priced.

(** [ht_sine]: the sine of the angle of [ht_dcphase] and of 45 degrees more, within [-1, 1] *)
Theorem C77_sine :
  forall inp n k x, priced inp n k x ->
    exists yp ys yl ph, ht_dcphase inp = Ok yp /\ ht_sine inp = Ok (ys, yl) /\
      delivers yp n (k + 63) (fin ph) /\
      delivers ys n (k + 63) (fin (sine_wave ph)) /\ delivers yl n (k + 63) (fin (lead_wave ph)) /\
      forall i, -1 <= sine_wave ph i <= 1 /\ -1 <= lead_wave ph i <= 1.
Proof. exact sine_all. Qed.
Print Assumptions C77_sine.
Example C77_sine_met := C77_sine _ 80 0 sawf saw_priced_hl.

(** [ht_trendline]: the smoothed average over one cycle; it stays within the range of the last
    53 prices *)
Theorem C78_trendline :
  forall inp n k x, priced inp n k x ->
    exists y c t, ht_trendline inp = Ok y /\
      is_cycle (k + 37) (smooth4 x) c /\ is_trendline (k + 37) x c t /\
      delivers y n (k + 63) (fin t) /\
      forall i, (k + 63 <= i)%nat -> forall lo hi,
        (forall j, (Nat.max k (i - 52) <= j <= i)%nat -> lo <= x j <= hi) -> lo <= t i <= hi.
Proof. exact trendline_all. Qed.
Print Assumptions C78_trendline.
Example C78_trendline_met := C78_trendline _ 80 0 sawf saw_priced.

(** [ht_trendmode] delivers 0 or 1, by the rules of [is_mode] *)
Theorem C79_trendmode :
  forall inp n k x, priced inp n k x ->
    exists y c ph m, ht_trendmode inp = Ok y /\
      is_cycle (k + 37) (smooth4 x) c /\ is_phase (k + 37) (smooth4 x) c ph /\
      is_mode (k + 37) (smooth4 x) x c ph m /\ delivers y n (k + 63) (fin m).
Proof. exact trendmode_all. Qed.
Print Assumptions C79_trendmode.
Example C79_trendmode_met := C79_trendmode _ 80 0 sawf saw_priced.

(** none of the six looks ahead: prices that agree up to bar [m] give values that agree up to
    bar [m], however the histories continue *)
Theorem C80_no_repaint :
  forall inp inp' n n' k x x' m,
    priced inp n k x -> priced inp' n' k x' -> (forall i, (i <= m)%nat -> x i = x' i) ->
    (forall y y', ht_dcperiod inp = Ok y -> ht_dcperiod inp' = Ok y' -> agree y y' m) /\
    (forall y y', ht_phasor inp = Ok y -> ht_phasor inp' = Ok y' ->
       agree (fst y) (fst y') m /\ agree (snd y) (snd y') m) /\
    (forall y y', ht_dcphase inp = Ok y -> ht_dcphase inp' = Ok y' -> agree y y' m) /\
    (forall y y', ht_sine inp = Ok y -> ht_sine inp' = Ok y' ->
       agree (fst y) (fst y') m /\ agree (snd y) (snd y') m) /\
    (forall y y', ht_trendline inp = Ok y -> ht_trendline inp' = Ok y' -> agree y y' m) /\
    (forall y y', ht_trendmode inp = Ok y -> ht_trendmode inp' = Ok y' -> agree y y' m).
Proof. exact ht_prefix. Qed.
Print Assumptions C80_no_repaint.
(** two histories that differ in their last bar only *)
Example C80_no_repaint_met :
  let sawf' := fun i => if (i =? 79)%nat then 1000 else sawf i in
  priced (HLine (raw (map (fin sawf') (seq 0 80)))) 80 0 sawf' /\
  (forall i, (i <= 78)%nat -> sawf i = sawf' i) /\ sawf 79 <> sawf' 79%nat.
Proof.
  split; [|split].
  - split; [reflexivity|]. split; [reflexivity|]. intros i Hi. cbn [raw lser].
    now rewrite nth_error_map_seq by lia.
  - intros i Hi. destruct (Nat.eqb_spec i 79); [lia|reflexivity].
  - cbn [Nat.eqb]. unfold sawf, saw. change 0 with ((fun i => INR i / 10 + INR (i mod 7)) 0%nat) || idtac.
    rewrite (nth_indep _ 0 (INR 0 / 10 + INR (0 mod 7))) by (rewrite map_length, seq_length; lia).
    rewrite (map_nth (fun i => INR i / 10 + INR (i mod 7))), seq_nth by lia.
    replace (0 + 79)%nat with 79%nat by reflexivity. change (79 mod 7)%nat with 2%nat.
    rewrite !INR_IZR_INZ. cbn -[IZR Rdiv]. lra.
Qed.
