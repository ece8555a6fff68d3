(** Ehlers' measurement of the dominant cycle by the Hilbert transform, as equations between
    sequences of real numbers. *)
From Coq Require Import List Reals ZArith.
From Verif Require Import Num Series Line Spec RSpec IndHT.
Import ListNotations.
Set Implicit Arguments.
Local Open Scope R_scope.

(** the price smoothed by the weights 4, 3, 2, 1 *)
Definition smooth4 (x : nat -> R) (i : nat) : R :=
  (4 * x i + 3 * x (i - 1)%nat + 2 * x (i - 2)%nat + x (i - 3)%nat) / 10.

(** the Hilbert transform filter over 7 bars *)
Definition hilbert (f : nat -> R) (i : nat) : R :=
  0.0962 * f i + 0.5769 * f (i - 2)%nat - 0.5769 * f (i - 4)%nat - 0.0962 * f (i - 6)%nat.

(** degrees per radian *)
Definition degrees : R := 180 / PI.

(** the period in bars of a rotation from one bar to the next with real part [re] and
    imaginary part [im]; the last period when one of the parts is zero *)
Definition rotation_period (re im last : R) : R :=
  if Req_EM_T re 0 then last else if Req_EM_T im 0 then last else 360 / (degrees * atan (im / re)).

(** a new period may not be more than 1.5 times nor less than 0.67 times the last one, and is
    kept between 6 and 50 bars *)
Definition limited (p last : R) : R :=
  Rmin (Rmax (Rmax (Rmin p (1.5 * last)) (0.67 * last)) 6) 50.

(** the measurement starts at bar [start] on the smoothed price [s]; every quantity is 0
    before: detrended price, in-phase and quadrature parts, the smoothed phasor, its
    rotation, the period and the smoothed period *)
Record cycle := mkCycle {
  c_det : nat -> R; c_i1 : nat -> R; c_q1 : nat -> R; c_i2 : nat -> R; c_q2 : nat -> R;
  c_re : nat -> R; c_im : nat -> R; c_period : nat -> R; c_smooth : nat -> R
}.

Definition from (start : nat) (s : nat -> R) (i : nat) : R := if Nat.ltb i start then 0 else s i.

Record is_cycle (start : nat) (s : nat -> R) (c : cycle) : Prop := {
  cy_zero : forall i, (i < start)%nat ->
    c_det c i = 0 /\ c_i1 c i = 0 /\ c_q1 c i = 0 /\ c_i2 c i = 0 /\ c_q2 c i = 0 /\
    c_re c i = 0 /\ c_im c i = 0 /\ c_period c i = 0 /\ c_smooth c i = 0;
  cy_det : forall i, (start <= i)%nat ->
    c_det c i = hilbert (from start s) i * (0.075 * c_period c (i - 1)%nat + 0.54);
  cy_i1 : forall i, (start <= i)%nat -> c_i1 c i = c_det c (i - 3)%nat;
  cy_q1 : forall i, (start <= i)%nat ->
    c_q1 c i = hilbert (c_det c) i * (0.075 * c_period c (i - 1)%nat + 0.54);
  cy_i2 : forall i, (start <= i)%nat ->
    c_i2 c i = 0.2 * (c_i1 c i - hilbert (c_q1 c) i * (0.075 * c_period c (i - 1)%nat + 0.54))
               + 0.8 * c_i2 c (i - 1)%nat;
  cy_q2 : forall i, (start <= i)%nat ->
    c_q2 c i = 0.2 * (c_q1 c i + hilbert (c_i1 c) i * (0.075 * c_period c (i - 1)%nat + 0.54))
               + 0.8 * c_q2 c (i - 1)%nat;
  cy_re : forall i, (start <= i)%nat ->
    c_re c i = 0.2 * (c_i2 c i * c_i2 c (i - 1)%nat + c_q2 c i * c_q2 c (i - 1)%nat)
               + 0.8 * c_re c (i - 1)%nat;
  cy_im : forall i, (start <= i)%nat ->
    c_im c i = 0.2 * (c_i2 c i * c_q2 c (i - 1)%nat - c_q2 c i * c_i2 c (i - 1)%nat)
               + 0.8 * c_im c (i - 1)%nat;
  cy_period : forall i, (start <= i)%nat ->
    c_period c i =
      0.2 * limited (rotation_period (c_re c i) (c_im c i) (c_period c (i - 1)%nat)) (c_period c (i - 1)%nat)
      + 0.8 * c_period c (i - 1)%nat;
  cy_smooth : forall i, (start <= i)%nat ->
    c_smooth c i = 0.33 * c_period c i + 0.67 * c_smooth c (i - 1)%nat
}.

(** whole number of bars nearest to the smoothed period *)
Definition bars_of (sp : R) : nat := Z.to_nat (Int_part (sp + 0.5)).

(** real and imaginary part of the first Fourier coefficient of the last [w] values of [s] *)
Definition fourier_re (s : nat -> R) (i w : nat) : R :=
  Rsum (map (fun j => sin (INR j * (2 * PI) / INR w) * s (i - j)%nat) (seq 0 w)).
Definition fourier_im (s : nat -> R) (i w : nat) : R :=
  Rsum (map (fun j => cos (INR j * (2 * PI) / INR w) * s (i - j)%nat) (seq 0 w)).

(** the phase in degrees from the last phase, the coefficient and the smoothed period *)
Definition phase_rule (last re im sp : R) : R :=
  let base := if Req_EM_T im 0 then
                (if Rlt_dec re 0 then last - 90 else if Rlt_dec 0 re then last + 90 else last)
              else degrees * atan (re / im) in
  let turned := base + 90 + 360 / sp + (if Rlt_dec im 0 then 180 else 0) in
  if Rlt_dec 315 turned then turned - 360 else turned.

(** the phase of the dominant cycle *)
Record is_phase (start : nat) (s : nat -> R) (c : cycle) (ph : nat -> R) : Prop := {
  ph_zero : forall i, (i < start)%nat -> ph i = 0;
  ph_rule : forall i, (start <= i)%nat ->
    let w := bars_of (c_smooth c i) in
    ph i = phase_rule (ph (i - 1)%nat) (fourier_re (from start s) i w) (fourier_im (from start s) i w)
                      (c_smooth c i)
}.

(** average of the last [w] values (0 for none) *)
Definition average (x : nat -> R) (i w : nat) : R :=
  match w with 0%nat => 0 | _ => Rmean (lastp x i w) end.

(** the trend line: averages over one dominant cycle smoothed by the weights 4, 3, 2, 1 *)
Definition cycle_average (start : nat) (x : nat -> R) (c : cycle) : nat -> R :=
  from start (fun i => average x i (bars_of (c_smooth c i))).
Definition is_trendline (start : nat) (x : nat -> R) (c : cycle) (t : nat -> R) : Prop :=
  forall i, (start <= i)%nat -> t i = smooth4 (cycle_average start x c) i.

(** sine wave of the phase, and the same 45 degrees ahead *)
Definition sine_wave (ph : nat -> R) (i : nat) : R := sin (ph i * (PI / 180)).
Definition lead_wave (ph : nat -> R) (i : nat) : R := sin ((ph i + 45) * (PI / 180)).

(** trend mode.  [sn], [ld] the two waves, [days] the bars since they last crossed *)
Definition crossed (sn ld : nat -> R) (i : nat) : Prop :=
  (ld i < sn i /\ sn (i - 1)%nat <= ld (i - 1)%nat) \/ (sn i < ld i /\ ld (i - 1)%nat <= sn (i - 1)%nat).

Definition counts_days (start : nat) (sn ld : nat -> R) (days : nat -> nat) : Prop :=
  (forall i, (i < start)%nat -> days i = 0%nat) /\
  forall i, (start <= i)%nat ->
    (crossed sn ld i -> days i = 1%nat) /\ (~ crossed sn ld i -> days i = S (days (i - 1)%nat)).

(** the phase advances about as fast as the cycle says *)
Definition in_step (ph : nat -> R) (sp : R) (i : nat) : Prop :=
  0.67 * (360 / sp) < ph i - ph (i - 1)%nat < 1.5 * (360 / sp).

(** the price is at least 1.5 percent away from the trend line *)
Definition far_off (price trend : R) : Prop := trend <> 0 /\ 0.015 <= Rabs (price / trend - 1).

(** 1 in a trend, 0 in a cycle *)
Definition is_mode (start : nat) (s x : nat -> R) (c : cycle) (ph : nat -> R) (m : nat -> R) : Prop :=
  let sn := from start (sine_wave ph) in
  let ld := from start (lead_wave ph) in
  exists days, counts_days start sn ld days /\
    forall i, (start <= i)%nat ->
      (m i = 0 \/ m i = 1) /\
      (m i = 1 <->
         far_off (s i) (smooth4 (cycle_average start x c) i) \/
         (~ crossed sn ld i /\ 0.5 * c_smooth c i <= INR (days i) /\ ~ in_step ph (c_smooth c i) i)).

(** the input of the indicators: one line of prices [x], or a high and a low line of which
    [x] is the midpoint; [x] is available from bar [k] on *)
Definition priced (inp : ht_in (ext R)) (n k : nat) (x : nat -> R) : Prop :=
  match inp with
  | HLine i0 => feeds i0 n k (fin x)
  | HHighLow high low =>
      exists kh kl h l, feeds high n kh (fin h) /\ feeds low n kl (fin l) /\
        k = Nat.max kh kl /\ forall i, x i = (h i + l i) / 2
  end.

(** two lines hold the same values up to bar [m], as far as both have these bars *)
Definition agree (y y' : line (ext R)) (m : nat) : Prop :=
  forall i, (i <= m)%nat -> (i < length (lser y))%nat -> (i < length (lser y'))%nat ->
    nth_error (lser y) i = nth_error (lser y') i.
