(** The MESA adaptive moving average as equations between sequences of real numbers. *)
From Coq Require Import Reals.
From Verif Require Import HTSpec.
Set Implicit Arguments.
Local Open Scope R_scope.

(** angle of the phasor in degrees, 0 when the in-phase part is 0 *)
Definition phasor_angle (c : cycle) (i : nat) : R :=
  if Req_EM_T (c_i1 c i) 0 then 0 else degrees * atan (c_q1 c i / c_i1 c i).

(** weight of the new price: the fast limit divided by the fall of the angle in degrees,
    which counts as at least 1, but not less than the slow limit *)
Definition mama_weight (fast slow : R) (c : cycle) (i : nat) : R :=
  Rmax (fast / Rmax (phasor_angle c (i - 1)%nat - phasor_angle c i) 1) slow.

(** the average [m] and the following average [f], which start from 0 before bar [start] *)
Record is_mama (fast slow : R) (start : nat) (x : nat -> R) (c : cycle) (m f : nat -> R) : Prop := {
  mm_seed : m (start - 1)%nat = 0 /\ f (start - 1)%nat = 0;
  mm_next : forall i, (start <= i)%nat ->
    m i = m (i - 1)%nat + mama_weight fast slow c i * (x i - m (i - 1)%nat);
  mf_next : forall i, (start <= i)%nat ->
    f i = f (i - 1)%nat + mama_weight fast slow c i / 2 * (m i - f (i - 1)%nat)
}.
