(** Vocabulary of the parabolic stop and reverse properties. *)
From Coq Require Import List Reals Bool.
From Verif Require Import Num Series Line Spec RSpec.
Import ListNotations.
Local Open Scope R_scope.

(** Wilder's system over the bars k .. n-1.  Bar [k] only serves to choose the first trend;
    from bar [k + 1] on:
    [long i]  the trend after bar [i] ([long k] is the first trend),
    [stop i]  the stop that was set for bar [i] in advance,
    [sar i]   the value of the indicator at bar [i],
    [ext i]   the extreme point after bar [i], [acc i] the acceleration after bar [i]. *)
Section Psar.
  Variables (h l : nat -> R) (k n : nat) (af afmax : R).
  Variables (long : nat -> bool) (stop sar ext acc : nat -> R).

  (** the stop is hit at bar [i] *)
  Definition hit (i : nat) : Prop :=
    if long (i - 1)%nat then l i <= stop i else stop i <= h i.

  (** the bar before [i], which for the first bar of the loop is the bar itself *)
  Definition before (i : nat) : nat := Nat.max (S k) (i - 1).

  Definition psar_start : Prop :=
    (long k = false <-> 0 < l k - l (S k) /\ h (S k) - h k < l k - l (S k)) /\
    stop (S k) = (if long k then l k else h k) /\
    ext k = (if long k then h (S k) else l (S k)) /\
    acc k = af.

  Definition psar_bar (i : nat) : Prop :=
    (hit i ->
       long i = negb (long (i - 1)%nat) /\
       sar i = ext (i - 1)%nat /\
       ext i = (if long i then h i else l i) /\
       acc i = af) /\
    (~ hit i ->
       long i = long (i - 1)%nat /\
       sar i = stop i /\
       ext i = (if long i then Rmax (ext (i - 1)%nat) (h i) else Rmin (ext (i - 1)%nat) (l i)) /\
       acc i = (if Req_EM_T (ext i) (ext (i - 1)%nat) then acc (i - 1)%nat
                else Rmin (acc (i - 1)%nat + af) afmax)) /\
    let next := sar i + acc i * (ext i - sar i) in
    stop (S i) = (if long i then Rmin next (Rmin (l i) (l (before i)))
                  else Rmax next (Rmax (h i) (h (before i)))).

  Definition psar : Prop := psar_start /\ forall i, (S k <= i < n)%nat -> psar_bar i.

  (** The extended system: [start] (0: automatic) fixes the first trend and stop, each
      direction has its own acceleration step and limit, and at a reversal the new stop is
      moved away from the extreme point by the fraction [offs] of the stop that was hit. *)
  Section Extended.
    Variables (start offs : R) (step limit : bool -> R).

    Definition psarx_start : Prop :=
      (start = 0 ->
         (long k = false <-> 0 < l k - l (S k) /\ h (S k) - h k < l k - l (S k)) /\
         stop (S k) = (if long k then l k else h k)) /\
      (start <> 0 -> (long k = true <-> 0 < start) /\ stop (S k) = Rabs start) /\
      ext k = (if long k then h (S k) else l (S k)) /\
      acc k = step (long k).

    Definition psarx_bar (i : nat) : Prop :=
      (hit i ->
         long i = negb (long (i - 1)%nat) /\
         sar i = (if long i then ext (i - 1)%nat - offs * stop i else ext (i - 1)%nat + offs * stop i) /\
         ext i = (if long i then h i else l i) /\
         acc i = step (long i)) /\
      (~ hit i ->
         long i = long (i - 1)%nat /\
         sar i = stop i /\
         ext i = (if long i then Rmax (ext (i - 1)%nat) (h i) else Rmin (ext (i - 1)%nat) (l i)) /\
         acc i = (if Req_EM_T (ext i) (ext (i - 1)%nat) then acc (i - 1)%nat
                  else Rmin (acc (i - 1)%nat + step (long i)) (limit (long i)))) /\
      let next := sar i + acc i * (ext i - sar i) in
      stop (S i) = (if long i then Rmin next (Rmin (l i) (l (before i)))
                    else Rmax next (Rmax (h i) (h (before i)))).

    Definition psarx : Prop := psarx_start /\ forall i, (S k <= i < n)%nat -> psarx_bar i.
  End Extended.

  (** the trend in force just before bar [i] began at bar [b] *)
  Definition trend_since (i b : nat) : Prop :=
    (S k <= b <= i)%nat /\ (b = S k \/ (b < i)%nat /\ long b <> long (b - 1)%nat) /\
    forall j, (b < j < i)%nat -> long j = long (j - 1)%nat.
End Psar.
