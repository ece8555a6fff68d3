(** Model of the moving average with variable period (btalib/indicators/mavp.py). *)
From Coq Require Import ZArith List Bool Arith.
From Verif Require Import Num Series Line IndMA Apply.
Import ListNotations.
Set Implicit Arguments.

Section Mavp.
  Context {V : Type} {N : Num V}.
  Notation line := (line V).

  (** first error, or all the results *)
  Fixpoint traverse {A B} (f : A -> res B) (l : list A) : res (list B) :=
    match l with
    | [] => Ok []
    | x :: l' => y <- f x ;; ys <- traverse f l' ;; Ok (y :: ys)
    end.

  (** Series.clip(lower, upper) with scalars; pandas exchanges bounds given in the wrong order *)
  Definition clip_period (lo hi p : nat) : nat :=
    Nat.min (Nat.max p (Nat.min lo hi)) (Nat.max lo hi).

  (** Series.unique(): in the order of the first occurrence *)
  Fixpoint unique_from (seen l : list nat) : list nat :=
    match l with
    | [] => []
    | p :: l' => if existsb (Nat.eqb p) seen then unique_from seen l'
                 else p :: unique_from (p :: seen) l'
    end.
  Definition unique := unique_from [].

  Definition lookup_ma (tab : list (nat * list V)) (p : nat) : res (list V) :=
    match find (fun '(q, _) => Nat.eqb p q) tab with
    | Some (_, s) => Ok s
    | None => Raise KeyError
    end.

  (** mavp.py:10-16 _mavp over the bars from the common minimum period on; [periods] are the
      clipped periods of these bars *)
  Definition mavp_body (tab : list (nat * list V)) (closes : list V) (periods : list nat) : res (list V) :=
    traverse (fun i =>
      match nth_error periods i with
      | None => Raise IndexError
      | Some p => s <- lookup_ma tab p ;;
                  match nth_error s i with None => Raise IndexError | Some v => Ok v end
      end) (seq 0 (length closes)).

  (** mavp.py:47-61.  [periods] is an integer series without warm-up (any other dtype makes
      int('5.0') raise ValueError, and an integer series cannot hold NaN); periods are
      positive here.  [close] holds floats (in an integer series the assignment to the
      buffer would truncate the averages).  The in-place change of the minimum period of
      the input is not visible outside of the indicator. *)
  Definition mavp (talib : bool) (ma : ma_fun V) (lo hi : nat) (close : line) (periods : list nat) : res line :=
    let ps := map (clip_period lo hi) periods in
    let us := unique ps in
    mas <- traverse (fun p => y <- ma p close ;; Ok (p, y)) us ;;
    maxp <- (if talib then Ok hi
             else match us with [] => Raise ValueError | u :: us' => Ok (fold_left Nat.max us' u) end) ;;
    let pclose := period_ close (Z.of_nat maxp) true None in
    let mp := max_mp pclose (map snd mas) in
    let idx := (mp - 1)%Z in
    r <- mavp_body (map (fun '(p, y) => (p, slice_from (lser y) idx)) mas)
                   (slice_from (lser pclose) idx) (slice_from ps idx) ;;
    Ok (clone pclose (set_from (nans (length (lser pclose))) idx r) mp).
End Mavp.
