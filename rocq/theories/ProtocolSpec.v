(** Notions used in the statements about what Python does with lines and indicators. *)
From Coq Require Import List String Bool Arith ZArith.
From Verif Require Import Num Series Line Spec Py LinesGen Holder HolderSpec Operand OperandSpec Protocol.
Import ListNotations.
Set Implicit Arguments.
Local Open Scope list_scope.
Local Open Scope nat_scope.

Section ProtocolSpec.
  Context {V : Type} {N : Num V}.
  (** a line or an indicator with [n] bars whose (first) output has the values [f] from bar [k] on; [K] is the bar from
      which on all its outputs have values *)
  Definition offers (x : operand V) (n k K : nat) (f : nat -> V) : Prop :=
    match x with
    | OLine l => feeds l n k f /\ K = k
    | OInd h => built h /\ yields h n k K f
    | ONum _ => False
    end.
  (** a line or an indicator with [n] bars *)
  Definition with_bars (n : nat) (x : operand V) : Prop := exists k K f, offers x n k K f.

  (** items of a list with what they offer *)
  Record item := mkItem { it : operand V; it_k : nat; it_K : nat; it_f : nat -> V }.
  Definition good (n : nat) (i : item) : Prop := offers (it i) n (it_k i) (it_K i) (it_f i).
  (** the latest start of the items *)
  Definition latest (a : nat) (l : list item) : nat := fold_right (fun i m => Nat.max (it_K i) m) a l.
  (** [a] plus the values of the items at bar [b], one after the other *)
  Definition total (a : V) (l : list item) (b : nat) : V := fold_left (fun s i => vadd s (it_f i b)) l a.
End ProtocolSpec.
Arguments item : clear implicits.
