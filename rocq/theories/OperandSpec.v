(** Notions used in the statements about operations between indicators. *)
From Coq Require Import List String Bool Arith ZArith.
From Verif Require Import Num Series Line Spec Py LinesGen Holder HolderSpec Operand.
Import ListNotations.
Set Implicit Arguments.
Local Open Scope string_scope.
Local Open Scope list_scope.
Local Open Scope nat_scope.

(** nothing in the indicator is called _series: no output, no name its code assigns, no attribute of its class *)
Definition no_series {A} (cls : lclass) (extra : list string) (body : list act) (outs : list (string * hval A)) : Prop :=
  resolve cls "_series" = Plain "_series" /\
  ~ (exists m, In m (map fst outs) /\ refers cls m "_series") /\
  ~ In "_series" extra /\ forall v, ~ In (ASet "_series" v) body.

(** [h] is an indicator with the declared outputs [cls], built and without anything called _series *)
Definition built {A} (h : holder A) : Prop :=
  exists bases decl ext cls islots mps extra body outs,
    lgenerate bases decl ext = Ok cls /\ construct cls (lnames cls) islots mps extra body outs = Ok h /\
    no_series cls extra body outs.

Section Yields.
  Context {V : Type} {N : Num V}.
  (** the first output of [h] has [n] bars and the values [f] from bar [k] on; [K] is the bar from which on all its
      outputs have values *)
  Definition yields (h : holder (list V)) (n k K : nat) (f : nat -> V) : Prop :=
    exists l ls, hiter h = Ok (map (fun x => ALine x) (l :: ls)) /\ feeds (of_hline l) n k f /\
      (forall x, In x (l :: ls) -> (h_mp x <= Z.of_nat (S K))%Z) /\ exists x, In x (l :: ls) /\ h_mp x = Z.of_nat (S K).
  (** the operation succeeds; its result has [n] bars, NaN before bar [k] and the values [f] from there on *)
  Definition gives (r : res (line V)) (n k : nat) (f : nat -> V) : Prop := exists l, r = Ok l /\ delivers l n k f.
  (** the same for a comparison: True before bar [k] *)
  Definition decides (r : res bline) (n k : nat) (f : nat -> bool) : Prop := exists l, r = Ok l /\ bdelivers l n k f.
End Yields.
