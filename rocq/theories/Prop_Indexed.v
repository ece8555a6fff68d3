(** Property theorems C125: operators between lines with different indexes.  Model: Indexed.v. *)
From Coq Require Import ZArith QArith List Bool Lia Sorted.
From Verif Require Import Num Series Line Indexed IndexedFacts.
Import ListNotations.
Local Open Scope Z_scope.

(** With the same index on both sides the result carries that index and is the one computed by
    position, as everywhere else in this model. *)
Theorem C125_same :
  forall (V : Type) (N : Num V) (x y : iline V),
    labels (iser x) = labels (iser y) ->
    (forall op, exists z, ibinop op x y = Ok z /\ labels (iser z) = labels (iser x) /\
       by_position z = binop op (by_position x) (by_position y)) /\
    (forall op, exists z, icmpop op x y = Ok z /\ icmp_method op x y = Ok z /\ labels (ibser z) = labels (iser x) /\
       bby_position z = cmpop op (by_position x) (by_position y)).
Proof. exact indexed_same. Qed.
Print Assumptions C125_same.
Theorem C125_same_logic :
  forall (op : bool -> bool -> bool) (x y : ibline), labels (ibser x) = labels (ibser y) ->
    exists z, ilogic op x y = Ok z /\ labels (ibser z) = labels (ibser x) /\
      bby_position z = bbinop op (bby_position x) (bby_position y).
Proof. exact ilogic_same. Qed.
Print Assumptions C125_same_logic.
Example C125_same_met :
  labels (iser (mkI 1 [(1, Fin 1%Q); (2, Fin 2%Q)])) = labels (iser (mkI 2 [(1, NaN : ext Q); (2, Fin 3%Q)])) /\
  labels (ibser (mkIB 1 [(1, true); (2, false)])) = labels (ibser (mkIB 2 [(1, true); (2, true)])).
Proof. split; reflexivity. Qed.

(** If the other line has dates missing, values of the same date are paired and the rest is missing:
    for a first operand in ascending order, over the bars that are left when both lines are cut at the
    larger minimum period ([m] bars dropped from each, by position). *)
Theorem C125_by_label :
  forall (V : Type) (N : Num V) (op : V -> V -> V) (x y : iline V) (m : nat),
    Z.max (imp x) (imp y) = Z.of_nat (S m) ->
    StronglySorted Z.lt (labels (iser x)) -> NoDup (labels (iser y)) ->
    incl (skipn m (labels (iser y))) (skipn m (labels (iser x))) ->
    exists z, ibinop op x y = Ok z /\ labels (iser z) = labels (iser x) /\ imp z = Z.max (imp x) (imp y) /\
      forall i t v, nth_error (iser x) i = Some (t, v) ->
        ((i < m)%nat -> nth_error (iser z) i = Some (t, vnan)) /\
        ((m <= i)%nat ->
          (forall j w, (m <= j)%nat -> nth_error (iser y) j = Some (t, w) -> nth_error (iser z) i = Some (t, op v w)) /\
          (~ In t (skipn m (labels (iser y))) -> nth_error (iser z) i = Some (t, op v vnan))).
Proof. exact @ibinop_by_label. Qed.
Print Assumptions C125_by_label.

Definition monday_to_friday : iline (ext Q) :=
  mkI 2 [(1, NaN); (2, Fin 20%Q); (3, Fin 30%Q); (4, Fin 40%Q); (5, Fin 50%Q)].
Definition no_wednesday : iline (ext Q) := mkI 1 [(1, Fin 1%Q); (2, Fin 2%Q); (4, Fin 4%Q); (5, Fin 5%Q)].
Example C125_by_label_met :
  Z.max (imp monday_to_friday) (imp no_wednesday) = Z.of_nat (S 1) /\
  StronglySorted Z.lt (labels (iser monday_to_friday)) /\ NoDup (labels (iser no_wednesday)) /\
  incl (skipn 1 (labels (iser no_wednesday))) (skipn 1 (labels (iser monday_to_friday))).
Proof.
  split; [reflexivity|]. split; [repeat constructor|]. split.
  - repeat constructor; cbn; intuition congruence.
  - intros t Ht. cbn in *. intuition.
Qed.
Example C125_by_label_run :
  ibinop vsub monday_to_friday no_wednesday =
    Ok (mkI 2 [(1, NaN); (2, Fin 18%Q); (3, NaN); (4, Fin 36%Q); (5, Fin 45%Q)]).
Proof. vm_compute. reflexivity. Qed.

(** The same for comparisons written as methods ([x.lt(y)]) and for the logical operators, where a missing bar of
    the other line counts as False. *)
Theorem C125_method_by_label :
  forall (V : Type) (N : Num V) (op : V -> V -> bool) (x y : iline V) (m : nat),
    Z.max (imp x) (imp y) = Z.of_nat (S m) ->
    StronglySorted Z.lt (labels (iser x)) -> NoDup (labels (iser y)) ->
    incl (skipn m (labels (iser y))) (skipn m (labels (iser x))) ->
    exists z, icmp_method op x y = Ok z /\ labels (ibser z) = labels (iser x) /\ ibmp z = Z.max (imp x) (imp y) /\
      forall i t v, nth_error (iser x) i = Some (t, v) -> (m <= i)%nat ->
        (forall j w, (m <= j)%nat -> nth_error (iser y) j = Some (t, w) -> nth_error (ibser z) i = Some (t, op v w)) /\
        (~ In t (skipn m (labels (iser y))) -> nth_error (ibser z) i = Some (t, op v vnan)).
Proof. exact @icmp_method_by_label. Qed.
Print Assumptions C125_method_by_label.
Example C125_method_run :
  icmp_method vltb no_wednesday (mkI 1 [(2, Fin 3%Q); (5, Fin 1%Q)]) = Ok (mkIB 1 [(1, false); (2, true); (4, false); (5, false)]).
Proof. vm_compute. reflexivity. Qed.
Theorem C125_logic_by_label :
  forall (op : bool -> bool -> bool) (x y : ibline) (m : nat),
    Z.max (ibmp x) (ibmp y) = Z.of_nat (S m) ->
    StronglySorted Z.lt (labels (ibser x)) -> NoDup (labels (ibser y)) ->
    incl (skipn m (labels (ibser y))) (skipn m (labels (ibser x))) ->
    exists z, ilogic op x y = Ok z /\ labels (ibser z) = labels (ibser x) /\ ibmp z = Z.max (ibmp x) (ibmp y) /\
      forall i t v, nth_error (ibser x) i = Some (t, v) -> (m <= i)%nat ->
        (forall j w, (m <= j)%nat -> nth_error (ibser y) j = Some (t, w) -> nth_error (ibser z) i = Some (t, op v w)) /\
        (~ In t (skipn m (labels (ibser y))) -> nth_error (ibser z) i = Some (t, op v false)).
Proof. exact ilogic_by_label. Qed.
Print Assumptions C125_logic_by_label.
Example C125_logic_run :
  ilogic orb (mkIB 1 [(1, true); (2, false); (3, true)]) (mkIB 1 [(2, true); (3, false)]) = Ok (mkIB 1 [(1, true); (2, true); (3, true)]) /\
  ilogic andb (mkIB 1 [(1, true); (2, false); (3, true)]) (mkIB 1 [(2, true); (3, true)]) = Ok (mkIB 1 [(1, false); (2, false); (3, true)]).
Proof. split; vm_compute; reflexivity. Qed.

(** A date that only the other line has is an error. *)
Theorem C125_extra :
  forall (V : Type) (N : Num V) (op : V -> V -> V) (x y : iline V) (m : nat) (t : Z),
    Z.max (imp x) (imp y) = Z.of_nat (S m) -> iser x <> [] ->
    NoDup (labels (iser x)) ->
    In t (skipn m (labels (iser y))) -> ~ In t (skipn m (labels (iser x))) ->
    ibinop op x y = Raise ValueError.
Proof. exact @ibinop_extra. Qed.
Print Assumptions C125_extra.
Theorem C125_extra_truth :
  (forall (V : Type) (N : Num V) (op : V -> V -> bool) (x y : iline V) (m : nat) (t : Z),
    Z.max (imp x) (imp y) = Z.of_nat (S m) -> iser x <> [] -> NoDup (labels (iser x)) ->
    In t (skipn m (labels (iser y))) -> ~ In t (skipn m (labels (iser x))) ->
    icmp_method op x y = Raise ValueError) /\
  (forall (op : bool -> bool -> bool) (x y : ibline) (m : nat) (t : Z),
    Z.max (ibmp x) (ibmp y) = Z.of_nat (S m) -> ibser x <> [] -> NoDup (labels (ibser x)) ->
    In t (skipn m (labels (ibser y))) -> ~ In t (skipn m (labels (ibser x))) ->
    ilogic op x y = Raise ValueError).
Proof. exact (conj (@icmp_method_extra) ilogic_extra). Qed.
Print Assumptions C125_extra_truth.
Example C125_extra_met :
  NoDup (labels (iser no_wednesday)) /\ In 3 (skipn 1 (labels (iser monday_to_friday))) /\
  ~ In 3 (skipn 1 (labels (iser no_wednesday))) /\
  ibinop vadd no_wednesday monday_to_friday = Raise ValueError.
Proof.
  split; [apply C125_by_label_met|]. split; [cbn; auto|]. split; [cbn; intuition congruence|].
  vm_compute. reflexivity.
Qed.

(** Comparisons refuse lines whose remaining bars are not labelled alike. *)
Theorem C125_compare :
  forall (V : Type) (op : V -> V -> bool) (x y : iline V),
    let mi := Z.max (imp x) (imp y) - 1 in
    slice_from (labels (iser x)) mi <> slice_from (labels (iser y)) mi ->
    icmpop op x y = Raise ValueError.
Proof. exact @icmpop_raises. Qed.
Print Assumptions C125_compare.
Example C125_compare_met :
  slice_from (labels (iser monday_to_friday)) 1 <> slice_from (labels (iser no_wednesday)) 1.
Proof. vm_compute. discriminate. Qed.

(** So the two spellings of a comparison differ: [x.lt(y)] is computed where [x < y] is an exception. *)
Theorem C125_spelling_refuted :
  exists (x y : iline (ext Q)) (z : ibline), icmp_method vltb x y = Ok z /\ icmpop vltb x y = Raise ValueError.
Proof.
  exists monday_to_friday, no_wednesday. eexists. split; vm_compute; reflexivity.
Qed.
Print Assumptions C125_spelling_refuted.

(** So [a + b] and [b + a] are not the same: one is computed, the other an exception. *)
Theorem C125_swap_refuted :
  exists (x y z : iline (ext Q)), ibinop vadd x y = Ok z /\ ibinop vadd y x = Raise ValueError.
Proof.
  exists monday_to_friday, no_wednesday. eexists. split; vm_compute; reflexivity.
Qed.
Print Assumptions C125_swap_refuted.

(** Values of the same date are lost.  Both lines are cut by position at the larger minimum period, so
    a line that starts at a later date loses bars on which it and the other have delivered: here the
    bars 3 and 4 of a line ready on its third bar. *)
Theorem C125_lost_refuted :
  exists (x y z : iline (ext Q)) (a b : Q),
    StronglySorted Z.lt (labels (iser x)) /\ StronglySorted Z.lt (labels (iser y)) /\
    incl (labels (iser y)) (labels (iser x)) /\
    nth_error (iser x) 2 = Some (3, Fin a) /\ imp x = 3 /\
    nth_error (iser y) 0 = Some (3, Fin b) /\ imp y = 1 /\
    ibinop vadd x y = Ok z /\ imp z = 3 /\ nth_error (iser z) 2 = Some (3, NaN).
Proof.
  exists (mkI 3 [(1, NaN); (2, NaN); (3, Fin 30%Q); (4, Fin 40%Q); (5, Fin 50%Q)]),
    (mkI 1 [(3, Fin 3%Q); (4, Fin 4%Q); (5, Fin 5%Q)]).
  do 3 eexists. split; [repeat constructor|]. split; [repeat constructor|].
  split; [intros t Ht; cbn in *; intuition|]. repeat (apply conj); vm_compute; reflexivity.
Qed.
Print Assumptions C125_lost_refuted.

(** Values are stored under wrong dates.  pandas sorts the dates when it aligns, and the result is
    written by position: for data ordered from the newest bar to the oldest the sum of bar 3 appears
    under bar 1. *)
Theorem C125_order_refuted :
  exists (x y z : iline (ext Q)),
    nth_error (iser x) 0 = Some (3, Fin 30%Q) /\ nth_error (iser y) 0 = Some (3, Fin 3%Q) /\
    ibinop vadd x y = Ok z /\
    nth_error (iser z) 0 = Some (3, NaN) /\ nth_error (iser z) 2 = Some (1, Fin 33%Q).
Proof.
  exists (mkI 1 [(3, Fin 30%Q); (2, Fin 20%Q); (1, Fin 10%Q)]), (mkI 1 [(3, Fin 3%Q); (2, Fin 2%Q)]).
  eexists. repeat (apply conj); vm_compute; reflexivity.
Qed.
Print Assumptions C125_order_refuted.
