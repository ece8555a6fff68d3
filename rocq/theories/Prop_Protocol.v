(** C119: conditions, chains, searches, sums and operators of Python on lines and indicators. *)
From Coq Require Import List String Bool Arith ZArith QArith Reals.
From Verif Require Import Num Series Line Spec RSpec PropLinesFacts Py LinesGen Holder HolderSpec Operand OperandSpec Prop_Operand
  Protocol ProtocolSpec ProtocolFacts ProtocolFacts2.
Import ListNotations.
Local Open Scope string_scope.
Local Open Scope list_scope.
Local Open Scope nat_scope.

(** C119: [if x op y:] is neither refused nor decided by the values: with at least one bar it is always taken, for all
    six comparisons *)
Theorem C119_condition_refuted :
  forall (V : Type) (N : Num V) sub c (x y : operand V) n, with_bars n x -> with_bars n y ->
  holds_if sub c x y = Ok (negb (n =? 0)).
Proof. exact @conditions. Qed.
Print Assumptions C119_condition_refuted.
Theorem C119_condition_number_refuted :
  forall (V : Type) (N : Num V) sub c (x : operand V) u n, with_bars n x ->
  holds_if sub c x (ONum u) = Ok (negb (n =? 0)) /\ holds_if sub c (ONum u) x = Ok (negb (n =? 0)).
Proof. exact @conditions_num. Qed.
Print Assumptions C119_condition_number_refuted.
(** C119: the first comparison of a chain [x < y < z] is ignored *)
Theorem C119_chain_refuted :
  forall (V : Type) (N : Num V) sub c d (x y z : operand V) n, with_bars n x -> with_bars n y -> 0 < n ->
  chained sub c d x y z = ask sub d y z.
Proof. exact @chain_last. Qed.
Print Assumptions C119_chain_refuted.
(** C119: [p and q] is q, [p or q] is p, [not p] is False *)
Theorem C119_connectives_refuted : forall p q : bline, List.length (bser p) <> 0 ->
  py_and (ABars p) (ABars q) = ABars q /\ py_or (ABars p) (ABars q) = ABars p /\ py_not (ABars p) = false.
Proof. exact @connectives. Qed.
Print Assumptions C119_connectives_refuted.
(** C119: the functions max and min of Python both return their last argument *)
Theorem C119_extremes_refuted :
  forall (V : Type) (N : Num V) sub n xs (x : operand V), 0 < n -> Forall (with_bars n) (xs ++ [x]) ->
  py_max sub (xs ++ [x]) = Ok x /\ py_min sub (xs ++ [x]) = Ok x.
Proof. exact @extremes. Qed.
Print Assumptions C119_extremes_refuted.
(** C119: any line or indicator is found in every list that is not empty, at its first place, as often as the list is
    long; removing it removes the first item *)
Theorem C119_search_refuted :
  forall (V : Type) (N : Num V) sub n (x y : nat * operand V) (l : list (nat * operand V)), 0 < n ->
  with_bars n (snd x) -> Forall (fun o => with_bars n (snd o)) (y :: l) ->
  py_in sub x (y :: l) = Ok true /\ py_index sub x (y :: l) = Ok 0 /\ py_count sub x (y :: l) = Ok (S (List.length l)) /\
  py_remove sub x (y :: l) = Ok l.
Proof. exact @found. Qed.
Print Assumptions C119_search_refuted.
(** C119: only without bars a search looks for the object itself *)
Theorem C119_search_partial :
  forall (V : Type) (N : Num V) sub (x : nat * operand V) (l : list (nat * operand V)),
  with_bars 0 (snd x) -> Forall (fun o => with_bars 0 (snd o)) l ->
  py_in sub x l = Ok (existsb (fun o => fst x =? fst o) l).
Proof. exact @found_empty. Qed.
Print Assumptions C119_search_partial.
(** C119: an indicator is always true, even with no bars; a line if it has bars *)
Theorem C119_truth :
  forall (V : Type) (N : Num V) (x : operand V) n, with_bars n x ->
  truth_of x = match x with OInd _ => true | _ => negb (n =? 0) end.
Proof. exact @truths. Qed.
Print Assumptions C119_truth.
(** C119: the function sum of Python works: bar by bar, from the first to the last, with zero in front; it starts when
    the first output of the first item and all outputs of the others have started *)
Theorem C119_sum :
  forall (V : Type) (N : Num V) n (x : item V) xs, Forall (good n) (x :: xs) ->
  exists r, py_sum (map (@it V) (x :: xs)) = Ok (OLine r) /\
    delivers r n (latest (it_k x) xs) (fun b => total (vadd (vofZ 0) (it_f x b)) xs b).
Proof. exact @sums. Qed.
Print Assumptions C119_sum.
(** C119: the operators.  Arithmetic takes a line or an indicator on either side ([true]: the reflected method of the
    right one is called), the logical operators on the left only, the others not at all *)
Theorem C119_operators : forall o x y, x <> KiOther \/ y <> KiOther ->
  binary o x y =
  match o with
  | OAdd | OSub | OMul | OTrueDiv | OFloorDiv | OMod | OPow =>
      Ok (match x with KiOther => true | _ => false end)
  | OAnd | OOr | OXor => match x with KiOther => Raise TypeError | _ => Ok false end
  | OMatMul | OLShift | ORShift | ODivmod => Raise TypeError
  end.
Proof. exact binary_table. Qed.
Print Assumptions C119_operators.
(** C119: of -x, +x, ~x, abs, round, float, int only abs(line) works; abs(indicator) does not *)
Theorem C119_unary_refuted : forall o x,
  unary o x = match o, x with UAbs, KiLine => Ok tt | _, _ => Raise TypeError end.
Proof. exact unary_table. Qed.
Print Assumptions C119_unary_refuted.
(** C119: lines can be keys of a dictionary or members of a set, indicators cannot *)
Theorem C119_keys_refuted : forall x, use_as_key x = match x with KiInd => Raise TypeError | _ => Ok tt end.
Proof. exact keys_table. Qed.
Print Assumptions C119_keys_refuted.

(** C119: what the comparison itself answers is right, bar by bar *)
Theorem C119_bars :
  forall (V : Type) (N : Num V) sub c (x y : operand V) n k K f k' K' g, offers x n k K f -> offers y n k' K' g ->
  exists l, ask sub c x y = Ok (ABars l) /\
    bdelivers l n (if sub x y then Nat.max k' K else Nat.max k K')
      (fun i => match c with
                | CLt => vltb (f i) (g i) | CLe => vleb (f i) (g i)
                | CGt => vltb (g i) (f i) | CGe => vleb (g i) (f i)
                | CEq => veqb (f i) (g i) | CNe => negb (veqb (f i) (g i))
                end).
Proof. exact @asked_values. Qed.
Print Assumptions C119_bars.
(** C119: any and all of comparisons ask whether there are bars *)
Theorem C119_any_refuted : forall ps : list bline,
  (py_any (map ABars ps) = true <-> exists p, In p ps /\ bser p <> []) /\
  (py_all (map ABars ps) = true <-> forall p, In p ps -> bser p <> []).
Proof. exact truths_list. Qed.
Print Assumptions C119_any_refuted.
(** C119: max and min of numbers are right, and refuse an empty list *)
Theorem C119_numbers : forall sub (u : R) (us : list R),
  (exists m, py_max sub (map (fun v => ONum (Fin v)) (u :: us)) = Ok (ONum (Fin m)) /\ is_max m (u :: us)) /\
  (exists m, py_min sub (map (fun v => ONum (Fin v)) (u :: us)) = Ok (ONum (Fin m)) /\ is_min m (u :: us)).
Proof. exact best_numbers. Qed.
Print Assumptions C119_numbers.
Theorem C119_nothing : forall (V : Type) (N : Num V) sub,
  py_max sub ([] : list (operand V)) = Raise ValueError /\ py_min sub ([] : list (operand V)) = Raise ValueError.
Proof. exact @best_nothing. Qed.
Print Assumptions C119_nothing.
(** C119: without bars, also index, count and remove look for the object itself *)
Theorem C119_identity_partial :
  forall (V : Type) (N : Num V) sub (x : nat * operand V) (l : list (nat * operand V)),
  with_bars 0 (snd x) -> Forall (fun o => with_bars 0 (snd o)) l ->
  (~ In (fst x) (map fst l) -> py_index sub x l = Raise ValueError /\ py_remove sub x l = Raise ValueError) /\
  (forall l1 y l2, l = l1 ++ y :: l2 -> fst y = fst x -> ~ In (fst x) (map fst l1) ->
     py_index sub x l = Ok (List.length l1) /\ py_remove sub x l = Ok (l1 ++ l2)) /\
  py_count sub x l = Ok (List.length (filter (fun o => fst o =? fst x) l)).
Proof. exact @index_empty. Qed.
Print Assumptions C119_identity_partial.

(** a line of ones and a line of nines: both conditions are taken *)
Definition flat : operand (ext Q) := OLine (raw (map Fin [1; 1; 1; 1; 1; 1; 1]%Q)).
Definition high : operand (ext Q) := OLine (raw (map Fin [9; 9; 9; 9; 9; 9; 9]%Q)).
Definition no_sub : operand (ext Q) -> operand (ext Q) -> bool := fun _ _ => false.
Example flat_bars : with_bars 7 flat.
Proof.
  exists 0, 0, (fun i => nth i (map Fin [1; 1; 1; 1; 1; 1; 1]%Q) NaN). split; [|reflexivity].
  exact (every_line_feeds _ (raw (map Fin [1; 1; 1; 1; 1; 1; 1]%Q)) ltac:(vm_compute; discriminate)).
Qed.
Example high_bars : with_bars 7 high.
Proof.
  exists 0, 0, (fun i => nth i (map Fin [9; 9; 9; 9; 9; 9; 9]%Q) NaN). split; [|reflexivity].
  exact (every_line_feeds _ (raw (map Fin [9; 9; 9; 9; 9; 9; 9]%Q)) ltac:(vm_compute; discriminate)).
Qed.
Example macd_bars : with_bars 7 (OInd a_macd).
Proof. exists 2, 3, (fun i => nth i (lser macd_line) NaN). split; [exact (proj2 macd_built)|exact macd_yields]. Qed.
(** 1 > 9 at no bar, but the condition is taken; max(9, 1) is the line of ones; the line of ones is found in a list with
    the macd only *)
Example C119_run :
  ask no_sub CGt flat high = Ok (ABars (mkBLine 1 [false; false; false; false; false; false; false])) /\
  holds_if no_sub CGt flat high = Ok true /\ holds_if no_sub CLe flat high = Ok true /\
  chained no_sub CGt CLt flat high (OInd a_macd) = ask no_sub CLt high (OInd a_macd) /\
  py_max no_sub [high; flat] = Ok flat /\ py_min no_sub [flat; high] = Ok high /\
  py_in no_sub (0, flat) [(1, OInd a_macd)] = Ok true /\
  py_sum [flat; high; OInd a_macd] = Ok (OLine (mkLine 4 [NaN; NaN; NaN; Fin (28#3); Fin (21#2); Fin (61#6); Fin (67#6)])%Q).
Proof. vm_compute. repeat split. Qed.
Example C119_met := C119_search_refuted _ _ no_sub 7 (0, flat) (1, OInd a_macd) [(2, high)] ltac:(auto with arith) flat_bars
  (Forall_cons (1, OInd a_macd) macd_bars (Forall_cons (2, high) high_bars (Forall_nil _))).
Example C119_extremes_met := C119_extremes_refuted _ _ no_sub 7 [high; OInd a_macd] flat ltac:(auto with arith)
  (Forall_cons _ high_bars (Forall_cons _ macd_bars (Forall_cons _ flat_bars (Forall_nil _)))).
Definition macd_item : item (ext Q) := mkItem (OInd a_macd) 2 3 (fun i => nth i (lser macd_line) NaN).
Definition sma_item : item (ext Q) := mkItem (OInd an_sma) 1 1 (fun i => nth i (lser (IndMA.sma 2 prices)) NaN).
Example C119_sum_met := C119_sum _ _ 7 sma_item [macd_item]
  (Forall_cons sma_item (conj (proj2 sma_built) sma_yields)
    (Forall_cons macd_item (conj (proj2 macd_built) macd_yields) (Forall_nil _))).
Example C119_empty_met : with_bars 0 (OLine (raw (@nil (ext Q)))) /\
  py_in no_sub (0, OLine (raw [])) [(1, OLine (raw [])); (0, OLine (raw []))] = Ok true /\
  py_in no_sub (0, OLine (raw [])) [(1, OLine (raw []))] = Ok false.
Proof.
  split; [|vm_compute; auto]. exists 0, 0, (fun _ => NaN). split; [|reflexivity].
  repeat split. intros i Hi. exfalso. now apply (Nat.nlt_0_r i).
Qed.
Example C119_operators_ex : binary OSub KiOther KiInd = Ok true /\ binary OAnd KiOther KiLine = Raise TypeError /\
  binary OAnd KiLine KiOther = Ok false /\ unary UNeg KiLine = Raise TypeError.
Proof. auto. Qed.
(** the first of equal numbers is kept; the comparison of lines (true before the minimum period, see C01), searches without
    bars *)
Example C119_numbers_ex :
  py_max no_sub (map (fun v => ONum (Fin v)) [1#2; 2#4; 1#3]%Q) = Ok (ONum (Fin (1#2)))%Q /\
  py_min no_sub (map (fun v => ONum (Fin v)) [1#2; 2#4; 1#3; 2#6]%Q) = Ok (ONum (Fin (1#3)))%Q.
Proof. vm_compute. auto. Qed.
Example C119_bars_ex :
  ask no_sub CLe flat (OInd a_macd) = Ok (ABars (mkBLine 4 [true; true; true; false; false; false; true])) /\
  py_any (map ABars [mkBLine 1 []; mkBLine 1 [false]]) = true /\ py_all (map ABars [mkBLine 1 []; mkBLine 1 [false]]) = false.
Proof. vm_compute. auto. Qed.
Example C119_identity_ex :
  let e := OLine (raw (@nil (ext Q))) in
  py_index no_sub (7, e) [(3, e); (7, e); (7, e)] = Ok 1 /\ py_count no_sub (7, e) [(3, e); (7, e); (7, e)] = Ok 2 /\
  py_remove no_sub (7, e) [(3, e); (7, e); (7, e)] = Ok [(3, e); (7, e)] /\ py_index no_sub (8, e) [(3, e)] = Raise ValueError.
Proof. vm_compute. auto. Qed.
