(** C116: operations between indicators. *)
From Coq Require Import List String Bool Arith ZArith QArith.
From Verif Require Import Num Series Line Spec PropLinesFacts Py LinesGen IndMA IndBasic Holder HolderSpec Operand OperandSpec
  OperandFacts.
Import ListNotations.
Local Open Scope string_scope.
Local Open Scope list_scope.
Local Open Scope nat_scope.

(** C116: [a op b] for two indicators is computed from their first outputs, bar by bar.  It starts when the first output
    of [a] and all the outputs of [b] have started *)
Theorem C116_indicators :
  forall (V : Type) (N : Num V) op (a b : holder (list V)) n ka Ka f kb Kb g, built a -> built b ->
  yields a n ka Ka f -> yields b n kb Kb g ->
  gives (combine_op op (OInd a) (OInd b)) n (Nat.max ka Kb) (fun i => op (f i) (g i)).
Proof. exact @two_indicators. Qed.
Print Assumptions C116_indicators.

(** C116: the same with a line or a number as the other operand *)
Theorem C116_line :
  forall (V : Type) (N : Num V) op (a : holder (list V)) (b : line V) n ka Ka f kb g, built a ->
  yields a n ka Ka f -> feeds b n kb g ->
  gives (combine_op op (OInd a) (OLine b)) n (Nat.max ka kb) (fun i => op (f i) (g i)) /\
  gives (combine_op op (OLine b) (OInd a)) n (Nat.max kb Ka) (fun i => op (g i) (f i)).
Proof. exact @with_line. Qed.
Print Assumptions C116_line.
Theorem C116_number :
  forall (V : Type) (N : Num V) op (a : holder (list V)) c n ka Ka f, built a -> yields a n ka Ka f ->
  gives (combine_op op (OInd a) (ONum c)) n ka (fun i => op (f i) c) /\
  gives (combine_op op (ONum c) (OInd a)) n ka (fun i => op c (f i)).
Proof. exact @with_number. Qed.
Print Assumptions C116_number.
(** C116: comparisons; before its start the result is True *)
Theorem C116_compare :
  forall (V : Type) op (a b : holder (list V)) (d : line V) c n ka Ka f kb Kb g kd e, built a -> built b ->
  yields a n ka Ka f -> yields b n kb Kb g -> feeds d n kd e ->
  decides (compare_op op (OInd a) (OInd b)) n (Nat.max ka Kb) (fun i => op (f i) (g i)) /\
  decides (compare_op op (OInd a) (OLine d)) n (Nat.max ka kd) (fun i => op (f i) (e i)) /\
  decides (compare_op op (OLine d) (OInd b)) n (Nat.max kd Kb) (fun i => op (e i) (g i)) /\
  decides (compare_op op (OInd a) (ONum c)) n ka (fun i => op (f i) c) /\
  decides (compare_op op (ONum c) (OInd a)) n ka (fun i => op c (f i)).
Proof. exact @comparisons. Qed.
Print Assumptions C116_compare.
(** C116: the class of [b] being a proper subclass of the class of [a] the comparison starts when all the outputs of [a]
    and the first of [b] have started; the values are the same *)
Theorem C116_compare_subclass :
  forall (V : Type) op (a b : holder (list V)) n ka Ka f kb Kb g sub, built a -> built b ->
  yields a n ka Ka f -> yields b n kb Kb g ->
  decides (compare_sub sub op (OInd a) (OInd b)) n (if sub then Nat.max kb Ka else Nat.max ka Kb) (fun i => op (f i) (g i)).
Proof. exact @subclass_comparison. Qed.
Print Assumptions C116_compare_subclass.

(** C116: the operands of a commutative operation can be exchanged when in both indicators no output starts later than
    the first *)
Theorem C116_exchange_partial :
  forall (V : Type) (N : Num V) op (a b : holder (list V)) n ka f kb g, built a -> built b ->
  yields a n ka ka f -> yields b n kb kb g -> (forall x y, op x y = op y x) ->
  exists l, combine_op op (OInd a) (OInd b) = Ok l /\ combine_op op (OInd b) (OInd a) = Ok l.
Proof. exact @order_same. Qed.
Print Assumptions C116_exchange_partial.
(** C116: otherwise they cannot: where all outputs of [a] and the first of [b] have started but not all of [b], [a op b]
    is still NaN and [b op a] has its value *)
Theorem C116_exchange_refuted :
  forall (V : Type) (N : Num V) op (a b : holder (list V)) n ka Ka f kb Kb g, built a -> built b ->
  yields a n ka Ka f -> yields b n kb Kb g ->
  exists l r, combine_op op (OInd a) (OInd b) = Ok l /\ combine_op op (OInd b) (OInd a) = Ok r /\
    forall i, Nat.max kb Ka <= i < Kb -> i < n ->
      nth_error (lser l) i = Some vnan /\ nth_error (lser r) i = Some (op (g i) (f i)).
Proof. exact @order_differs. Qed.
Print Assumptions C116_exchange_refuted.

(** an average and a macd of the same prices *)
Definition prices : line (ext Q) := raw (map Fin [1; 5; 2; 4; 3; 6; 7]%Q).
Definition out_of (l : line (ext Q)) : hval (list (ext Q)) := HLine (mkH (lmp l) "" (lser l)).
Definition sma_class : lclass := mkLClass ["sma"] [].
Definition macd_class : lclass := mkLClass ["macd"; "signal"; "histogram"] [].
Definition sma_obj : res (holder (list (ext Q))) :=
  construct sma_class ["sma"] ["close"] [1%Z] [] [] [("sma", out_of (sma 2 prices))].
Definition macd_obj : res (holder (list (ext Q))) :=
  r <- macd sma_ sma_ 2 3 2 prices ;;
  let '(m, s, h) := r in
  construct macd_class ["macd"; "signal"; "histogram"] ["close"] [1%Z] [] []
    [("macd", out_of m); ("signal", out_of s); ("histogram", out_of h)].
Definition as_ok (r : res (holder (list (ext Q)))) : holder (list (ext Q)) :=
  match r with Ok h => h | Raise _ => mkHolder [] [] (new_cont (mkLClass [] []) []) end.
Definition an_sma := as_ok sma_obj.
Definition a_macd := as_ok macd_obj.
Example sma_built : sma_obj = Ok an_sma /\ built an_sma.
Proof.
  split; [vm_compute; reflexivity|].
  exists [], [LName "sma"], (ExtTuple []), sma_class, ["close"], [1%Z], [], [], [("sma", out_of (sma 2 prices))].
  split; [reflexivity|]. split; [vm_compute; reflexivity|].
  split; [reflexivity|]. split; [|split; [intros []|intros v []]].
  intros (m & [<-|[]] & [H|H]); discriminate H.
Qed.
Example macd_built : macd_obj = Ok a_macd /\ built a_macd.
Proof.
  split; [vm_compute; reflexivity|].
  exists [], [LName "macd"; LName "signal"; LName "histogram"], (ExtTuple []), macd_class, ["close"], [1%Z], [], [],
    match macd sma_ sma_ 2 3 2 prices with
    | Ok (m, s, h) => [("macd", out_of m); ("signal", out_of s); ("histogram", out_of h)]
    | Raise _ => [] end.
  split; [reflexivity|]. split; [vm_compute; reflexivity|].
  split; [reflexivity|]. split; [|split; [intros []|intros v []]].
  cbn [macd macd_from sma_ bind map fst]. intros (m & [<-|[<-|[<-|[]]]] & [H|H]); discriminate H.
Qed.
Example sma_yields : yields an_sma 7 1 1 (fun i => nth i (lser (sma 2 prices)) NaN).
Proof.
  eexists _, []. split; [vm_compute; reflexivity|]. split; [exact (every_line_feeds _ (sma 2 prices) ltac:(vm_compute; discriminate))|].
  split; [intros x [<-|[]]; vm_compute; discriminate|]. eexists. split; [left; reflexivity|reflexivity].
Qed.
Definition macd_line : line (ext Q) := lsub (sma 2 prices) (sma 3 prices).
Example macd_yields : yields a_macd 7 2 3 (fun i => nth i (lser macd_line) NaN).
Proof.
  eexists _, [_; _]. split; [vm_compute; reflexivity|]. split; [exact (every_line_feeds _ macd_line ltac:(vm_compute; discriminate))|].
  split; [intros x [<-|[<-|[<-|[]]]]; vm_compute; discriminate|]. eexists. split; [right; left; reflexivity|reflexivity].
Qed.
(** the average plus the macd starts at the fourth bar, the macd plus the average at the third *)
Example C116_run :
  combine_op vadd (OInd an_sma) (OInd a_macd) = Ok (mkLine 4 [NaN; NaN; NaN; Fin (7#3); Fin (4); Fin (14#3); Fin (23#3)])%Q /\
  combine_op vadd (OInd a_macd) (OInd an_sma) = Ok (mkLine 3 [NaN; NaN; Fin (13#3); Fin (7#3); Fin (4); Fin (14#3); Fin (23#3)])%Q.
Proof. vm_compute. split; reflexivity. Qed.
Example C116_compare_run :
  compare_op vltb (OInd an_sma) (OInd a_macd) = Ok (mkBLine 4 [true; true; true; false; false; false; false]) /\
  compare_op vltb (ONum (Fin 3%Q)) (OInd an_sma) = Ok (mkBLine 2 [true; false; true; false; true; true; true]).
Proof. vm_compute. split; reflexivity. Qed.
(** a macd of a subclass on the right *)
Example C116_subclass_run :
  compare_sub true vltb (OInd an_sma) (OInd a_macd) = Ok (mkBLine 3 [true; true; false; false; false; false; false]) /\
  compare_sub false vltb (OInd an_sma) (OInd a_macd) = Ok (mkBLine 4 [true; true; true; false; false; false; false]).
Proof. vm_compute. split; reflexivity. Qed.
