(** C133: lines as arguments of the methods of a line. *)
From Coq Require Import ZArith QArith String List Bool Lia.
From Verif Require Import Num Series Line Spec LineApiSpec PropLinesFacts Py LinesGen IndMA Holder HolderSpec Operand OperandSpec
  LineApi ApplyAny ApplySpec ApplyFacts MethodArgs MethodSpec MethodFacts Prop_Operand Prop_Apply.
Import ListNotations.
Local Open Scope string_scope.
Local Open Scope list_scope.
Local Open Scope nat_scope.

(** C133, for the methods of MethodSpec.v and the way of passing given there: the method of pandas gets the values of the
    line and of all lines, indicators and Series among the arguments from the first bar at which all are complete, and
    its result stands from that bar on *)
Theorem C133_lines_partial :
  forall (V : Type) (N : Num V) (A : Type) name (a : line V) args (kwargs : list (string * uarg V A)) n k Ka Kk f vs ws,
  In name (map fst std_table) -> (args = [] \/ In name by_position) -> (kwargs = [] \/ In name by_keyword) ->
  ~ In "raw" (map fst kwargs) ->
  feeds a n k f -> see_all n args Ka vs -> see_all n (map snd kwargs) Kk ws ->
  forall F r xs ys, let K := Nat.max k (Nat.max Ka Kk) in K <= n -> 0 < n ->
  Forall2 passed (vs K) xs -> Forall2 passed (ws K) ys ->
  F (delivered f K n) xs (combine (map fst kwargs) ys) = Ok r ->
  (length r = n - K -> exists y, std_method name F a args kwargs = Ok y /\ delivers y n K (fun i => nth (i - K) r vnan)) /\
  (length r <> n - K -> std_method name F a args kwargs = Raise ValueError).
Proof. exact @lines_passed. Qed.
Print Assumptions C133_lines_partial.
(** C133 is false for the other methods and the other way of passing: pandas gets the Line objects themselves, and the
    result is presented as complete from the first bar of the line, whenever the arguments are *)
Theorem C133_objects_refuted :
  forall (V : Type) (N : Num V) (A : Type) name (a : line V) args (kwargs : list (string * uarg V A)) n k f,
  In name (map fst std_table) -> (args = [] \/ ~ In name by_position) -> (kwargs = [] \/ ~ In name by_keyword) ->
  ~ In "raw" (map fst kwargs) -> feeds a n k f -> k <= n -> 0 < n ->
  forall F r xs ys, Forall2 unread args xs -> Forall2 unread_kw kwargs ys ->
  F (delivered f k n) xs ys = Ok r -> length r = n - k ->
  exists y, std_method name F a args kwargs = Ok y /\ delivers y n k (fun i => nth (i - k) r vnan).
Proof. exact @objects_unread. Qed.
Print Assumptions C133_objects_refuted.
(** C133: where keywords are read, one named raw does not arrive (as in line.apply(func, raw=1)) *)
Theorem C133_raw_refuted :
  forall (V : Type) (N : Num V) (A : Type) name F (a : line V) args x (kwargs : list (string * uarg V A)),
  In name by_keyword -> std_method name F a args (("raw", x) :: kwargs) = std_method name F a args kwargs.
Proof. exact @raw_lost. Qed.
Print Assumptions C133_raw_refuted.
(** C133: corr, cov, dot and equals read their positional arguments in the same way, keywords are passed as they are *)
Theorem C133_reductions :
  forall (V : Type) (A B : Type) name (a : line V) args (kwargs : list (string * uarg V A)) n k Ka f vs,
  In name reduced_with -> feeds a n k f -> see_all n args Ka vs ->
  forall (F : list V -> list (marg V A) -> list (string * marg V A) -> res B) xs ys,
  Forall2 passed (vs (Nat.max k Ka)) xs -> Forall2 unread_kw kwargs ys ->
  red_method name F a args kwargs = F (delivered f (Nat.max k Ka) n) xs ys.
Proof. exact (fun V A B => @reduced_passed V A B). Qed.
Print Assumptions C133_reductions.
Theorem C133_other_reductions :
  forall (V : Type) (A B : Type) name (a : line V) args (kwargs : list (string * uarg V A)) n k f,
  In name (map fst red_table) -> ~ In name reduced_with -> feeds a n k f ->
  forall (F : list V -> list (marg V A) -> list (string * marg V A) -> res B) xs ys,
  Forall2 unread args xs -> Forall2 unread_kw kwargs ys ->
  red_method name F a args kwargs = F (delivered f k n) xs ys.
Proof. exact (fun V A B => @reduced_unread V A B). Qed.
Print Assumptions C133_other_reductions.
(** C133: the hypotheses on the arguments passed can always be met *)
Theorem C133_arguments :
  forall (V A : Type) (args : list (farg V A)) (plain : list (uarg V A)),
  (exists xs, Forall2 passed args xs) /\ (exists xs, Forall2 unread plain xs).
Proof. exact (fun V A args plain => conj (@passed_all V A args) (@unread_all V A plain)). Qed.
Print Assumptions C133_arguments.
(** C133: a name that neither table lists is no method of this kind *)
Theorem C133_unknown :
  forall (V : Type) (N : Num V) (A : Type) name (a : line V) args (kwargs : list (string * uarg V A)),
  (~ In name (map fst std_table) -> forall F, std_method name F a args kwargs = Raise AttributeError) /\
  (~ In name (map fst red_table) ->
   forall B (F : list V -> list (marg V A) -> list (string * marg V A) -> res B), red_method name F a args kwargs = Raise AttributeError).
Proof.
  exact (fun V N A name a args kwargs => conj (fun H F => @unknown_method V N A name F a args kwargs H)
    (fun H B F => @unknown_reduction V A B name F a args kwargs H)).
Qed.
Print Assumptions C133_unknown.
Example C133_unknown_met F B G :=
  let H := C133_unknown Vq _ Vq "clipp" prices [] [] in
  (proj1 H ltac:(cbn; intuition discriminate) F, proj2 H ltac:(cbn; intuition discriminate) B G).

Definition larger (x y : Vq) : Vq := if vltb x y then y else x.
(** clip of pandas with values or a number as lower bound *)
Definition clip_low (s : list Vq) (xs : list (marg Vq Vq)) (kw : list (string * marg Vq Vq)) : res (list Vq) :=
  match xs, kw with
  | [], [("lower", MSer b)] | [MSer b], [] => Ok (map (fun t => larger (fst t) (snd t)) (combine s b))
  | [], [("lower", MObj (UOther c))] | [MObj (UOther c)], [] => Ok (map (larger c) s)
  | _, _ => Raise TypeError
  end.
(** prices not below their average, by keyword; by position the method of pandas meets an object it does not know *)
Example C133_run :
  std_method "clip" clip_low prices [] [("lower", UInd an_sma)] =
    Ok (mkLine 2 [NaN; Fin 5; Fin (7 # 2); Fin 4; Fin (7 # 2); Fin 6; Fin 7])%Q /\
  std_method "clip" clip_low prices [UInd an_sma] [] = Raise TypeError /\
  std_method "clip" clip_low prices [UOther (Fin 3%Q)] [] = Ok (mkLine 1 [Fin 3; Fin 5; Fin 3; Fin 4; Fin 3; Fin 6; Fin 7])%Q.
Proof. vm_compute. repeat split; reflexivity. Qed.
Example C133_lines_partial_met F r :=
  C133_lines_partial _ _ Vq "clip" prices [] [("lower", UInd an_sma)] 7 0 0 1 _ _ _ ltac:(cbn; tauto) ltac:(tauto)
    ltac:(cbn; tauto) ltac:(cbn; intros [H|[]]; discriminate H) prices_feed (see_none _)
    (see_cons (sees_indicator (proj2 sma_built) sma_yields) (see_none _)) F r [] [_] ltac:(cbn; lia) ltac:(lia)
    ltac:(constructor) ltac:(repeat constructor).
Example C133_where_met F r :=
  C133_lines_partial _ _ Vq "where" prices pos_args kw_args 7 0 3 1 _ _ _ ltac:(cbn; tauto) ltac:(cbn; tauto)
    ltac:(cbn; tauto) ltac:(cbn; intros [H|[H|[]]]; discriminate H) prices_feed pos_seen kw_seen F r _ _ ltac:(cbn; lia) ltac:(lia)
    (ltac:(repeat constructor)) (ltac:(repeat constructor)).
(** the macd passed to clip by position is complete at the fourth bar only, the result from the first on *)
Example C133_objects_refuted_met F r :=
  C133_objects_refuted _ _ Vq "clip" prices [UInd a_macd] [] 7 0 _ ltac:(cbn; tauto)
    ltac:(right; cbn; intuition discriminate) ltac:(tauto) ltac:(tauto) prices_feed ltac:(lia) ltac:(lia) F r [_] [] ltac:(repeat constructor) ltac:(constructor).
Example C133_reductions_met B F :=
  C133_reductions _ _ B "corr" prices pos_args [] 7 0 3 _ _ ltac:(cbn; tauto) prices_feed pos_seen F _ [] ltac:(repeat constructor) ltac:(constructor).
Example C133_other_reductions_met B F :=
  C133_other_reductions _ _ B "max" prices pos_args [] 7 0 _ ltac:(cbn; tauto) ltac:(cbn; intuition discriminate) prices_feed F _ [] ltac:(repeat constructor) ltac:(constructor).
