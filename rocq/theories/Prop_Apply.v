(** C132: functions applied to lines. *)
From Coq Require Import ZArith QArith String List Bool Lia.
From Verif Require Import Num Series Line Spec LineApiSpec PropLinesFacts Py LinesGen IndMA Holder HolderSpec Operand OperandSpec
  LineApi Apply ApplyAny ApplySpec ApplyFacts Prop_Operand.
Import ListNotations.
Local Open Scope string_scope.
Local Open Scope list_scope.
Local Open Scope nat_scope.

(** C132: the function is called with the bars from the first bar K at which the line and all arguments are complete;
    what it returns is shown from that bar on, and NaN before.  A result of another length is refused. *)
Theorem C132_apply :
  forall (V : Type) (N : Num V) (A : Type) (a : line V) (args : list (uarg V A)) (kwargs : list (string * uarg V A))
    n k Ka Kk f vs ws, feeds a n k f -> see_all n args Ka vs -> see_all n (map snd kwargs) Kk ws ->
  forall F r, let K := Nat.max k (Nat.max Ka Kk) in K <= n -> 0 < n ->
  F (delivered f K n) (vs K) (combine (map fst kwargs) (ws K)) = Ok r ->
  (length r = n - K -> exists y, apply_any F a args kwargs = Ok y /\ delivers y n K (fun i => nth (i - K) r vnan)) /\
  (length r <> n - K -> apply_any F a args kwargs = Raise ValueError).
Proof. exact @apply_ok. Qed.
Print Assumptions C132_apply.
(** C132: an exception of the function reaches the caller *)
Theorem C132_exception :
  forall (V : Type) (N : Num V) (A : Type) (a : line V) (args : list (uarg V A)) (kwargs : list (string * uarg V A))
    n k Ka Kk f vs ws, feeds a n k f -> see_all n args Ka vs -> see_all n (map snd kwargs) Kk ws ->
  forall F e, let K := Nat.max k (Nat.max Ka Kk) in
  F (delivered f K n) (vs K) (combine (map fst kwargs) (ws K)) = Raise e -> apply_any F a args kwargs = Raise e.
Proof. exact @apply_raise. Qed.
Print Assumptions C132_exception.
(** C132: if the data end before that bar, no result is accepted, not even one without values *)
Theorem C132_short :
  forall (V : Type) (N : Num V) (A : Type) (a : line V) (args : list (uarg V A)) (kwargs : list (string * uarg V A))
    n k Ka Kk f vs ws, feeds a n k f -> see_all n args Ka vs -> see_all n (map snd kwargs) Kk ws ->
  forall F r, let K := Nat.max k (Nat.max Ka Kk) in 0 < n < K ->
  F [] (vs K) (combine (map fst kwargs) (ws K)) = Ok r -> apply_any F a args kwargs = Raise ValueError.
Proof. exact @apply_short. Qed.
Print Assumptions C132_short.
(** C132: functions with several results: one line for each, and none if one has another length *)
Theorem C132_multi :
  forall (V : Type) (N : Num V) (A : Type) (a : line V) (args : list (uarg V A)) (kwargs : list (string * uarg V A))
    n k Ka Kk f vs ws, feeds a n k f -> see_all n args Ka vs -> see_all n (map snd kwargs) Kk ws ->
  forall F rs, let K := Nat.max k (Nat.max Ka Kk) in K <= n -> 0 < n ->
  F (delivered f K n) (vs K) (combine (map fst kwargs) (ws K)) = Ok rs ->
  (Forall (fun r => length r = n - K) rs -> exists ys, applymulti_any F a args kwargs = Ok ys /\
     Forall2 (fun r y => delivers y n K (fun i => nth (i - K) r vnan)) rs ys) /\
  (~ Forall (fun r => length r = n - K) rs -> applymulti_any F a args kwargs = Raise ValueError).
Proof. exact @multi_ok. Qed.
Print Assumptions C132_multi.
(** C132: the indicators of the library that are calculated by such a function (Apply.v) *)
Theorem C132_library :
  forall (V : Type) (N : Num V) (A : Type) F (a : line V) ls K,
  max_mp a ls = Z.of_nat (S K) -> K <= length (lser a) -> 0 < length (lser a) ->
  (forall s ss r, F s ss = Ok r -> length r = length s) ->
  apply_any (A := A) (fun s xs _ => F s (map values xs)) a (map (@ULine V A) ls) [] = apply_ F a ls.
Proof. exact @library_apply. Qed.
Print Assumptions C132_library.
Theorem C132_library_multi :
  forall (V : Type) (N : Num V) (A : Type) F (a : line V) ls K,
  max_mp a ls = Z.of_nat (S K) -> K <= length (lser a) -> 0 < length (lser a) ->
  (forall s ss rs, F s ss = Ok rs -> Forall (fun r => length r = length s) rs) ->
  applymulti_any (A := A) (fun s xs _ => F s (map values xs)) a (map (@ULine V A) ls) [] = applymulti_ F a ls.
Proof. exact @library_multi. Qed.
Print Assumptions C132_library_multi.

(** prices, a macd and a number as positional arguments, an average as keyword argument; all complete at the fourth bar *)
Notation Vq := (ext Q).
Definition pos_args : list (uarg Vq Vq) := [UInd a_macd; UOther (Fin 2%Q)].
Definition kw_args : list (string * uarg Vq Vq) := [("by", UInd an_sma); ("shift", UOther (Fin 1%Q))].
Definition weigh (s : list Vq) (xs : list (farg Vq Vq)) (kw : list (string * farg Vq Vq)) : res (list Vq) :=
  match xs, kw with
  | [FSer m; FOther c], [("by", FSer b); ("shift", FOther d)] =>
    Ok (map (fun t => vadd (vadd (fst (fst t)) (vmul c (snd (fst t)))) (vmul d (snd t))) (combine (combine s m) b))
  | _, _ => Raise TypeError
  end.
Example prices_feed : feeds prices 7 0 (fun i => nth i (lser prices) NaN).
Proof. exact (every_line_feeds _ prices ltac:(vm_compute; discriminate)). Qed.
Example pos_seen : see_all 7 pos_args 3
  (fun m => [FSer (delivered (fun i => nth i (lser macd_line) NaN) m 7); FOther (Fin 2%Q)]).
Proof.
  refine (see_cons (sees_indicator (proj2 macd_built) macd_yields) (see_cons (sees_other _ _) (see_none _))).
Qed.
Example kw_seen : see_all 7 (map snd kw_args) 1
  (fun m => [FSer (delivered (fun i => nth i (lser (sma 2 prices)) NaN) m 7); FOther (Fin 1%Q)]).
Proof.
  refine (see_cons (sees_indicator (proj2 sma_built) sma_yields) (see_cons (sees_other _ _) (see_none _))).
Qed.
Example C132_run :
  apply_any weigh prices pos_args kw_args =
    Ok (mkLine 4 [NaN; NaN; NaN; Fin (17 # 3); Fin (15 # 2); Fin (65 # 6); Fin (95 # 6)])%Q /\
  apply_any (fun s _ _ => Ok (tl s)) prices pos_args kw_args = Raise ValueError /\
  apply_any (fun _ _ _ => Raise IndexError) prices pos_args kw_args = Raise IndexError.
Proof. vm_compute. repeat split; reflexivity. Qed.
Example C132_apply_met F r :=
  C132_apply _ _ _ _ _ _ _ _ _ _ _ _ _ prices_feed pos_seen kw_seen F r ltac:(cbn; lia) ltac:(lia).
Example C132_exception_met e := C132_exception _ _ _ _ _ _ _ _ _ _ _ _ _ prices_feed pos_seen kw_seen (fun _ _ _ => Raise e) e eq_refl.
Example C132_multi_run :
  applymulti_any (fun s _ _ => Ok [s; map (vmul (Fin 2%Q)) s]) prices pos_args kw_args =
    Ok [mkLine 4 [NaN; NaN; NaN; Fin 4; Fin 3; Fin 6; Fin 7]; mkLine 4 [NaN; NaN; NaN; Fin 8; Fin 6; Fin 12; Fin 14]]%Q /\
  applymulti_any (fun s _ _ => Ok [s; tl s]) prices pos_args kw_args = Raise ValueError.
Proof. vm_compute. split; reflexivity. Qed.
Example C132_multi_met F rs :=
  C132_multi _ _ _ _ _ _ _ _ _ _ _ _ _ prices_feed pos_seen kw_seen F rs ltac:(cbn; lia) ltac:(lia).
(** a line of two bars and one that starts at the fourth *)
Definition two_bars : line Vq := raw [Fin 1%Q; Fin 2%Q].
Definition late : line Vq := mkLine 4 [NaN; NaN].
Example C132_short_met :=
  C132_short _ _ Vq two_bars [ULine late] [] 2 0 3 0 _ _ _ (every_line_feeds _ two_bars ltac:(vm_compute; discriminate))
    (see_cons (sees_line (every_line_feeds _ late ltac:(vm_compute; discriminate))) (see_none _)) (see_none _)
    (fun s _ _ => Ok s) [] ltac:(cbn; lia) eq_refl.
Example C132_library_met :=
  C132_library _ _ Vq (fun s _ => Ok (map (vsub (Fin 0%Q)) s)) prices [sma 3 prices] 2 eq_refl ltac:(cbn; lia) ltac:(cbn; lia)
    (fun s _ r H => eq_trans (f_equal (fun x => match x with Ok y => length y | Raise _ => 0 end) (eq_sym H)) (map_length (vsub (Fin 0%Q)) s)).
