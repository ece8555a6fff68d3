(** Change of unit: the angle of the regression line is the exception, and the average with a variable period. *)
From Coq Require Import ZArith QArith List Bool Reals Lia Lra.
From Verif Require Import Num Series Line Spec LineFacts RSpec RFacts StatSpec StatFacts2 UnitSpec UnitFacts UnitFacts2 UnitFacts3
  IndMA IndStat Apply IndMavp Catalog.
Import ListNotations.
Local Open Scope R_scope.

Lemma in_unit_feeds u (a : line (ext R)) n k x : feeds a n k (fin x) -> feeds (in_unit u a) n k (fin (fun i => u * x i)).
Proof.
  intros (A & B & C). split; [exact A|]. split; [cbn; now rewrite map_length|]. intros i Hi. cbn [lser in_unit].
  rewrite nth_error_map, (C i Hi). reflexivity.
Qed.
Lemma atan_eq x y : atan x = atan y -> x = y.
Proof. intro H. rewrite <- (tan_atan x), <- (tan_atan y). now rewrite H. Qed.
Lemma angle_changes (a : line (ext R)) n k x p u i :
  feeds a n k (fin x) -> (2 <= p)%nat -> (k + p - 1 <= i < n)%nat -> 0 < u -> u <> 1 ->
  (forall b m, least_squares (by_position (lastp x i p)) b m -> m <> 0) ->
  nth_error (lser (linearreg_angle p (in_unit u a))) i <> nth_error (lser (linearreg_angle p a)) i.
Proof.
  intros F P Hi Hu Hu1 S E.
  destruct (linreg_all F P) as (b & m & L & ((_ & _ & D1) & _) & ((_ & _ & D2) & _) & _).
  destruct (linreg_all (in_unit_feeds u a n k x F) P) as (b' & m' & _ & ((_ & _ & D1') & _) & ((_ & _ & D2') & _) & _).
  rewrite (D2 i Hi), (D2' i Hi) in E. unfold fin in E. injection E as E.
  assert (Q : m' i = u * m i).
  { pose proof (D1' i Hi) as W. unfold linearreg_slope in W. rewrite in_linreg in W by assumption. cbn [fst] in W.
    cbn [lser in_unit] in W. rewrite nth_error_map in W. pose proof (D1 i Hi) as W1. unfold linearreg_slope in W1.
    rewrite W1 in W. cbn in W. now injection W as W. }
  assert (Z : 180 / PI <> 0). { apply Rgt_not_eq, Rdiv_lt_0_compat; [lra|apply PI_RGT_0]. }
  apply Rmult_eq_reg_r in E; [|exact Z]. apply atan_eq in E. rewrite Q in E.
  apply (S _ _ (L i)). destruct (Rmult_integral (u - 1) (m i)); lra.
Qed.

(** ** variable period *)
Section Mavp.
  Variable u : R.
  Hypothesis Hu : 0 < u.
  Local Notation V := (ext R).
  Definition tabl (q : nat * line V) := (fst q, in_unit u (snd q)).
  Definition tabs (q : nat * list V) := (fst q, map (times u) (snd q)).
  Lemma traverse_conv {A B} (f g : A -> res B) h l :
    (forall x, f x = converted h (g x)) -> traverse f l = converted (map h) (traverse g l).
  Proof.
    intro H. induction l as [|x l IH]; [reflexivity|]. cbn [traverse]. rewrite H. destruct (g x); [|reflexivity].
    cbn [converted bind]. rewrite IH. now destruct (traverse g l).
  Qed.
  Lemma t_lookup tab p : lookup_ma (map tabs tab) p = converted (map (times u)) (lookup_ma tab p).
  Proof.
    unfold lookup_ma. induction tab as [|[q s] tab IH]; [reflexivity|]. cbn [map find tabs fst snd].
    destruct (Nat.eqb p q); [reflexivity|exact IH].
  Qed.
  Lemma t_mavp_body tab closes ps : mavp_body (map tabs tab) (map (times u) closes) ps = converted (map (times u)) (mavp_body tab closes ps).
  Proof.
    unfold mavp_body. rewrite map_length. apply traverse_conv. intro i. destruct (nth_error ps i); [|reflexivity].
    rewrite t_lookup. destruct (lookup_ma tab n) as [s|]; [|reflexivity]. cbn [converted bind]. rewrite nth_error_map.
    now destruct (nth_error s i).
  Qed.
  Lemma in_mavp talib (a : avg V) lo hi close periods : same a = true ->
    mavp talib (avg_fun a) lo hi (in_unit u close) periods = converted (in_unit u) (mavp talib (avg_fun a) lo hi close periods).
  Proof.
    intro S. unfold mavp. set (ps := map _ _). set (us := unique ps).
    rewrite (traverse_conv _ (fun p => y <- avg_fun a p close ;; Ok (p, y)) tabl).
    2:{ intro p. rewrite (avg_same u Hu a S p close). now destruct (avg_fun a p close). }
    destruct (traverse _ us) as [mas|]; [|reflexivity]. cbn [converted bind]. destruct (if talib then _ else _) as [maxp|]; [|reflexivity].
    cbn [bind]. pose proof (in_period u close (Z.of_nat maxp) true None) as E. cbn [option_map] in E. rewrite E. clear E.
    set (pc := period_ close _ _ _). rewrite (max_mp_in u pc (map snd (map tabl mas)) (map snd mas)).
    2:{ rewrite !map_map. apply map_ext. now intros [p y]. }
    set (mp := max_mp _ _). rewrite map_map. rewrite (map_ext _ (fun q => tabs (let '(p, y) := q in (p, slice_from (lser y) (mp - 1))))).
    2:{ intros [p y]. cbn [tabl tabs fst snd]. cbn [lser in_unit]. now rewrite slice_from_map. }
    rewrite <- (map_map _ tabs). cbn [lser in_unit]. rewrite slice_from_map, t_mavp_body. destruct (mavp_body _ _ _) as [r|]; [|reflexivity].
    cbn [converted bind]. rewrite map_length, set_nans. reflexivity.
  Qed.
End Mavp.
