(** Prices moved by a constant or mirrored at a level: the indicators. *)
From Coq Require Import ZArith QArith List Bool Reals Lia Lra.
From Verif Require Import Num Series Line LineFacts OpFacts Spec RSpec RFacts StatFacts MAFacts PropLinesFacts OperandFacts
  UnitSpec UnitFacts MoveSpec MoveFacts MoveFacts2 CausalFacts CatalogR2
  IndMA IndBasic IndStat IndRange IndOsc IndVol Apply IndSar Catalog.
Import ListNotations.
Local Open Scope R_scope.
Arguments skipn : simpl never.
Arguments firstn : simpl never.
Local Notation V := (ext R).

(** a line of [n] bars whose first full bar is not before the first one *)
Definition fit (n : nat) (l : line V) : Prop := (1 <= lmp l)%Z /\ length (lser l) = n.
Definition val (l : line V) (i : nat) : V := nth i (lser l) vnan.
Definition st (l : line V) : nat := Z.to_nat (lmp l - 1).

Lemma fit_feeds n l : fit n l -> feeds l n (st l) (val l).
Proof. intros [H <-]. now apply every_line_feeds. Qed.
Lemma feeds_fit n l k f : feeds l n k f -> fit n l.
Proof. intros (A & B & _). split; [lia|exact B]. Qed.
Lemma del_fit n l k f : delivers l n k f -> fit n l.
Proof. intros [H _]. eapply feeds_fit, H. Qed.
Lemma fit_Rl n l : fit n l <-> Rl n n l l.
Proof. unfold fit, Rl. split; [intros [A B]; repeat split; auto; now exists []; rewrite app_nil_r|tauto]. Qed.
Lemma st_mapl f l : st (mapl f l) = st l. Proof. reflexivity. Qed.
Lemma fit_mapl n f l : fit n (mapl f l) <-> fit n l.
Proof. unfold fit, mapl. cbn. now rewrite map_length. Qed.

Lemma feeds_mapl f l n k g : feeds l n k g -> feeds (mapl f l) n k (fun i => f (g i)).
Proof.
  intros (A & B & C). split; [exact A|]. split; [cbn; now rewrite map_length|].
  intros i Hi. cbn [lser mapl]. rewrite nth_error_map, C by exact Hi. reflexivity.
Qed.

Section Fit.
  Variable n : nat.
  Lemma fit_binop op (a b : line V) : fit n a -> fit n b -> fit n (binop op a b).
  Proof. intros A B. eapply del_fit, binop_delivers; eapply fit_feeds; eassumption. Qed.
  Lemma fit_binop_s op a c : fit n a -> fit n (binop_s op a c).
  Proof. intros A. eapply del_fit, binop_s_delivers, fit_feeds, A. Qed.
  Lemma fit_rbinop_s op a c : fit n a -> fit n (rbinop_s op c a).
  Proof. intros A. eapply del_fit, rbinop_s_delivers, fit_feeds, A. Qed.
  Lemma fit_mapop h a : fit n a -> fit n (mapop h a).
  Proof. intros A. eapply del_fit, mapop_delivers, fit_feeds, A. Qed.
  Lemma fit_rolling p G a : (1 <= p)%nat -> fit n a -> fit n (rolling p G a).
  Proof. intros P A. eapply del_fit, rolling_delivers; [exact P|eapply fit_feeds, A]. Qed.
  Lemma fit_diff a p : fit n a -> fit n (diff a (Z.of_nat p)).
  Proof. intros A. eapply del_fit, diff_delivers; [intro x; now destruct x|eapply fit_feeds, A]. Qed.
  Lemma fit_shift a p : fit n a -> fit n (shift a (Z.of_nat p)).
  Proof. intros A. eapply del_fit, shift_delivers, fit_feeds, A. Qed.
  Lemma fit_ago a p : (1 <= p)%nat -> fit n a -> fit n (at_ago a (- Z.of_nat p)).
  Proof. intros P A. eapply del_fit, at_ago_delivers; [eapply fit_feeds, A|exact P]. Qed.
  Lemma fit_clip_lo a c : fit n a -> fit n (lclip_lo a c).
  Proof. intros A. eapply del_fit, lclip_lo_delivers, fit_feeds, A. Qed.
  Lemma fit_clip_hi a c : fit n a -> fit n (lclip_hi a c).
  Proof. intros A. eapply del_fit, lclip_hi_delivers, fit_feeds, A. Qed.
  Lemma fit_stdop2 F G a b : (forall s u, F s u = map2 G s u) -> fit n a -> fit n b -> fit n (stdop2 F a b).
  Proof.
    intros E A B. eapply del_fit, (stdop2_delivers F) with (h := fun i => G (val a i) (val b i));
      [eapply fit_feeds, A|eapply fit_feeds, B|]. cbv zeta. rewrite E.
    generalize (seq (Nat.max (st a) (st b)) (n - Nat.max (st a) (st b))). intro s. induction s as [|x s IH]; cbn; congruence.
  Qed.
  Lemma fit_clip_lo_l a b : fit n a -> fit n b -> fit n (lclip_lo_l a b).
  Proof. apply fit_stdop2 with (G := fun x t => clip_lo t x). reflexivity. Qed.
  Lemma fit_clip_hi_l a b : fit n a -> fit n b -> fit n (lclip_hi_l a b).
  Proof. apply fit_stdop2 with (G := fun x t => clip_hi t x). reflexivity. Qed.
  Lemma fit_avg (a : avg V) p l r : (1 <= p)%nat -> fit n l -> avg_fun a p l = Ok r -> fit n r.
  Proof.
    intros P A E. apply fit_Rl in A. destruct (R_avg (le_n n) a P A E) as (r' & E' & H).
    rewrite E in E'. injection E' as <-. now apply fit_Rl.
  Qed.
End Fit.

Ltac fits := repeat (lazymatch goal with
  | |- fit _ (mapl _ _) => apply fit_mapl
  | |- fit _ (ladd _ _) => apply fit_binop
  | |- fit _ (lsub _ _) => apply fit_binop
  | |- fit _ (lmul _ _) => apply fit_binop
  | |- fit _ (ldiv _ _) => apply fit_binop
  | |- fit _ (binop _ _ _) => apply fit_binop
  | |- fit _ (binop_s _ _ _) => apply fit_binop_s
  | |- fit _ (rbinop_s _ _ _) => apply fit_rbinop_s
  | |- fit _ (labs _) => apply fit_mapop
  | |- fit _ (mapop _ _) => apply fit_mapop
  | |- fit _ (rolling _ _ _) => apply fit_rolling
  | |- fit _ (max_ind _ _) => apply fit_rolling
  | |- fit _ (min_ind _ _) => apply fit_rolling
  | |- fit _ (sumn _ _) => apply fit_rolling
  | |- fit _ (diff _ _) => apply fit_diff
  | |- fit _ (at_ago _ _) => apply fit_ago
  | |- fit _ (lclip_lo _ _) => apply fit_clip_lo
  | |- fit _ (lclip_hi _ _) => apply fit_clip_hi
  | |- fit _ (lclip_lo_l _ _) => apply fit_clip_lo_l
  | |- fit _ (lclip_hi_l _ _) => apply fit_clip_hi_l
  end); try assumption; try lia.

(** two lines with the same values at the same bars *)
Ltac same_as := eapply delivers_same.
Lemma swap_op n op op' (a b : line V) : (forall x y, op x y = op' y x) -> fit n a -> fit n b -> binop op a b = binop op' b a.
Proof.
  intros H [A1 A2] [B1 B2]. apply binop_swap; [unfold bars; congruence|right; lia|exact H].
Qed.
Lemma add_comm n (a b : line V) : fit n a -> fit n b -> ladd a b = ladd b a.
Proof. apply swap_op. apply vadd_comm. Qed.
Lemma vadd_swap (x y z : V) : vadd (vadd x y) z = vadd (vadd x z) y.
Proof. destruct x, y, z; try reflexivity. rewrite !vadd_fin. f_equal. ring. Qed.
Lemma add_swap n (a b c : line V) : fit n a -> fit n b -> fit n c -> ladd (ladd a b) c = ladd (ladd a c) b.
Proof.
  intros A B C. apply fit_feeds in A, B, C.
  pose proof (binop_delivers vadd (delivers_feeds (binop_delivers vadd A B)) C) as D1.
  pose proof (binop_delivers vadd (delivers_feeds (binop_delivers vadd A C)) B) as D2.
  replace (Nat.max (Nat.max (st a) (st c)) (st b)) with (Nat.max (Nat.max (st a) (st b)) (st c)) in D2 by lia.
  eapply delivers_same; [exact D1|exact D2|]. intros i _. apply vadd_swap.
Qed.
Lemma vsub_swap (x y z : V) : vsub (vsub x y) z = vsub (vsub x z) y.
Proof. destruct x, y, z; try reflexivity. rewrite !vsub_fin. f_equal. ring. Qed.
Lemma sub_swap n (a b c : line V) : fit n a -> fit n b -> fit n c -> lsub (lsub a b) c = lsub (lsub a c) b.
Proof.
  intros A B C. apply fit_feeds in A, B, C.
  pose proof (binop_delivers vsub (delivers_feeds (binop_delivers vsub A B)) C) as D1.
  pose proof (binop_delivers vsub (delivers_feeds (binop_delivers vsub A C)) B) as D2.
  replace (Nat.max (Nat.max (st a) (st c)) (st b)) with (Nat.max (Nat.max (st a) (st b)) (st c)) in D2 by lia.
  eapply delivers_same; [exact D1|exact D2|]. intros i _. apply vsub_swap.
Qed.

Section Ind.
  Variable m : bool.
  Variable n : nat.
  Notation mv t := (mapl (aff m t)).
  Notation mx := (MoveFacts.mx m).
  Implicit Types (h l c o v : line V).

  Lemma neg_op (a b : line V) : fit n a -> fit n b -> mapl (aff true 0) (lsub b a) = lsub a b.
  Proof.
    intros A B. rewrite <- (mv_sub_same true 0 b a). unfold lsub at 2. rewrite (swap_op n vsub (fun x y => vsub y x) a b) by auto.
    apply fit_feeds in A, B. eapply delivers_same.
    - apply binop_delivers; apply feeds_mapl; eassumption.
    - apply binop_delivers; eassumption.
    - intros i _. cbv beta. apply aff_true_sub.
  Qed.
  (** the range of a bar does not depend on the level, nor on the direction *)
  Lemma sub_range t (a b : line V) : fit n a -> fit n b -> lsub (mv t (mx a b)) (mv t (mx b a)) = lsub a b.
  Proof.
    intros A B. rewrite mv_sub_same. unfold MoveFacts.mx. destruct m; [now apply neg_op|apply mapl_id].
  Qed.
  Lemma add_pair t (a b : line V) : fit n a -> fit n b -> ladd (mv t (mx a b)) (mv t (mx b a)) = mv (t + t) (ladd a b).
  Proof.
    intros A B. rewrite mv_add. f_equal. unfold MoveFacts.mx. destruct m; [now apply add_comm with n|reflexivity].
  Qed.

  Lemma mv_medprice t d h l : d <> 0 -> fit n h -> fit n l ->
    medprice (Fin d) (mv t (mx h l)) (mv t (mx l h)) = mv ((t + t) / d) (medprice (Fin d) h l).
  Proof. intros D H L. unfold medprice. rewrite add_pair by assumption. now apply mv_div_s. Qed.
  Lemma mv_typprice t d h l c : d <> 0 -> fit n h -> fit n l ->
    typprice (Fin d) (mv t (mx h l)) (mv t (mx l h)) (mv t c) = mv ((t + t + t) / d) (typprice (Fin d) h l c).
  Proof. intros D H L. unfold typprice. rewrite add_pair by assumption. rewrite mv_add. now apply mv_div_s. Qed.
  Lemma mv_wclprice t w d h l c : d <> 0 -> fit n h -> fit n l ->
    wclprice (Fin w) (Fin d) (mv t (mx h l)) (mv t (mx l h)) (mv t c) = mv ((t + t + t * w) / d) (wclprice (Fin w) (Fin d) h l c).
  Proof. intros D H L. unfold wclprice. rewrite add_pair by assumption. rewrite mv_mul_s, mv_add. now apply mv_div_s. Qed.
  Lemma mv_avgprice t d o h l c : d <> 0 -> fit n o -> fit n h -> fit n l ->
    avgprice (Fin d) (mv t o) (mv t (mx h l)) (mv t (mx l h)) (mv t c) = mv ((t + t + t + t) / d) (avgprice (Fin d) o h l c).
  Proof.
    intros D O H L. unfold avgprice. rewrite !mv_add, mv_div_s by assumption. do 3 f_equal. unfold MoveFacts.mx.
    destruct m; [now apply add_swap with n|reflexivity].
  Qed.
  Lemma mv_highest t p h l : max_ind p (mv t (mx h l)) = mv t (mx (max_ind p h) (min_ind p l)).
  Proof. rewrite mv_max. unfold MoveFacts.mx. now destruct m. Qed.
  Lemma mv_lowest t p h l : min_ind p (mv t (mx l h)) = mv t (mx (min_ind p l) (max_ind p h)).
  Proof. rewrite mv_min. unfold MoveFacts.mx. now destruct m. Qed.
  Lemma mv_midprice t p h l : (1 <= p)%nat -> fit n h -> fit n l ->
    midprice p (mv t (mx h l)) (mv t (mx l h)) = mv t (midprice p h l).
  Proof.
    intros P H L. unfold midprice. rewrite mv_highest, mv_lowest, add_pair, vofZ_fin, mv_div_s by (fits || lra).
    f_equal. f_equal. field.
  Qed.

  Lemma mv_macd_from t fast slow masig ps c :
    (forall a, fast (mv t a) = converted (mv t) (fast a)) -> (forall a, slow (mv t a) = converted (mv t) (slow a)) ->
    (forall a, masig ps (mv 0 a) = converted (mv 0) (masig ps a)) ->
    macd_from fast slow masig ps (mv t c) =
      converted (fun r => (mv 0 (fst (fst r)), mv 0 (snd (fst r)), mv 0 (snd r))) (macd_from fast slow masig ps c).
  Proof.
    intros F S G. unfold macd_from. rewrite F. destruct (fast c) as [x|]; [|reflexivity]. cbn [bind converted].
    rewrite S. destruct (slow c) as [y|]; [|reflexivity]. cbn [bind converted].
    rewrite mv_sub_same, G. destruct (masig ps (lsub x y)) as [z|]; [|reflexivity]. cbn [bind converted fst snd].
    now rewrite mv_sub_same.
  Qed.
  Lemma mv_apo t ma pf ps c : follows m t ma pf -> follows m t ma ps ->
    apo ma pf ps (mv t c) = converted (mv 0) (apo ma pf ps c).
  Proof.
    intros F S. unfold apo, posc. rewrite F. destruct (ma pf c) as [x|]; [|reflexivity]. cbn [bind converted].
    rewrite S. destruct (ma ps c) as [y|]; [|reflexivity]. cbn [bind converted fst snd]. now rewrite mv_sub_same.
  Qed.

  (** ** crossings *)
  Lemma mv_idiff t s (a b : line V) : cross_idiff s (mv t a) (mv t b) = mv 0 (cross_idiff s a b).
  Proof.
    unfold cross_idiff. rewrite mv_sub_same, mv_shift. destruct s; [reflexivity|]. apply mv0_repl0.
  Qed.
  Lemma mv_lt0 (a : line V) : cmpop_s vltb (mv 0 a) v0 = cmpop_s (fun x y => mx (vltb x y) (vltb y x)) a v0.
  Proof.
    apply g_cmpop_s. intro x. rewrite <- (aff0_0 m) at 1. rewrite aff_ltb. reflexivity.
  Qed.
  Lemma mv_gt0 (a : line V) : cmpop_s (fun x y => vltb y x) (mv 0 a) v0 = cmpop_s (fun x y => mx (vltb y x) (vltb x y)) a v0.
  Proof.
    apply g_cmpop_s. intro x. rewrite <- (aff0_0 m) at 1. rewrite aff_ltb. reflexivity.
  Qed.
  Lemma mv_lt t (a b : line V) : cmpop vltb (mv t a) (mv t b) = cmpop (fun x y => mx (vltb x y) (vltb y x)) a b.
  Proof. apply g_cmpop. intros x y. rewrite aff_ltb. reflexivity. Qed.
  Lemma mv_gt t (a b : line V) :
    cmpop (fun x y => vltb y x) (mv t a) (mv t b) = cmpop (fun x y => mx (vltb y x) (vltb x y)) a b.
  Proof. apply g_cmpop. intros x y. rewrite aff_ltb. reflexivity. Qed.
  Lemma mv_up t s (a b : line V) : cross_up s (mv t a) (mv t b) = mx cross_up cross_down s a b.
  Proof. unfold cross_up, cross_down. rewrite mv_idiff, mv_lt0, mv_gt. unfold MoveFacts.mx. now destruct m. Qed.
  Lemma mv_down t s (a b : line V) : cross_down s (mv t a) (mv t b) = mx cross_down cross_up s a b.
  Proof. unfold cross_up, cross_down. rewrite mv_idiff, mv_gt0, mv_lt. unfold MoveFacts.mx. now destruct m. Qed.
End Ind.
