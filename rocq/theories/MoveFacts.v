(** Prices moved by a constant or mirrored at a level: single values, lists and the operations
    of Line.v.  [aff false t] adds [t], [aff true t] subtracts from [t]. *)
From Coq Require Import ZArith QArith List Bool Reals Lia Lra.
From Verif Require Import Num Series Line LineFacts RSpec RFacts StatFacts UnitSpec UnitFacts MoveSpec.
Import ListNotations.
Local Open Scope R_scope.
Arguments skipn : simpl never.
Arguments firstn : simpl never.
Local Notation V := (ext R).

Definition aff (m : bool) (t : R) (x : V) : V := if m then vsub (Fin t) x else vadd (Fin t) x.

(** ** single values *)
Ltac fin_eq := repeat match goal with |- Fin _ = Fin _ => f_equal end.
Lemma aff_fin m t a : aff m t (Fin a) = Fin (if m then t - a else t + a).
Proof. now destruct m. Qed.
Lemma aff_nan m t : aff m t vnan = vnan. Proof. now destruct m. Qed.
Lemma aff_id x : aff false 0 x = x.
Proof. destruct x; cbn; try reflexivity. now rewrite Rplus_0_l. Qed.
Lemma aff_isnan m t x : visnan (aff m t x) = visnan x. Proof. now destruct m, x. Qed.
Lemma aff_prep m t x : prep (aff m t x) = aff m t (prep x). Proof. now destruct m, x. Qed.
Lemma aff_add m t t' x y : vadd (aff m t x) (aff m t' y) = aff m (t + t') (vadd x y).
Proof. destruct m, x, y; cbn; try reflexivity; f_equal; ring. Qed.
Lemma aff_sub m t t' x y : vsub (aff m t x) (aff m t' y) = aff m (t - t') (vsub x y).
Proof. destruct m, x, y; cbn; try reflexivity; f_equal; ring. Qed.
Lemma aff_add_r m t x y : vadd (aff m t x) (aff m 0 y) = aff m t (vadd x y).
Proof. rewrite aff_add. now rewrite Rplus_0_r. Qed.
Lemma aff_sub_same m t x y : vsub (aff m t x) (aff m t y) = aff m 0 (vsub x y).
Proof. rewrite aff_sub. f_equal. ring. Qed.
Lemma Rltb_opp a b : Rltb (- a) (- b) = Rltb b a.
Proof. destruct (Rltb_spec b a); [apply Rltb_true|apply Rltb_false]; lra. Qed.
Lemma inf_signed_opp a : inf_signed (0 - a) = inf_opp a.
Proof.
  unfold inf_signed, inf_opp, bpos, bneg, b0. cbn.
  destruct (Rltb_spec 0 (0 - a)), (Rltb_spec 0 a), (Rltb_spec a 0), (Rltb_spec (0 - a) 0); try reflexivity; lra.
Qed.
Lemma inf_opp_opp a : inf_opp (0 - a) = inf_signed a.
Proof.
  unfold inf_signed, inf_opp, bpos, bneg, b0. cbn.
  destruct (Rltb_spec 0 (0 - a)), (Rltb_spec 0 a), (Rltb_spec a 0), (Rltb_spec (0 - a) 0); try reflexivity; lra.
Qed.
Lemma aff_inf_signed m t a : aff m t (inf_signed a) = if m then inf_opp a else inf_signed a.
Proof. unfold inf_signed, inf_opp. destruct m, (bpos a), (bneg a); reflexivity. Qed.
Lemma aff_inf_opp m t a : aff m t (inf_opp a) = if m then inf_signed a else inf_opp a.
Proof. unfold inf_signed, inf_opp. destruct m, (bpos a), (bneg a); reflexivity. Qed.
Lemma bneg_spec a : BoolSpec (a < 0) (0 <= a) (bneg a).
Proof. apply Rltb_spec. Qed.

(** a factor: any number if nothing is added, a finite one otherwise *)
Lemma aff0_mul m x c : vmul (aff m 0 x) c = aff m 0 (vmul x c).
Proof.
  destruct m; [|now rewrite !aff_id].
  destruct x as [| | |a], c as [| | |b]; cbn -[inf_signed inf_opp]; try reflexivity;
    rewrite ?inf_signed_opp, ?inf_opp_opp; try (symmetry; first [apply (aff_inf_signed true 0)|apply (aff_inf_opp true 0)]).
  f_equal. ring.
Qed.
Lemma vmul_comm (x y : V) : vmul x y = vmul y x.
Proof. destruct x, y; cbn; try reflexivity. f_equal. apply Rmult_comm. Qed.
Lemma vadd_comm (x y : V) : vadd x y = vadd y x.
Proof. destruct x, y; cbn; try reflexivity. f_equal. apply Rplus_comm. Qed.
Lemma aff0_mul_r m x c : vmul c (aff m 0 x) = aff m 0 (vmul c x).
Proof. rewrite (vmul_comm c (aff m 0 x)), (vmul_comm c x). apply aff0_mul. Qed.
Lemma aff0_div m x c : vdiv (aff m 0 x) c = aff m 0 (vdiv x c).
Proof.
  destruct m; [|now rewrite !aff_id].
  destruct x as [| | |a], c as [| | |b]; cbn -[inf_signed inf_opp beqb bneg]; try reflexivity.
  - now destruct (bneg b).
  - now destruct (bneg b).
  - f_equal. ring.
  - f_equal. ring.
  - destruct (beqb b (IZR 0)); [rewrite inf_signed_opp; symmetry; apply (aff_inf_signed true 0)|].
    cbn. f_equal. unfold Rdiv. ring.
Qed.
Lemma aff_mul m t x c : vmul (aff m t x) (Fin c) = aff m (t * c) (vmul x (Fin c)).
Proof.
  destruct m, x as [| | |a]; cbn -[inf_signed inf_opp]; try reflexivity;
    try (symmetry; first [apply (aff_inf_signed true)|apply (aff_inf_opp true)|apply (aff_inf_signed false)|apply (aff_inf_opp false)]);
    f_equal; ring.
Qed.
Lemma aff_mul_r m t x c : vmul (Fin c) (aff m t x) = aff m (c * t) (vmul (Fin c) x).
Proof. rewrite (vmul_comm _ (aff m t x)), (vmul_comm _ x), aff_mul. f_equal. ring. Qed.
Lemma aff_div m t x c : c <> 0 -> vdiv (aff m t x) (Fin c) = aff m (t / c) (vdiv x (Fin c)).
Proof.
  intro H. destruct x as [| | |a].
  - now destruct m.
  - destruct m; cbn -[bneg]; now destruct (bneg c).
  - destruct m; cbn -[bneg]; now destruct (bneg c).
  - rewrite aff_fin, !vdiv_fin, aff_fin by assumption. f_equal. destruct m; field; exact H.
Qed.
Lemma aff_ltb m t x y : vltb (aff m t x) (aff m t y) = if m then vltb y x else vltb x y.
Proof.
  destruct m, x as [| | |a], y as [| | |b]; cbn; try reflexivity.
  - destruct (Rltb_spec b a); [apply Rltb_true|apply Rltb_false]; lra.
  - destruct (Rltb_spec a b); [apply Rltb_true|apply Rltb_false]; lra.
Qed.
Lemma aff_eqb m t x y : veqb (aff m t x) (aff m t y) = veqb x y.
Proof.
  destruct m, x as [| | |a], y as [| | |b]; cbn -[beqb]; try reflexivity.
  - destruct (beqb_spec a b), (beqb_spec (t - a) (t - b)); try reflexivity; lra.
  - destruct (beqb_spec a b), (beqb_spec (t + a) (t + b)); try reflexivity; lra.
Qed.
Lemma veqb_sym (x y : V) : veqb x y = veqb y x.
Proof. destruct x as [| | |a], y as [| | |b]; cbn -[beqb]; try reflexivity. unfold beqb. apply andb_comm. Qed.
Lemma aff_leb m t x y : vleb (aff m t x) (aff m t y) = if m then vleb y x else vleb x y.
Proof.
  change (vltb (aff m t x) (aff m t y) || veqb (aff m t x) (aff m t y) =
          if m then vltb y x || veqb y x else vltb x y || veqb x y).
  rewrite aff_ltb, aff_eqb. destruct m; [|reflexivity]. now rewrite (veqb_sym x y).
Qed.
Lemma aff0_0 m : aff m 0 v0 = v0.
Proof. destruct m; cbn; f_equal; ring. Qed.
Lemma aff0_abs m x : vabs (aff m 0 x) = vabs x.
Proof.
  destruct m; [|now rewrite aff_id]. destruct x as [| | |a]; try reflexivity.
  rewrite aff_fin, !vabs_fin. f_equal. rewrite <- (Rabs_Ropp a). f_equal. ring.
Qed.
Lemma neg_sub x y : aff true 0 (vsub x y) = vsub y x.
Proof. destruct x, y; cbn; try reflexivity. f_equal. ring. Qed.
Lemma aff_true_sub t x y : vsub (aff true t x) (aff true t y) = vsub y x.
Proof. now rewrite aff_sub_same, neg_sub. Qed.
Lemma aff_false_sub t x y : vsub (aff false t x) (aff false t y) = vsub x y.
Proof. now rewrite aff_sub_same, aff_id. Qed.

(** ** lists *)
Definition fins (l : list V) : Prop := exists r, l = map (@Fin R) r.
Lemma fins_of l : existsb visnan (map prep l) = false -> fins (map prep l).
Proof.
  induction l as [|x l IH]; cbn [map existsb]; intro H; [now exists []|].
  apply orb_false_iff in H. destruct H as [A B]. destruct (IH B) as (r & ->).
  destruct x as [| | |a]; try discriminate. now exists (a :: r).
Qed.
Definition af (m : bool) (t a : R) : R := if m then t - a else t + a.
Lemma map_aff_fin m t r : map (aff m t) (map (@Fin R) r) = map (@Fin R) (map (af m t) r).
Proof. rewrite !map_map. apply map_ext. intro a. apply aff_fin. Qed.
Lemma Rsum_af m t r : Rsum (map (af m t) r) = af m (t * INR (length r)) (Rsum r).
Proof.
  induction r as [|a r IH]; cbn [map length].
  - destruct m; cbn; ring.
  - rewrite !Rsum_cons, IH, S_INR. destruct m; unfold af; ring.
Qed.
Lemma INR_len {A} (x : A) l : INR (length (x :: l)) <> 0.
Proof. apply not_0_INR. cbn. lia. Qed.

Section Lists.
  Variables (m : bool) (t : R).
  Notation A_ := (map (aff m t)).
  Implicit Types l s : list V.

  Lemma aff_fold l : forall (a : V) (s0 : R), fold_left vadd (A_ l) (aff m s0 a) = aff m (s0 + t * INR (length l)) (fold_left vadd l a).
  Proof.
    induction l as [|x l IH]; intros a s0; cbn [fold_left map length].
    - f_equal. cbn. ring.
    - rewrite aff_add, IH. f_equal. rewrite S_INR. ring.
  Qed.
  Lemma aff_vsum l : vsum (A_ l) = aff m (t * INR (length l)) (vsum l).
  Proof. unfold vsum. rewrite <- (aff0_0 m) at 1. rewrite aff_fold. now rewrite Rplus_0_l. Qed.
  Lemma aff_notnan l : notnan (A_ l) = A_ (notnan l).
  Proof. unfold notnan. induction l as [|x l IH]; cbn [map filter]; [reflexivity|]. rewrite aff_isnan. destruct (visnan x); cbn [negb map]; now rewrite IH. Qed.
  Lemma aff_preps l : map prep (A_ l) = A_ (map prep l).
  Proof. rewrite !map_map. apply map_ext. intro x. apply aff_prep. Qed.
  Lemma aff_nans l : existsb visnan (A_ l) = existsb visnan l.
  Proof. rewrite existsb_map. apply existsb_ext. intro x. apply aff_isnan. Qed.
  Lemma aff_quot l : vdiv (vsum (A_ l)) (vofZ (Z.of_nat (length l))) = aff m t (vdiv (vsum l) (vofZ (Z.of_nat (length l)))).
  Proof.
    destruct l as [|x l]; [cbn [map length]; change (vsum (@nil V)) with (Fin 0); rewrite vofZ_fin; cbn [Z.of_nat];
      rewrite vdiv_fin0, inf_signed0; now destruct m|].
    rewrite aff_vsum, vofZ_fin, IZR_nat, aff_div by apply INR_len. f_equal. field. apply INR_len.
  Qed.
  Lemma aff_win_mean l : win_mean (A_ l) = aff m t (win_mean l).
  Proof. unfold win_mean. rewrite map_length. apply aff_quot. Qed.
  Lemma aff_ser_mean l : ser_mean (A_ l) = aff m t (ser_mean l).
  Proof.
    unfold ser_mean. rewrite aff_notnan. destruct (notnan l) as [|x k]; [symmetry; apply aff_nan|].
    cbn [map]. change (aff m t x :: A_ k) with (A_ (x :: k)). rewrite map_length. apply aff_quot.
  Qed.
  Lemma aff_shift s p : ser_shift (A_ s) p = A_ (ser_shift s p).
  Proof.
    unfold ser_shift. rewrite map_length. destruct (p <? 0)%Z; rewrite map_app, map_repeat', aff_nan.
    - now rewrite skipn_map.
    - now rewrite firstn_map.
  Qed.
  Lemma aff_diff s p : ser_diff (A_ s) p = map (aff m 0) (ser_diff s p).
  Proof. unfold ser_diff. rewrite aff_shift, map2_map, map_map2. apply map2_ext. intros. apply aff_sub_same. Qed.
  (** a mirror exchanges the larger and the smaller *)
  Definition mx {A} (a b : A) : A := if m then b else a.
  Lemma aff_vmax x y : vmax2 (aff m t x) (aff m t y) = aff m t (mx vmax2 vmin2 x y).
  Proof. unfold vmax2, mx, vmin2. rewrite aff_ltb. destruct m; [now destruct (vltb y x)|now destruct (vltb x y)]. Qed.
  Lemma aff_vmin x y : vmin2 (aff m t x) (aff m t y) = aff m t (mx vmin2 vmax2 x y).
  Proof. unfold vmax2, mx, vmin2. rewrite aff_ltb. destruct m; [now destruct (vltb x y)|now destruct (vltb y x)]. Qed.
  Lemma aff_foldop (op op' : V -> V -> V) : (forall x y, op (aff m t x) (aff m t y) = aff m t (op' x y)) ->
    forall l a, fold_left op (A_ l) (aff m t a) = aff m t (fold_left op' l a).
  Proof. intros H l. induction l as [|x l IH]; intro a; [reflexivity|]. cbn [fold_left map]. now rewrite H, IH. Qed.
  Lemma aff_win_max l : win_max (A_ l) = aff m t (mx (win_max l) (win_min l)).
  Proof.
    destruct l as [|x l]; [unfold mx; cbn [map win_max win_min]; now destruct m|]. cbn [map win_max win_min].
    rewrite (aff_foldop vmax2 (mx vmax2 vmin2)) by exact aff_vmax. unfold mx. now destruct m.
  Qed.
  Lemma aff_win_min l : win_min (A_ l) = aff m t (mx (win_min l) (win_max l)).
  Proof.
    destruct l as [|x l]; [unfold mx; cbn [map win_max win_min]; now destruct m|]. cbn [map win_max win_min].
    rewrite (aff_foldop vmin2 (mx vmin2 vmax2)) by exact aff_vmin. unfold mx. now destruct m.
  Qed.
  Lemma aff_argbest (better better' : V -> V -> bool) : (forall x y, better (aff m t x) (aff m t y) = better' x y) ->
    forall l b bi i, argbest_from better (aff m t b) bi i (A_ l) = argbest_from better' b bi i l.
  Proof.
    intros H l. induction l as [|x l IH]; intros b bi i; [reflexivity|]. cbn [argbest_from map]. rewrite H.
    destruct (better' b x); apply IH.
  Qed.
  Lemma aff_argmax l : argmax (A_ l) = mx argmax argmin l.
  Proof.
    destruct l as [|x l]; [unfold mx; now destruct m|]. unfold mx, argmax, argmin; cbn [map].
    rewrite (aff_argbest _ (fun b y => if m then vltb y b else vltb b y)) by (intros; apply aff_ltb). now destruct m.
  Qed.
  Lemma aff_argmin l : argmin (A_ l) = mx argmin argmax l.
  Proof.
    destruct l as [|x l]; [unfold mx; now destruct m|]. unfold mx, argmax, argmin; cbn [map].
    rewrite (aff_argbest _ (fun b y => if m then vltb b y else vltb y b)) by (intros; apply aff_ltb). now destruct m.
  Qed.
  Lemma aff_clip_lo b x : clip_lo (aff m t b) (aff m t x) = aff m t (mx clip_lo clip_hi b x).
  Proof.
    unfold clip_lo, clip_hi, mx. rewrite aff_isnan, aff_leb. destruct m.
    - destruct (visnan x); [reflexivity|]. now destruct (vleb x b).
    - destruct (visnan x); [reflexivity|]. now destruct (vleb b x).
  Qed.
  Lemma aff_clip_hi b x : clip_hi (aff m t b) (aff m t x) = aff m t (mx clip_hi clip_lo b x).
  Proof.
    unfold clip_lo, clip_hi, mx. rewrite aff_isnan, aff_leb. destruct m.
    - destruct (visnan x); [reflexivity|]. now destruct (vleb b x).
    - destruct (visnan x); [reflexivity|]. now destruct (vleb x b).
  Qed.

  (** exponential averages: the weights of a step have a positive sum *)
  Lemma aff_mix wa x o nw : 0 < o + nw ->
    vdiv (vadd (vmul (Fin o) (aff m t wa)) (vmul (Fin nw) (aff m t x))) (vadd (Fin o) (Fin nw)) =
    aff m t (vdiv (vadd (vmul (Fin o) wa) (vmul (Fin nw) x)) (vadd (Fin o) (Fin nw))).
  Proof.
    intro H. rewrite !aff_mul_r, aff_add, vadd_fin, aff_div by lra. f_equal. field. lra.
  Qed.
  Lemma aff_ewma al adj s : 0 < al <= 1 -> forall wa o, 0 <= o ->
    ewma_from (Fin al) adj (aff m t wa) (Fin o) (A_ s) = A_ (ewma_from (Fin al) adj wa (Fin o) s).
  Proof.
    intro H. induction s as [|x s IH]; intros wa o Ho; [reflexivity|]. cbn [ewma_from map]. rewrite !aff_isnan, aff_eqb.
    rewrite v1_fin, vsub_fin, vmul_fin. assert (Ho' : 0 <= o * (1 - al)) by (apply Rmult_le_pos; lra).
    assert (M : vdiv (vadd (vmul (Fin (o * (1 - al))) (aff m t wa)) (vmul (if adj then Fin 1 else Fin al) (aff m t x)))
                  (vadd (Fin (o * (1 - al))) (if adj then Fin 1 else Fin al)) =
                aff m t (vdiv (vadd (vmul (Fin (o * (1 - al))) wa) (vmul (if adj then Fin 1 else Fin al) x))
                  (vadd (Fin (o * (1 - al))) (if adj then Fin 1 else Fin al)))).
    { destruct adj; apply aff_mix; lra. }
    destruct (visnan wa).
    - destruct (visnan x); cbn [map]; f_equal; now apply IH.
    - destruct (visnan x); cbn [map]; [f_equal; now apply IH|].
      destruct (veqb wa x); [|rewrite M]; cbn [map]; f_equal; destruct adj; rewrite ?vadd_fin; apply IH; lra.
  Qed.
  Lemma aff_ser_ewma al adj s : 0 < al <= 1 -> ser_ewma (Fin al) adj (A_ s) = A_ (ser_ewma (Fin al) adj s).
  Proof. intro H. unfold ser_ewma. rewrite aff_preps. destruct (map prep s) as [|x k]; [reflexivity|]. cbn [map]. rewrite v1_fin, aff_ewma by lra. reflexivity. Qed.
  Lemma aff_dyn_from al s : forall x, dyn_from (aff m t x) al (A_ s) = converted A_ (dyn_from x al s).
  Proof.
    revert s. induction al as [|a al IH]; intros s x; [reflexivity|]. destruct s as [|y s]; [reflexivity|].
    cbn [dyn_from map]. rewrite aff_sub_same, aff0_mul_r, aff_add_r, IH. destruct (dyn_from _ al s); reflexivity.
  Qed.
  Lemma aff_dyn al s : dyn_mean al (A_ s) = converted A_ (dyn_mean al s).
  Proof.
    unfold dyn_mean. rewrite aff_preps. destruct (map prep s) as [|x k]; [reflexivity|]. cbn [map].
    rewrite aff_dyn_from. destruct (dyn_from x al k); cbn [bind converted map]; [|reflexivity]. now rewrite aff_nan.
  Qed.
End Lists.
Lemma aff0_cumsum m s : forall a, cumsum_from (aff m 0 a) (map (aff m 0) s) = map (aff m 0) (cumsum_from a s).
Proof.
  induction s as [|x s IH]; intro a; [reflexivity|]. cbn [cumsum_from map]. rewrite aff_isnan.
  destruct (visnan x); cbn [map]; [now rewrite aff_nan, IH|]. rewrite aff_add_r. now rewrite IH.
Qed.
Lemma aff0_ser_cumsum m s : ser_cumsum (map (aff m 0) s) = map (aff m 0) (ser_cumsum s).
Proof. unfold ser_cumsum. rewrite <- (aff0_0 m) at 1. apply aff0_cumsum. Qed.
Lemma aff0_eqb m x : veqb (aff m 0 x) v0 = veqb x v0.
Proof. rewrite <- (aff0_0 m) at 1. apply aff_eqb. Qed.
Lemma aff0_repl0 m s : forall a, repl0_from (option_map (aff m 0) a) (map (aff m 0) s) = map (aff m 0) (repl0_from a s).
Proof.
  induction s as [|x s IH]; intro a; [reflexivity|]. cbn [repl0_from map]. rewrite aff0_eqb.
  destruct (veqb x v0).
  - destruct a as [y|]; cbn [option_map map]; f_equal; [apply (IH (Some y))|apply (IH None)].
  - cbn [map]. f_equal. apply (IH (Some x)).
Qed.

(** ** lines: any functions of the values *)
Definition mapl (f : V -> V) (l : line V) : line V := mkLine (lmp l) (map f (lser l)).
Lemma mapl_bars f l : bars (mapl f l) = bars l.
Proof. unfold bars. cbn. apply map_length. Qed.
Lemma k_preps (k : V -> V) (K : forall x, prep (k x) = k (prep x)) l : map prep (map k l) = map k (map prep l).
Proof. rewrite !map_map. apply map_ext. exact K. Qed.
Lemma k_nans (k : V -> V) (K : forall x, visnan (k x) = visnan x) l : existsb visnan (map k l) = existsb visnan l.
Proof. rewrite existsb_map. apply existsb_ext. exact K. Qed.
Section Ops.
  Variables (f g h : V -> V).
  Hypothesis Hh : h vnan = vnan.

  Lemma h_nans n i (r : list V) : set_from (nans n) i (map h r) = map h (set_from (nans n) i r).
  Proof. rewrite <- set_from_map. unfold nans. now rewrite map_repeat', Hh. Qed.
  Lemma g_stdop F F' a : (forall s, F' (map f s) = map h (F s)) -> stdop F' (mapl f a) = mapl h (stdop F a).
  Proof. intro H. unfold stdop. rewrite mapl_bars. cbn [lser lmp mapl]. rewrite slice_from_map, H, h_nans. reflexivity. Qed.
  Lemma g_mapop k k' a : (forall x, k' (f x) = h (k x)) -> mapop k' (mapl f a) = mapl h (mapop k a).
  Proof. intro H. apply g_stdop. intro s. rewrite !map_map. apply map_ext. exact H. Qed.
  Lemma g_binop op op' a b : (forall x y, op' (f x) (g y) = h (op x y)) ->
    binop op' (mapl f a) (mapl g b) = mapl h (binop op a b).
  Proof.
    intro H. unfold binop. rewrite mapl_bars. cbn [lser lmp mapl]. rewrite !slice_from_map, map2_map.
    rewrite (map2_ext _ (fun x y => h (op x y))) by exact H. rewrite <- map_map2, h_nans. reflexivity.
  Qed.
  Lemma g_binop_s op op' a c c' : (forall x, op' (f x) c' = h (op x c)) ->
    binop_s op' (mapl f a) c' = mapl h (binop_s op a c).
  Proof.
    intro H. unfold binop_s. rewrite mapl_bars. cbn [lser lmp mapl]. rewrite !slice_from_map, map_map.
    rewrite (map_ext _ (fun x => h (op x c))) by exact H. rewrite <- map_map, h_nans. reflexivity.
  Qed.
  Lemma g_rbinop_s op op' a c c' : (forall x, op' c' (f x) = h (op c x)) ->
    rbinop_s op' c' (mapl f a) = mapl h (rbinop_s op c a).
  Proof.
    intro H. unfold rbinop_s. rewrite mapl_bars. cbn [lser lmp mapl]. rewrite !slice_from_map, map_map.
    rewrite (map_ext _ (fun x => h (op c x))) by exact H. rewrite <- map_map, h_nans. reflexivity.
  Qed.
  Lemma g_stdop2 F F' a b : (forall s t, F' (map f s) (map g t) = map h (F s t)) ->
    stdop2 F' (mapl f a) (mapl g b) = mapl h (stdop2 F a b).
  Proof. intro H. unfold stdop2. rewrite mapl_bars. cbn [lser lmp mapl]. rewrite !slice_from_map, H, h_nans. reflexivity. Qed.
  Lemma g_kwop F F' a p : (forall s, F' (map f s) p = map h (F s p)) -> kwop_p F' (mapl f a) p = mapl h (kwop_p F a p).
  Proof. intro H. unfold kwop_p. rewrite mapl_bars. cbn [lser lmp mapl]. rewrite !slice_from_map, H, h_nans. reflexivity. Qed.
  Lemma g_cmpop op op' a b : (forall x y, op' (f x) (g y) = op x y) -> cmpop op' (mapl f a) (mapl g b) = cmpop op a b.
  Proof.
    intro H. unfold cmpop. rewrite mapl_bars. cbn [lser lmp mapl]. rewrite !slice_from_map, map2_map.
    now rewrite (map2_ext _ op) by exact H.
  Qed.
  Lemma g_cmpop_s op op' a c c' : (forall x, op' (f x) c' = op x c) -> cmpop_s op' (mapl f a) c' = cmpop_s op a c.
  Proof.
    intro H. unfold cmpop_s. rewrite mapl_bars. cbn [lser lmp mapl]. rewrite !slice_from_map, map_map.
    now rewrite (map_ext _ (fun x => op x c)) by exact H.
  Qed.
  Lemma g_mul_b a b : (forall x y, vmul (f x) (vofbool y) = h (vmul x (vofbool y))) -> mul_b (mapl f a) b = mapl h (mul_b a b).
  Proof.
    intro H. unfold mul_b. rewrite mapl_bars. cbn [lser lmp mapl]. rewrite !slice_from_map.
    rewrite <- (map_id (slice_from (bser b) _)), map2_map.
    rewrite (map2_ext _ (fun x y => h (vmul x (vofbool y)))) by exact H.
    rewrite <- map_map2, h_nans. now rewrite map_id.
  Qed.
  Hypothesis Fp : forall x, prep (f x) = f (prep x).
  Hypothesis Fn : forall x, visnan (f x) = visnan x.
  Lemma f_preps l : map prep (map f l) = map f (map prep l).
  Proof. now apply k_preps. Qed.
  Lemma f_nans l : existsb visnan (map f l) = existsb visnan l.
  Proof. now apply k_nans. Qed.
  Lemma win_len {A} (s : list A) i p : (i < length s)%nat -> (S i <? p)%nat = false -> length (window s i p) = p.
  Proof. intros H E. apply Nat.ltb_ge in E. unfold window. rewrite firstn_length, skipn_length. lia. Qed.
  Lemma g_rolling p G G' a :
    (forall s, length s = p -> G' (map f (map (@Fin R) s)) = h (G (map (@Fin R) s))) ->
    rolling p G' (mapl f a) = mapl h (rolling p G a).
  Proof.
    intro H. unfold rolling. rewrite mapl_bars. cbn [lser lmp mapl]. rewrite slice_from_map.
    replace (ser_rolling p G' (map f (slice_from (lser a) (lmp a - 1)))) with
      (map h (ser_rolling p G (slice_from (lser a) (lmp a - 1)))); [now rewrite h_nans|].
    unfold ser_rolling. rewrite map_length, map_map. apply map_ext_in. intros i Hi. apply in_seq in Hi.
    destruct (S i <? p)%nat eqn:E; [now rewrite Hh|].
    rewrite window_map. unfold guard_win. rewrite f_preps, f_nans.
    destruct (existsb visnan _) eqn:B; [now rewrite Hh|]. destruct (fins_of _ B) as (r & Er). rewrite Er. symmetry. apply H.
    rewrite <- (map_length (@Fin R)), <- Er, map_length. apply win_len; [lia|exact E].
  Qed.
  Hypothesis Gp : forall x, prep (g x) = g (prep x).
  Hypothesis Gn : forall x, visnan (g x) = visnan x.
  Lemma g_rolling2 p G G' a b :
    length (lser a) = length (lser b) ->
    (forall s u, length s = p -> length u = p ->
       G' (map f (map (@Fin R) s)) (map g (map (@Fin R) u)) = h (G (map (@Fin R) s) (map (@Fin R) u))) ->
    rolling2 p G' (mapl f a) (mapl g b) = mapl h (rolling2 p G a b).
  Proof.
    intros L H. unfold rolling2. rewrite mapl_bars. cbn [lser lmp mapl]. rewrite !slice_from_map, map_length.
    unfold mapl, clone. cbn [lmp lser]. f_equal. rewrite <- h_nans, map_map. f_equal. apply map_ext_in. intros i Hi. apply in_seq in Hi.
    assert (L' : length (slice_from (lser a) (lmp a - 1)) = length (slice_from (lser b) (lmp a - 1))).
    { unfold slice_from. now rewrite !skipn_length, L. }
    destruct (S i <? p)%nat eqn:E; [now rewrite Hh|]. rewrite !window_map, !f_preps, !f_nans.
    rewrite (k_preps g Gp), (k_nans g Gn).
    destruct (existsb visnan (map prep (window (slice_from (lser a) _) i p))) eqn:A; [cbn [orb]; now rewrite Hh|].
    destruct (existsb visnan (map prep (window (slice_from (lser b) _) i p))) eqn:B; [cbn [orb]; now rewrite Hh|]. cbn [orb].
    destruct (fins_of _ A) as (r & Er), (fins_of _ B) as (u & Eu). rewrite Er, Eu. apply H.
    - rewrite <- (map_length (@Fin R)), <- Er, map_length. apply win_len; [lia|exact E].
    - rewrite <- (map_length (@Fin R)), <- Eu, map_length. apply win_len; [lia|exact E].
  Qed.
End Ops.
Notation moved m t := (mapl (aff m t)).
Lemma moved_raised t l : moved false t l = raised t l. Proof. reflexivity. Qed.
Lemma moved_mirrored t l : moved true t l = mirrored t l. Proof. reflexivity. Qed.
Lemma mapl_id l : mapl (aff false 0) l = l.
Proof.
  destruct l as [p s]. unfold mapl. cbn. f_equal. transitivity (map (fun x => x) s); [|apply map_id].
  apply map_ext. apply aff_id.
Qed.
