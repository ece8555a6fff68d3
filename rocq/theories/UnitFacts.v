(** Change of unit: the primitives of Series.v and Line.v. *)
From Coq Require Import ZArith List Bool Reals Lia Lra.
From Verif Require Import Num Series Line LineFacts RFacts UnitSpec IndMA IndBasic IndStat IndRange Apply IndSar.
Import ListNotations.
Local Open Scope R_scope.
Arguments skipn : simpl never.
Arguments firstn : simpl never.
Local Notation V := (ext R).

(** ** single values *)
Lemma Rltb_times u a b : 0 < u -> Rltb (u * a) (u * b) = Rltb a b.
Proof.
  intro H. destruct (Rltb_spec a b).
  - apply Rltb_true. now apply Rmult_lt_compat_l.
  - apply Rltb_false. apply Rmult_le_compat_l; lra.
Qed.
Lemma Rltb_times0 u a : 0 < u -> Rltb 0 (u * a) = Rltb 0 a.
Proof. intro H. rewrite <- (Rltb_times u 0 a H). now rewrite Rmult_0_r. Qed.
Lemma Rltb_times0' u a : 0 < u -> Rltb (u * a) 0 = Rltb a 0.
Proof. intro H. rewrite <- (Rltb_times u a 0 H). now rewrite Rmult_0_r. Qed.
Lemma inf_signed_times u a : 0 < u -> inf_signed (u * a) = inf_signed a.
Proof. intro H. unfold inf_signed, bpos, bneg, b0. cbn. now rewrite Rltb_times0, Rltb_times0'. Qed.
Lemma inf_opp_times u a : 0 < u -> inf_opp (u * a) = inf_opp a.
Proof. intro H. unfold inf_opp, bpos, bneg, b0. cbn. now rewrite Rltb_times0, Rltb_times0'. Qed.

Section One.
  Variable u : R.
  Hypothesis Hu : 0 < u.
  Implicit Types x y c : V.

  Lemma times_nan : times u vnan = vnan. Proof. reflexivity. Qed.
  Lemma times_0 : times u v0 = v0. Proof. cbn. now rewrite Rmult_0_r. Qed.
  Lemma times_add x y : vadd (times u x) (times u y) = times u (vadd x y).
  Proof. destruct x, y; cbn; try reflexivity. f_equal. ring. Qed.
  Lemma times_sub x y : vsub (times u x) (times u y) = times u (vsub x y).
  Proof. destruct x, y; cbn; try reflexivity. f_equal. ring. Qed.
  Lemma inf_signed_out a : times u (inf_signed a) = inf_signed a.
  Proof. unfold inf_signed. destruct (bpos a), (bneg a); reflexivity. Qed.
  Lemma inf_opp_out a : times u (inf_opp a) = inf_opp a.
  Proof. unfold inf_opp. destruct (bpos a), (bneg a); reflexivity. Qed.
  Lemma times_abs x : vabs (times u x) = times u (vabs x).
  Proof.
    destruct x as [| | |a]; try reflexivity. cbn. unfold bneg, b0. cbn. rewrite Rltb_times0' by assumption.
    destruct (Rltb a 0); f_equal. ring.
  Qed.
  Lemma times_ltb x y : vltb (times u x) (times u y) = vltb x y.
  Proof. destruct x, y; cbn; try reflexivity. now apply Rltb_times. Qed.
  Lemma times_eqb x y : veqb (times u x) (times u y) = veqb x y.
  Proof. destruct x, y; cbn; try reflexivity. unfold beqb. cbn. now rewrite !Rltb_times. Qed.
  Lemma times_leb x y : vleb (times u x) (times u y) = vleb x y.
  Proof.
    change (vltb (times u x) (times u y) || veqb (times u x) (times u y) = vltb x y || veqb x y).
    now rewrite times_ltb, times_eqb.
  Qed.
  Lemma times_ltb0 x : vltb (times u x) v0 = vltb x v0.
  Proof. rewrite <- (times_ltb x v0). now rewrite times_0. Qed.
  Lemma times_0ltb x : vltb v0 (times u x) = vltb v0 x.
  Proof. rewrite <- (times_ltb v0 x). now rewrite times_0. Qed.
  Lemma times_eqb0 x : veqb (times u x) v0 = veqb x v0.
  Proof. rewrite <- (times_eqb x v0). now rewrite times_0. Qed.
  Lemma times_isnan x : visnan (times u x) = visnan x. Proof. now destruct x. Qed.
  Lemma times_isinf x : visinf (times u x) = visinf x. Proof. now destruct x. Qed.
  Lemma times_prep x : prep (times u x) = times u (prep x). Proof. now destruct x. Qed.
End One.
Lemma times_1 x : times 1 x = x.
Proof. destruct x; cbn; try reflexivity. now rewrite Rmult_1_l. Qed.
Lemma times_mul u v x y : 0 < u -> 0 < v -> vmul (times u x) (times v y) = times (u * v) (vmul x y).
Proof.
  intros Hu Hv. destruct x, y; cbn -[inf_signed inf_opp]; try reflexivity;
    rewrite ?inf_signed_times, ?inf_opp_times, ?inf_signed_out, ?inf_opp_out by assumption; try reflexivity.
  f_equal. ring.
Qed.
Lemma times_div u v x y : 0 < u -> 0 < v -> vdiv (times u x) (times v y) = times (u / v) (vdiv x y).
Proof.
  intros Hu Hv. destruct x as [| | |a], y as [| | |b]; cbn -[inf_signed inf_opp beqb bneg]; try reflexivity.
  - unfold bneg, b0. cbn. rewrite Rltb_times0' by assumption. now destruct (Rltb b 0).
  - unfold bneg, b0. cbn. rewrite Rltb_times0' by assumption. now destruct (Rltb b 0).
  - f_equal. unfold b0. cbn. ring.
  - f_equal. unfold b0. cbn. ring.
  - unfold b0. cbn [bofZ BaseR]. destruct (beqb_spec b 0) as [->|Hb].
    + rewrite Rmult_0_r. destruct (beqb_spec 0 0); [|lra]. now rewrite inf_signed_times, inf_signed_out.
    + destruct (beqb_spec (v * b) 0) as [E|E].
      * exfalso. apply Rmult_integral in E. destruct E; lra.
      * cbn. f_equal. field. split; lra.
Qed.
Lemma times_mul_r u c x : 0 < u -> vmul c (times u x) = times u (vmul c x).
Proof. intro H. rewrite <- (times_1 c) at 1. rewrite times_mul by lra. now rewrite Rmult_1_l. Qed.
Lemma times_mul_l u c x : 0 < u -> vmul (times u x) c = times u (vmul x c).
Proof. intro H. rewrite <- (times_1 c) at 1. rewrite times_mul by lra. now rewrite Rmult_1_r. Qed.
Lemma times_div_s u c x : 0 < u -> vdiv (times u x) c = times u (vdiv x c).
Proof. intro H. rewrite <- (times_1 c) at 1. rewrite times_div by lra. f_equal. field. Qed.
Lemma times_ratio u x y : 0 < u -> vdiv (times u x) (times u y) = vdiv x y.
Proof. intro H. rewrite times_div by assumption. replace (u / u) with 1 by (field; lra). apply times_1. Qed.
Lemma times_times u v x : times u (times v x) = times (u * v) x.
Proof. destruct x; cbn; try reflexivity. f_equal. ring. Qed.

(** ** lists *)
Notation tl_ u := (map (times u)).
Lemma skipn_map' {A B} (f : A -> B) n l : skipn n (map f l) = map f (skipn n l).
Proof. apply skipn_map. Qed.
Lemma slice_lo_map {A B} (f : A -> B) l i : slice_lo (length (map f l)) i = slice_lo (length l) i.
Proof. now rewrite map_length. Qed.
Lemma slice_from_map {A B} (f : A -> B) l i : slice_from (map f l) i = map f (slice_from l i).
Proof. unfold slice_from. rewrite map_length. apply skipn_map. Qed.
Lemma slice_map {A B} (f : A -> B) l i j : slice (map f l) i j = map f (slice l i j).
Proof. unfold slice. rewrite map_length, skipn_map, firstn_map. reflexivity. Qed.
Lemma set_from_map {A B} (f : A -> B) s i r : set_from (map f s) i (map f r) = map f (set_from s i r).
Proof. unfold set_from. now rewrite map_length, firstn_map, map_app. Qed.
Lemma map_repeat' {A B} (f : A -> B) x n : map f (repeat x n) = repeat (f x) n.
Proof. induction n; cbn; congruence. Qed.
Lemma nans_map u n : nans n = tl_ u (nans n).
Proof. unfold nans. now rewrite map_repeat'. Qed.
Lemma set_nans u n i (r : list V) : set_from (nans n) i (tl_ u r) = tl_ u (set_from (nans n) i r).
Proof. rewrite (nans_map u n) at 1. apply set_from_map. Qed.
Lemma set_slice_map {A B} (f : A -> B) s i j v : set_slice (map f s) i j (f v) = map f (set_slice s i j v).
Proof. unfold set_slice. now rewrite map_length, !map_app, firstn_map, skipn_map, map_repeat'. Qed.
Lemma map2_map {A A' B B' C} (f : A -> A') (g : B -> B') (op : A' -> B' -> C) l m :
  map2 op (map f l) (map g m) = map2 (fun x y => op (f x) (g y)) l m.
Proof. revert m. induction l as [|x l IH]; intros [|y m]; cbn; try reflexivity. now rewrite IH. Qed.
Lemma map_map2 {A B C D} (f : C -> D) (op : A -> B -> C) l m :
  map f (map2 op l m) = map2 (fun x y => f (op x y)) l m.
Proof. revert m. induction l as [|x l IH]; intros [|y m]; cbn; try reflexivity. now rewrite IH. Qed.
Lemma map2_ext {A B C} (f g : A -> B -> C) l m : (forall x y, f x y = g x y) -> map2 f l m = map2 g l m.
Proof. intro H. revert m. induction l as [|x l IH]; intros [|y m]; cbn; try reflexivity. now rewrite H, IH. Qed.
Lemma window_map {A B} (f : A -> B) l i w : window (map f l) i w = map f (window l i w).
Proof. unfold window. now rewrite skipn_map, firstn_map. Qed.
Lemma existsb_map {A B} (f : A -> B) g l : existsb g (map f l) = existsb (fun x => g (f x)) l.
Proof. induction l; cbn; congruence. Qed.
Lemma existsb_ext {A} (f g : A -> bool) l : (forall x, f x = g x) -> existsb f l = existsb g l.
Proof. intro H. induction l; cbn; congruence. Qed.

Section Lists.
  Variable u : R.
  Hypothesis Hu : 0 < u.
  Implicit Types l s : list V.

  Lemma fold_add l a : fold_left vadd (tl_ u l) (times u a) = times u (fold_left vadd l a).
  Proof. revert a. induction l as [|x l IH]; intro a; cbn [fold_left map]; [reflexivity|]. now rewrite times_add, IH. Qed.
  Lemma t_vsum l : vsum (tl_ u l) = times u (vsum l).
  Proof. unfold vsum. rewrite <- (times_0 u) at 1. apply fold_add. Qed.
  Lemma t_notnan l : notnan (tl_ u l) = tl_ u (notnan l).
  Proof. unfold notnan. induction l as [|x l IH]; cbn [map filter]; [reflexivity|]. rewrite times_isnan. destruct (visnan x); cbn [negb map]; now rewrite IH. Qed.
  Lemma t_prep l : map prep (tl_ u l) = tl_ u (map prep l).
  Proof. rewrite !map_map. apply map_ext. intro x. apply times_prep. Qed.
  Lemma t_isnan l : existsb visnan (tl_ u l) = existsb visnan l.
  Proof. rewrite existsb_map. apply existsb_ext. intro x. apply times_isnan. Qed.
  Lemma t_ser_sum l : ser_sum (tl_ u l) = times u (ser_sum l).
  Proof. unfold ser_sum. now rewrite t_notnan, t_vsum. Qed.
  Lemma t_ser_mean l : ser_mean (tl_ u l) = times u (ser_mean l).
  Proof.
    unfold ser_mean. rewrite t_notnan. destruct (notnan l) as [|x m]; [reflexivity|].
    cbn [map]. change (times u x :: tl_ u m) with (tl_ u (x :: m)). rewrite t_vsum, map_length.
    now rewrite times_div_s.
  Qed.
  Lemma t_win_mean l : win_mean (tl_ u l) = times u (win_mean l).
  Proof. unfold win_mean. now rewrite t_vsum, map_length, times_div_s. Qed.
  Lemma t_shift s p : ser_shift (tl_ u s) p = tl_ u (ser_shift s p).
  Proof.
    unfold ser_shift. rewrite map_length. destruct (p <? 0)%Z; rewrite map_app, map_repeat'.
    - now rewrite skipn_map.
    - now rewrite firstn_map.
  Qed.
  Lemma t_diff s p : ser_diff (tl_ u s) p = tl_ u (ser_diff s p).
  Proof. unfold ser_diff. rewrite t_shift, map2_map, map_map2. apply map2_ext. intros. apply times_sub. Qed.
  Lemma t_ffill a s : ffill_from (times u a) (tl_ u s) = tl_ u (ffill_from a s).
  Proof. revert a. induction s as [|x s IH]; intro a; [reflexivity|]. cbn [ffill_from map]. rewrite times_isnan. destruct (visnan x); now rewrite IH. Qed.
  Lemma t_pct s p : ser_pct_change (tl_ u s) p = ser_pct_change s p.
  Proof.
    unfold ser_pct_change, ser_ffill.
    assert (E : ffill_from vnan (tl_ u s) = tl_ u (ffill_from vnan s)) by exact (t_ffill vnan s).
    rewrite E, t_shift, map2_map.
    f_equal. apply map2_ext. intros. now apply times_ratio.
  Qed.
  Lemma t_cumsum a s : cumsum_from (times u a) (tl_ u s) = tl_ u (cumsum_from a s).
  Proof.
    revert a. induction s as [|x s IH]; intro a; [reflexivity|]. cbn [cumsum_from map]. rewrite times_isnan.
    destruct (visnan x); cbn [map]; [now rewrite IH|]. now rewrite times_add, IH.
  Qed.
  Lemma t_ser_cumsum s : ser_cumsum (tl_ u s) = tl_ u (ser_cumsum s).
  Proof. unfold ser_cumsum. rewrite <- (times_0 u) at 1. apply t_cumsum. Qed.
  Lemma t_repl0 a s : repl0_from (option_map (times u) a) (tl_ u s) = tl_ u (repl0_from a s).
  Proof.
    revert a. induction s as [|x s IH]; intro a; [reflexivity|]. cbn [repl0_from map]. rewrite times_eqb0 by assumption.
    destruct (veqb x v0).
    - destruct a as [y|]; cbn [option_map map]; f_equal; [apply (IH (Some y))|apply (IH None)].
    - cbn [map]. f_equal. apply (IH (Some x)).
  Qed.
  Lemma t_vmax x y : vmax2 (times u x) (times u y) = times u (vmax2 x y).
  Proof. unfold vmax2. rewrite times_ltb by assumption. now destruct (vltb x y). Qed.
  Lemma t_vmin x y : vmin2 (times u x) (times u y) = times u (vmin2 x y).
  Proof. unfold vmin2. rewrite times_ltb by assumption. now destruct (vltb y x). Qed.
  Lemma t_fold (op : V -> V -> V) : (forall x y, op (times u x) (times u y) = times u (op x y)) ->
    forall l a, fold_left op (tl_ u l) (times u a) = times u (fold_left op l a).
  Proof. intros H l. induction l as [|x l IH]; intro a; [reflexivity|]. cbn [fold_left map]. now rewrite H, IH. Qed.
  Lemma t_win_max l : win_max (tl_ u l) = times u (win_max l).
  Proof. destruct l as [|x l]; [reflexivity|]. apply t_fold. exact t_vmax. Qed.
  Lemma t_win_min l : win_min (tl_ u l) = times u (win_min l).
  Proof. destruct l as [|x l]; [reflexivity|]. apply t_fold. exact t_vmin. Qed.
  Lemma t_argbest (better : V -> V -> bool) : (forall x y, better (times u x) (times u y) = better x y) ->
    forall l b bi i, argbest_from better (times u b) bi i (tl_ u l) = argbest_from better b bi i l.
  Proof.
    intros H l. induction l as [|x l IH]; intros b bi i; [reflexivity|]. cbn [argbest_from map]. rewrite H.
    destruct (better b x); apply IH.
  Qed.
  Lemma t_argmax l : argmax (tl_ u l) = argmax l.
  Proof. destruct l as [|x l]; [reflexivity|]. apply t_argbest. intros. now apply times_ltb. Qed.
  Lemma t_argmin l : argmin (tl_ u l) = argmin l.
  Proof. destruct l as [|x l]; [reflexivity|]. apply t_argbest. intros. now apply times_ltb. Qed.
  Lemma t_clip_lo t x : clip_lo (times u t) (times u x) = times u (clip_lo t x).
  Proof. unfold clip_lo. rewrite times_isnan, times_leb by assumption. destruct (visnan x); [reflexivity|]. now destruct (vleb t x). Qed.
  Lemma t_clip_hi t x : clip_hi (times u t) (times u x) = times u (clip_hi t x).
  Proof. unfold clip_hi. rewrite times_isnan, times_leb by assumption. destruct (visnan x); [reflexivity|]. now destruct (vleb x t). Qed.

  Lemma t_ewma al adj s : forall wa ow,
    ewma_from al adj (times u wa) ow (tl_ u s) = tl_ u (ewma_from al adj wa ow s).
  Proof.
    induction s as [|x s IH]; intros wa ow; [reflexivity|]. cbn [ewma_from map]. rewrite !times_isnan, times_eqb by assumption.
    assert (M : vdiv (vadd (vmul (vmul ow (vsub v1 al)) (times u wa)) (vmul (if adj then v1 else al) (times u x)))
                  (vadd (vmul ow (vsub v1 al)) (if adj then v1 else al)) =
                times u (vdiv (vadd (vmul (vmul ow (vsub v1 al)) wa) (vmul (if adj then v1 else al) x))
                  (vadd (vmul ow (vsub v1 al)) (if adj then v1 else al)))).
    { now rewrite !times_mul_r, times_add, times_div_s by assumption. }
    rewrite M. destruct (visnan wa), (visnan x); try destruct (veqb wa x); cbn [map]; f_equal; apply IH.
  Qed.
  Lemma t_ser_ewma al adj s : ser_ewma al adj (tl_ u s) = tl_ u (ser_ewma al adj s).
  Proof. unfold ser_ewma. rewrite t_prep. destruct (map prep s) as [|x m]; [reflexivity|]. cbn [map]. now rewrite t_ewma. Qed.
  Lemma t_lfilter_from al be s : forall z, lfilter_from al be (times u z) (tl_ u s) = tl_ u (lfilter_from al be z s).
  Proof.
    induction s as [|x s IH]; intro z; [reflexivity|]. cbn [lfilter_from map].
    rewrite times_mul_r, times_add, times_mul_r by assumption. now rewrite IH.
  Qed.
  Lemma t_lfilter al be s : lfilter al be (tl_ u s) = tl_ u (lfilter al be s).
  Proof.
    unfold lfilter. rewrite t_prep. destruct (map prep s) as [|x m]; [reflexivity|]. cbn [map].
    rewrite times_div_s by assumption. rewrite <- (times_0 u) at 1.
    change (times u (vdiv x al) :: tl_ u m) with (tl_ u (vdiv x al :: m)). apply t_lfilter_from.
  Qed.
  Lemma t_dyn_from al s : forall x,
    dyn_from (times u x) al (tl_ u s) = converted (tl_ u) (dyn_from x al s).
  Proof.
    revert s. induction al as [|a al IH]; intros s x; [reflexivity|]. destruct s as [|y s]; [reflexivity|].
    cbn [dyn_from map]. rewrite times_sub, times_mul_r, times_add, IH by assumption.
    destruct (dyn_from _ al s); reflexivity.
  Qed.
  Lemma t_dyn al s : dyn_mean al (tl_ u s) = converted (tl_ u) (dyn_mean al s).
  Proof.
    unfold dyn_mean. rewrite t_prep. destruct (map prep s) as [|x m]; [reflexivity|]. cbn [map].
    rewrite t_dyn_from. destruct (dyn_from x al m); reflexivity.
  Qed.
End Lists.

(** ** lines *)
Lemma in_unit_1 l : in_unit 1 l = l.
Proof.
  destruct l as [m s]. unfold in_unit. cbn. f_equal. transitivity (map (fun x => x) s); [|apply map_id].
  apply map_ext. apply times_1.
Qed.
Lemma in_bars u l : bars (in_unit u l) = bars l.
Proof. unfold bars. cbn. apply map_length. Qed.
Lemma in_clone u w a s m : clone (in_unit u a) (tl_ w s) m = in_unit w (clone a s m).
Proof. reflexivity. Qed.

Section Ops.
  Variables (u v w : R).

  Lemma in_stdop F a : (forall s, F (tl_ u s) = tl_ w (F s)) -> stdop F (in_unit u a) = in_unit w (stdop F a).
  Proof.
    intro H. unfold stdop. rewrite in_bars. cbn [lser lmp in_unit]. rewrite slice_from_map, H, set_nans. reflexivity.
  Qed.
  Lemma in_mapop f a : (forall x, f (times u x) = times w (f x)) -> mapop f (in_unit u a) = in_unit w (mapop f a).
  Proof. intro H. apply in_stdop. intro s. rewrite !map_map. apply map_ext. exact H. Qed.
  Lemma in_binop op a b : (forall x y, op (times u x) (times v y) = times w (op x y)) ->
    binop op (in_unit u a) (in_unit v b) = in_unit w (binop op a b).
  Proof.
    intro H. unfold binop. rewrite in_bars. cbn [lser lmp in_unit]. rewrite !slice_from_map, map2_map.
    rewrite (map2_ext _ (fun x y => times w (op x y))) by exact H. rewrite <- map_map2, set_nans. reflexivity.
  Qed.
  Lemma in_binop_s op a c : (forall x, op (times u x) c = times w (op x c)) ->
    binop_s op (in_unit u a) c = in_unit w (binop_s op a c).
  Proof.
    intro H. unfold binop_s. rewrite in_bars. cbn [lser lmp in_unit]. rewrite !slice_from_map, map_map.
    rewrite (map_ext _ (fun x => times w (op x c))) by exact H. rewrite <- map_map, set_nans. reflexivity.
  Qed.
  Lemma in_rbinop_s op a c : (forall x, op c (times u x) = times w (op c x)) ->
    rbinop_s op c (in_unit u a) = in_unit w (rbinop_s op c a).
  Proof.
    intro H. unfold rbinop_s. rewrite in_bars. cbn [lser lmp in_unit]. rewrite !slice_from_map, map_map.
    rewrite (map_ext _ (fun x => times w (op c x))) by exact H. rewrite <- map_map, set_nans. reflexivity.
  Qed.
  Lemma in_stdop2 F a b : (forall s t, F (tl_ u s) (tl_ v t) = tl_ w (F s t)) ->
    stdop2 F (in_unit u a) (in_unit v b) = in_unit w (stdop2 F a b).
  Proof. intro H. unfold stdop2. rewrite in_bars. cbn [lser lmp in_unit]. rewrite !slice_from_map, H, set_nans. reflexivity. Qed.
  Lemma in_kwop F a p : (forall s, F (tl_ u s) p = tl_ w (F s p)) ->
    kwop_p F (in_unit u a) p = in_unit w (kwop_p F a p).
  Proof. intro H. unfold kwop_p. rewrite in_bars. cbn [lser lmp in_unit]. rewrite !slice_from_map, H, set_nans. reflexivity. Qed.
  Lemma in_cmpop op a b : (forall x y, op (times u x) (times v y) = op x y) ->
    cmpop op (in_unit u a) (in_unit v b) = cmpop op a b.
  Proof.
    intro H. unfold cmpop. rewrite in_bars. cbn [lser lmp in_unit]. rewrite !slice_from_map, map2_map.
    now rewrite (map2_ext _ op) by exact H.
  Qed.
  Lemma in_cmpop_s op a c : (forall x, op (times u x) c = op x c) -> cmpop_s op (in_unit u a) c = cmpop_s op a c.
  Proof.
    intro H. unfold cmpop_s. rewrite in_bars. cbn [lser lmp in_unit]. rewrite !slice_from_map, map_map.
    now rewrite (map_ext _ (fun x => op x c)) by exact H.
  Qed.
  Lemma in_mul_b a b : 0 < u -> mul_b (in_unit u a) b = in_unit u (mul_b a b).
  Proof.
    intro H. unfold mul_b. rewrite in_bars. cbn [lser lmp in_unit]. rewrite !slice_from_map.
    rewrite <- (map_id (slice_from (bser b) _)), map2_map.
    rewrite (map2_ext _ (fun x y => times u (vmul x (vofbool y)))) by (intros; now apply times_mul_l).
    rewrite <- map_map2, set_nans. now rewrite map_id.
  Qed.
  Lemma t_guard G l : (forall s, G (tl_ u s) = times w (G s)) -> guard_win G (tl_ u l) = times w (guard_win G l).
  Proof. intro H. unfold guard_win. rewrite t_prep, t_isnan, H. now destruct (existsb visnan (map prep l)). Qed.
  Lemma in_rolling p G a : (forall s, G (tl_ u s) = times w (G s)) ->
    rolling p G (in_unit u a) = in_unit w (rolling p G a).
  Proof.
    intro H. unfold rolling. rewrite in_bars. cbn [lser lmp in_unit]. rewrite slice_from_map.
    replace (ser_rolling p G (tl_ u (slice_from (lser a) (lmp a - 1)))) with
      (tl_ w (ser_rolling p G (slice_from (lser a) (lmp a - 1)))); [now rewrite set_nans|].
    unfold ser_rolling. rewrite map_length, map_map. apply map_ext. intro i. destruct (S i <? p)%nat; [reflexivity|].
    rewrite window_map. symmetry. now apply t_guard.
  Qed.
  Lemma in_rolling2 p G a b : (forall s t, G (tl_ u s) (tl_ v t) = times w (G s t)) ->
    rolling2 p G (in_unit u a) (in_unit v b) = in_unit w (rolling2 p G a b).
  Proof.
    intro H. unfold rolling2. rewrite in_bars. cbn [lser lmp in_unit]. rewrite !slice_from_map, map_length.
    rewrite <- in_clone with (u:=u). rewrite <- set_nans, map_map. do 2 f_equal. apply map_ext. intro i.
    destruct (S i <? p)%nat; [reflexivity|]. rewrite !window_map, !t_prep, !t_isnan, H. now destruct (_ || _).
  Qed.
  Lemma in_lclip_lo a t : 0 < u -> lclip_lo (in_unit u a) (times u t) = in_unit u (lclip_lo a t).
  Proof.
    intro H. unfold lclip_lo. rewrite in_bars. cbn [lser lmp in_unit]. rewrite !slice_from_map, map_map.
    rewrite (map_ext _ (fun x => times u (clip_lo t x))) by (intro; now apply t_clip_lo). rewrite <- map_map, set_nans. reflexivity.
  Qed.
  Lemma in_lclip_hi a t : 0 < u -> lclip_hi (in_unit u a) (times u t) = in_unit u (lclip_hi a t).
  Proof.
    intro H. unfold lclip_hi. rewrite in_bars. cbn [lser lmp in_unit]. rewrite !slice_from_map, map_map.
    rewrite (map_ext _ (fun x => times u (clip_hi t x))) by (intro; now apply t_clip_hi). rewrite <- map_map, set_nans. reflexivity.
  Qed.
  Lemma in_period a n r x : period_ (in_unit u a) n r (option_map (times u) x) = in_unit u (period_ a n r x).
  Proof.
    unfold period_. destruct (_ =? 0)%Z; [reflexivity|]. unfold in_unit. cbn [lmp lser]. f_equal.
    destruct x as [x|]; cbn [option_map]; [|reflexivity]. destruct (_ <? _)%Z; apply set_slice_map.
  Qed.
  Lemma in_filled a c : filled (in_unit u a) (times w c) = in_unit w (filled a c).
  Proof. unfold filled. rewrite in_bars. unfold in_unit. cbn [lmp lser]. f_equal. symmetry. apply map_repeat'. Qed.
End Ops.

(** combinations used by the indicators; equal units [u] *)
Section Std.
  Variable u : R.
  Hypothesis Hu : 0 < u.
  Let pos1 : 0 < 1. Proof. lra. Qed.

  Lemma in_add a b : ladd (in_unit u a) (in_unit u b) = in_unit u (ladd a b).
  Proof. apply in_binop. apply times_add. Qed.
  Lemma in_sub a b : lsub (in_unit u a) (in_unit u b) = in_unit u (lsub a b).
  Proof. apply in_binop. apply times_sub. Qed.
  Lemma in_ratio a b : ldiv (in_unit u a) (in_unit u b) = ldiv a b.
  Proof. rewrite <- (in_unit_1 (ldiv a b)). apply in_binop. intros. rewrite times_1. now apply times_ratio. Qed.
  Lemma in_mul_s a c : binop_s vmul (in_unit u a) c = in_unit u (binop_s vmul a c).
  Proof. apply in_binop_s. intro. now apply times_mul_l. Qed.
  Lemma in_div_s a c : binop_s vdiv (in_unit u a) c = in_unit u (binop_s vdiv a c).
  Proof. apply in_binop_s. intro. now apply times_div_s. Qed.
  Lemma in_rmul_s a c : rbinop_s vmul c (in_unit u a) = in_unit u (rbinop_s vmul c a).
  Proof. apply in_rbinop_s. intro. now apply times_mul_r. Qed.
  Lemma in_abs a : labs (in_unit u a) = in_unit u (labs a).
  Proof. apply in_mapop. intro. now apply times_abs. Qed.
  Lemma in_shift a p : shift (in_unit u a) p = in_unit u (shift a p).
  Proof. apply in_kwop. intro. apply t_shift. Qed.
  Lemma in_diff a p : diff (in_unit u a) p = in_unit u (diff a p).
  Proof. apply in_kwop. intro. apply t_diff. Qed.
  Lemma in_pct a p : pct_change (in_unit u a) p = pct_change a p.
  Proof.
    rewrite <- (in_unit_1 (pct_change a p)). apply in_kwop. intro s. rewrite t_pct by assumption.
    symmetry. transitivity (map (fun x => x) (ser_pct_change s p)); [|apply map_id]. apply map_ext, times_1.
  Qed.
  Lemma in_at_ago a p : at_ago (in_unit u a) p = in_unit u (at_ago a p).
  Proof. unfold at_ago. destruct (p =? 0)%Z; [|apply in_shift]. rewrite <- (times_nan u) at 1. apply in_filled. Qed.
  Lemma in_clip_lo_l a b : lclip_lo_l (in_unit u a) (in_unit u b) = in_unit u (lclip_lo_l a b).
  Proof. apply in_stdop2. intros s t. rewrite map2_map, map_map2. apply map2_ext. intros. now apply t_clip_lo. Qed.
  Lemma in_clip_hi_l a b : lclip_hi_l (in_unit u a) (in_unit u b) = in_unit u (lclip_hi_l a b).
  Proof. apply in_stdop2. intros s t. rewrite map2_map, map_map2. apply map2_ext. intros. now apply t_clip_hi. Qed.
  Lemma in_clip_lo0 a : lclip_lo (in_unit u a) v0 = in_unit u (lclip_lo a v0).
  Proof. rewrite <- (times_0 u) at 1. now apply in_lclip_lo. Qed.
  Lemma in_clip_hi0 a : lclip_hi (in_unit u a) v0 = in_unit u (lclip_hi a v0).
  Proof. rewrite <- (times_0 u) at 1. now apply in_lclip_hi. Qed.
  Lemma in_cumsum a : stdop ser_cumsum (in_unit u a) = in_unit u (stdop ser_cumsum a).
  Proof. apply in_stdop. apply t_ser_cumsum. Qed.
  Lemma in_repl0 a : stdop ser_replace0_ffill (in_unit u a) = in_unit u (stdop ser_replace0_ffill a).
  Proof. apply in_stdop. intro s. apply (t_repl0 u Hu None). Qed.
  Lemma in_gt a b : cmpop (fun x y => vltb y x) (in_unit u a) (in_unit u b) = cmpop (fun x y => vltb y x) a b.
  Proof. apply in_cmpop. intros. now apply times_ltb. Qed.
  Lemma in_lt a b : cmpop vltb (in_unit u a) (in_unit u b) = cmpop vltb a b.
  Proof. apply in_cmpop. intros. now apply times_ltb. Qed.
  Lemma in_lt0 a : cmpop_s vltb (in_unit u a) v0 = cmpop_s vltb a v0.
  Proof. apply in_cmpop_s. intros. now apply times_ltb0. Qed.
  Lemma in_gt0 a : cmpop_s (fun x y => vltb y x) (in_unit u a) v0 = cmpop_s (fun x y => vltb y x) a v0.
  Proof. apply in_cmpop_s. intros. now apply times_0ltb. Qed.
  Lemma in_ewm_mean p adj a : ewm_mean p adj (in_unit u a) = in_unit u (ewm_mean p adj a).
  Proof. unfold ewm_mean. rewrite in_bars. cbn [lser lmp in_unit]. rewrite slice_from_map, t_ser_ewma, set_nans by assumption. reflexivity. Qed.

  Lemma getitem_map {A B} (f : A -> B) l i :
    getitem (map f l) i = match getitem l i with Ok a => Ok (f a) | Raise e => Raise e end.
  Proof.
    unfold getitem. rewrite map_length. set (j := if (i <? 0)%Z then _ else _). destruct (j <? 0)%Z; [reflexivity|].
    rewrite nth_error_map. now destruct (nth_error l (Z.to_nat j)).
  Qed.
  Lemma in_ewm_call a pval po pe alp sd F G :
    (forall t, F (tl_ u t) = converted (tl_ u) (G t)) ->
    ewm_call (in_unit u a) pval po pe alp sd F = converted (in_unit u) (ewm_call a pval po pe alp sd G).
  Proof.
    intro H. unfold ewm_call, mf_ewm. cbn [lmp lser in_unit].
    set (q := (if (po =? 0)%Z then pval else po)). set (q' := (if negb (pval =? 0)%Z && (q <? alp)%Z then (q + (alp - q - 1))%Z else q)).
    set (p2 := (lmp a - 1 + q' - pe)%Z).
    rewrite !slice_map, slice_from_map, getitem_map.
    assert (P : map (fun _ => vnan) (tl_ u (slice (lser a) (p2 - 1) p2)) =
                tl_ u (map (fun _ : V => vnan) (slice (lser a) (p2 - 1) p2))) by now rewrite !map_map.
    rewrite P. set (pre := map (fun _ => vnan) (slice (lser a) (p2 - 1) p2)).
    assert (SL : forall x, match rev (tl_ u pre) with [] => Raise IndexError | _ :: r => Ok (rev (times u x :: r)) end =
                 converted (tl_ u) match rev pre with [] => Raise IndexError | _ :: r => Ok (rev (x :: r)) end).
    { intro x. rewrite <- map_rev. destruct (rev pre) as [|y r]; [reflexivity|]. cbn [map converted].
      f_equal. now rewrite map_rev. }
    assert (K : forall X Y, X = converted (tl_ u) Y ->
      (o <- (pre0 <- X ;; Ok (mkMfo (in_unit u a) (lmp a) (Some pval) pe alp (p2 - 1) (pre0 ++ tl_ u (slice_from (lser a) p2)))) ;;
       snd (mf_call o F)) =
      converted (in_unit u) (o <- (pre0 <- Y ;; Ok (mkMfo a (lmp a) (Some pval) pe alp (p2 - 1) (pre0 ++ slice_from (lser a) p2))) ;;
       snd (mf_call o G))).
    { intros X Y E. rewrite E. destruct Y as [t|e]; [|reflexivity]. cbn [bind converted mf_call snd mf_line mf_mp mf_pval mf_pearly mf_alphap mf_minidx mf_trailer].
      rewrite <- map_app, H. destruct (G _) as [r|e]; [|reflexivity]. cbn [bind converted]. rewrite in_bars, set_nans. reflexivity. }
    apply K. destruct sd.
    - rewrite t_ser_mean by assumption. apply SL.
    - destruct (getitem (lser a) (p2 - 1)); cbn [bind converted]; [apply SL|reflexivity].
    - rewrite t_ser_sum by assumption. apply SL.
    - reflexivity.
    - pose proof (SL v0) as Q. rewrite times_0 in Q. exact Q.
    - cbn [converted]. f_equal. rewrite !map_map. apply map_ext. intro. symmetry. apply times_0.
  Qed.
  Lemma in_ewm_span p po sd a : ewm_span p po sd (in_unit u a) = converted (in_unit u) (ewm_span p po sd a).
  Proof. apply in_ewm_call. intro t. cbn [converted]. now rewrite t_ser_ewma. Qed.
  Lemma in_ewm_com p sd a : ewm_com p sd (in_unit u a) = converted (in_unit u) (ewm_com p sd a).
  Proof. apply in_ewm_call. intro t. cbn [converted]. now rewrite t_ser_ewma. Qed.
  Lemma in_ewm_dyn p al sd a : ewm_dyn p al sd (in_unit u a) = converted (in_unit u) (ewm_dyn p al sd a).
  Proof. apply in_ewm_call. intro t. now apply t_dyn. Qed.
End Std.
