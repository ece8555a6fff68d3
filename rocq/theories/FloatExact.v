(** What rounding does not touch: selections, positions and comparisons. *)
From Coq Require Import ZArith Reals List Bool Lia Lra.
From Flocq Require Import Core IEEE754.BinarySingleNaN.
From Verif Require Import Num Series Line IndMA IndBasic IndRange IndOsc LineFacts Float64 FloatSpec FloatFacts FloatLine.
Import ListNotations.
Set Implicit Arguments.
Local Open Scope R_scope.

Lemma exact_fin x : finite x -> exact x = Fin (val x).
Proof. destruct x as [s|[]| |s m e B]; intro F; try discriminate F; reflexivity. Qed.
Lemma exact_nan x : visnan (exact x) = visnan x.
Proof. destruct x as [s|[]| |s m e B]; reflexivity. Qed.
Lemma exact_inf x : visinf (exact x) = visinf x.
Proof. destruct x as [s|[]| |s m e B]; reflexivity. Qed.
Lemma exact_vnan : exact vnan = vnan. Proof. reflexivity. Qed.
Lemma exact_prep x : prep (exact x) = exact (prep x).
Proof. destruct x as [s|[]| |s m e B]; reflexivity. Qed.

Lemma exact_ltb x y : vltb (exact x) (exact y) = vltb x y.
Proof.
  assert (X : forall x y : float, finite x -> finite y -> vltb (exact x) (exact y) = vltb x y).
  { intros u v Fu Fv. rewrite (exact_fin Fu), (exact_fin Fv). apply bool_iff with (val u < val v); [|now apply ltb_iff].
    cbn. unfold Rltb. destruct (Rlt_dec (val u) (val v)); split; intro; try discriminate; auto; contradiction. }
  destruct x as [s|[]| |s m e B] eqn:Ex, y as [t|[]| |t m' e' B'] eqn:Ey;
    try (rewrite <- Ex, <- Ey; apply X; subst; reflexivity); try (destruct s; reflexivity); try (destruct t; reflexivity); reflexivity.
Qed.
Lemma exact_eqb x y : veqb (exact x) (exact y) = veqb x y.
Proof.
  assert (X : forall x y : float, finite x -> finite y -> veqb (exact x) (exact y) = veqb x y).
  { intros u v Fu Fv. rewrite (exact_fin Fu), (exact_fin Fv). apply bool_iff with (val u = val v); [|now apply eqb_iff].
    cbn. unfold beqb. cbn. unfold Rltb.
    destruct (Rlt_dec (val u) (val v)), (Rlt_dec (val v) (val u)); cbn; split; intro; try discriminate; auto; lra. }
  destruct x as [s|[]| |s m e B] eqn:Ex, y as [t|[]| |t m' e' B'] eqn:Ey;
    try (rewrite <- Ex, <- Ey; apply X; subst; reflexivity); try (destruct s; reflexivity); try (destruct t; reflexivity); reflexivity.
Qed.
Lemma exact_leb x y : vleb (exact x) (exact y) = vleb x y.
Proof.
  change (vleb (exact x) (exact y)) with (vltb (exact x) (exact y) || veqb (exact x) (exact y)).
  rewrite exact_ltb, exact_eqb.
  cbn [vltb veqb vleb NumF]. unfold Bltb, Beqb, Bleb, SpecFloat.SFltb, SpecFloat.SFeqb, SpecFloat.SFleb.
  destruct (SpecFloat.SFcompare (B2SF x) (B2SF y)) as [[]|]; reflexivity.
Qed.

(** ** Lines under a map of the values *)
Section Hom.
  Context {V W : Type} {N : Num V} {M : Num W}.
  Variable h : V -> W.
  Definition hline (a : line V) : line W := mkLine (lmp a) (map h (lser a)).

  Lemma map_slice_from l i : map h (slice_from l i) = slice_from (map h l) i.
  Proof. unfold slice_from, slice_lo. now rewrite map_length, skipn_map. Qed.
  Lemma map_set_from l i r : map h (set_from l i r) = set_from (map h l) i (map h r).
  Proof. unfold set_from, slice_lo. now rewrite map_app, map_length, firstn_map. Qed.
  Lemma map_repeat_h {A B} (f : A -> B) x n : map f (repeat x n) = repeat (f x) n.
  Proof. induction n; cbn; congruence. Qed.
  Lemma map_map2_h {A B} (op : A -> A -> A) (op' : B -> B -> B) (g : A -> B) l m :
    (forall x y, g (op x y) = op' (g x) (g y)) -> map g (map2 op l m) = map2 op' (map g l) (map g m).
  Proof. intro H. revert m. induction l; intros [|y m]; cbn; congruence. Qed.
  Lemma map2_h {B} (op : V -> V -> B) (op' : W -> W -> B) l m :
    (forall x y, op' (h x) (h y) = op x y) -> map2 op' (map h l) (map h m) = map2 op l m.
  Proof. intro H. revert m. induction l; intros [|y m]; cbn; congruence. Qed.

  Hypothesis Hnan : h vnan = vnan.
  Lemma map_nans n : map h (nans n) = nans n.
  Proof. unfold nans. rewrite map_repeat_h. now rewrite Hnan. Qed.
  Lemma cmpop_hom op op' a b :
    (forall x y, op' (h x) (h y) = op x y) -> cmpop op' (hline a) (hline b) = cmpop op a b.
  Proof.
    intro H. unfold cmpop, hline, bars; cbn [lmp lser]. rewrite map_length, <- !map_slice_from, (map2_h op); [reflexivity|exact H].
  Qed.
  Lemma shift_hom a p : hline (shift a p) = shift (hline a) p.
  Proof.
    unfold shift, kwop_p, hline, clone, bars; cbn [lmp lser]. rewrite map_length, map_set_from, map_nans, <- map_slice_from.
    do 2 f_equal. unfold ser_shift. rewrite !map_length. destruct (p <? 0)%Z; rewrite map_app, map_repeat_h, Hnan.
    - now rewrite skipn_map.
    - now rewrite firstn_map.
  Qed.
  Lemma at_ago_hom a p : hline (at_ago a p) = at_ago (hline a) p.
  Proof.
    unfold at_ago. destruct (p =? 0)%Z; [|apply shift_hom]. unfold filled, hline, bars; cbn [lmp lser].
    now rewrite map_length, map_repeat_h, Hnan.
  Qed.
  Lemma stdop2_hom op op' a b :
    (forall x y, h (op x y) = op' (h x) (h y)) -> hline (stdop2 (map2 op) a b) = stdop2 (map2 op') (hline a) (hline b).
  Proof.
    intro H. unfold stdop2, hline, clone, bars; cbn [lmp lser].
    now rewrite map_length, map_set_from, map_nans, <- !map_slice_from, (map_map2_h _ _ _ _ _ H).
  Qed.
  Hypothesis Hisnan : forall x, visnan (h x) = visnan x.
  Hypothesis Hprep : forall x, prep (h x) = h (prep x).
  Lemma rolling_hom w G G' a :
    (forall l, (length l <= w)%nat -> h (G l) = G' (map h l)) -> hline (rolling w G a) = rolling w G' (hline a).
  Proof.
    intro H. unfold rolling, hline, clone, bars; cbn [lmp lser].
    rewrite map_length, map_set_from, map_nans, <- map_slice_from. do 2 f_equal.
    unfold ser_rolling. rewrite map_map, map_length. apply map_ext. intro i. destruct (S i <? w)%nat; [exact Hnan|].
    unfold guard_win. set (s := slice_from _ _).
    assert (E : map prep (window (map h s) i w) = map h (map prep (window s i w))).
    { unfold window. rewrite skipn_map, firstn_map, !map_map. apply map_ext. exact Hprep. }
    rewrite E.
    assert (X : forall l, existsb visnan (map h l) = existsb visnan l) by (induction l; cbn; [reflexivity|now rewrite Hisnan, IHl]).
    rewrite X. destruct (existsb visnan _); [exact Hnan|]. apply H. rewrite map_length. unfold window. rewrite firstn_length. lia.
  Qed.
End Hom.

Lemma exact_line_hline a : exact_line a = hline exact a. Proof. reflexivity. Qed.

Lemma exact_max_fold l : forall x, exact (fold_left vmax2 l x) = fold_left vmax2 (map exact l) (exact x).
Proof.
  induction l as [|y l IH]; intro x; cbn [fold_left map]; [reflexivity|]. rewrite IH. f_equal.
  unfold vmax2. rewrite exact_ltb. now destruct (vltb x y).
Qed.
Lemma exact_min_fold l : forall x, exact (fold_left vmin2 l x) = fold_left vmin2 (map exact l) (exact x).
Proof.
  induction l as [|y l IH]; intro x; cbn [fold_left map]; [reflexivity|]. rewrite IH. f_equal.
  unfold vmin2. rewrite exact_ltb. now destruct (vltb y x).
Qed.
Lemma exact_win_max l : exact (win_max l) = win_max (map exact l).
Proof. destruct l; [reflexivity|]. apply exact_max_fold. Qed.
Lemma exact_win_min l : exact (win_min l) = win_min (map exact l).
Proof. destruct l; [reflexivity|]. apply exact_min_fold. Qed.
Lemma max_exact_line p a : exact_line (max_ind p a) = max_ind p (exact_line a).
Proof. apply rolling_hom; auto using exact_nan, exact_prep, exact_win_max. Qed.
Lemma min_exact_line p a : exact_line (min_ind p a) = min_ind p (exact_line a).
Proof. apply rolling_hom; auto using exact_nan, exact_prep, exact_win_min. Qed.

Lemma argbest_hom (bt : float -> float -> bool) (bt' : ext R -> ext R -> bool) l :
  (forall x y, bt' (exact x) (exact y) = bt x y) ->
  forall b bi i, argbest_from bt' (exact b) bi i (map exact l) = argbest_from bt b bi i l.
Proof.
  intro H. induction l as [|x l IH]; intros b bi i; cbn; [reflexivity|]. rewrite H. destruct (bt b x); apply IH.
Qed.
Lemma argmax_hom l : argmax (map exact l) = argmax l.
Proof. destruct l; [reflexivity|]. cbn. apply argbest_hom. apply exact_ltb. Qed.
Lemma argmin_hom l : argmin (map exact l) = argmin l.
Proof. destruct l; [reflexivity|]. cbn. apply argbest_hom. intros. apply exact_ltb. Qed.
Lemma argbest_lt (bt : float -> float -> bool) l : forall b bi i n,
  (bi < n)%nat -> (i + length l <= n)%nat -> (argbest_from bt b bi i l < n)%nat.
Proof.
  induction l as [|x l IH]; intros b bi i n Hb Hi; cbn in *; [exact Hb|]. destruct (bt b x); apply IH; lia.
Qed.
Lemma argmax_lt (l : list float) : (1 <= length l)%nat -> (argmax l < length l)%nat.
Proof. destruct l; cbn [length]; intro; [lia|]. cbn. apply argbest_lt; lia. Qed.
Lemma argmin_lt (l : list float) : (1 <= length l)%nat -> (argmin l < length l)%nat.
Proof. destruct l; cbn [length]; intro; [lia|]. cbn. apply argbest_lt; lia. Qed.
Lemma argmax_le (l : list float) : (argmax l <= length l)%nat.
Proof. destruct l; [reflexivity|]. apply Nat.lt_le_incl, argmax_lt. cbn. lia. Qed.
Lemma argmin_le (l : list float) : (argmin l <= length l)%nat.
Proof. destruct l; [reflexivity|]. apply Nat.lt_le_incl, argmin_lt. cbn. lia. Qed.
Lemma exact_ofnat n : (Z.of_nat n <= 2 ^ 53)%Z -> exact (vofnat n) = vofnat n.
Proof.
  intro H. unfold vofnat. destruct (@fofZ_exact (Z.of_nat n)) as [F E]; [lia|]. rewrite (exact_fin F), E. reflexivity.
Qed.
Lemma maxindex_exact_line p a : (Z.of_nat p <= 2 ^ 53)%Z -> exact_line (maxindex p a) = maxindex p (exact_line a).
Proof.
  intro H. apply rolling_hom; auto using exact_nan, exact_prep. intros l Hl. rewrite argmax_hom. apply exact_ofnat.
  pose proof (argmax_le l). lia.
Qed.
Lemma minindex_exact_line p a : (Z.of_nat p <= 2 ^ 53)%Z -> exact_line (minindex p a) = minindex p (exact_line a).
Proof.
  intro H. apply rolling_hom; auto using exact_nan, exact_prep. intros l Hl. rewrite argmin_hom. apply exact_ofnat.
  pose proof (argmin_le l). lia.
Qed.
Lemma truelow_exact_line q l c : exact_line (truelow q l c) = truelow q (exact_line l) (exact_line c).
Proof.
  unfold truelow, lclip_hi_l. change (exact_line c) with (hline exact c). rewrite <- (at_ago_hom exact exact_vnan). apply stdop2_hom; [reflexivity|].
  intros x y. unfold clip_hi. rewrite exact_nan, exact_leb. destruct (visnan x); [reflexivity|]. now destruct (vleb x y).
Qed.

(** ** Crossings *)
Definition same_sign (x : float) (y : ext R) : Prop :=
  vltb x v0 = vltb y v0 /\ vltb v0 x = vltb v0 y /\ veqb x v0 = veqb y v0.
Lemma same_sign_nan : same_sign vnan vnan.
Proof. repeat split. Qed.
Lemma same_sign_sub x y : same_sign (vsub x y) (vsub (exact x) (exact y)).
Proof.
  assert (X : forall x y : float, finite x -> finite y -> same_sign (vsub x y) (vsub (exact x) (exact y))).
  { intros u v Fu Fv. destruct (sub_sign Fu Fv) as (A & B & C). unfold same_sign. rewrite A, B, C.
    rewrite (exact_fin Fu), (exact_fin Fv). cbn. unfold beqb, b0; cbn. unfold Rltb. repeat split.
    - apply bool_iff with (val u < val v); [now apply ltb_iff|]. destruct (Rlt_dec _ _); split; intro; try discriminate; auto; lra.
    - apply bool_iff with (val v < val u); [now apply ltb_iff|]. destruct (Rlt_dec _ _); split; intro; try discriminate; auto; lra.
    - apply bool_iff with (val u = val v); [now apply eqb_iff|].
      destruct (Rlt_dec (val u - val v) 0), (Rlt_dec 0 (val u - val v)); cbn; split; intro; try discriminate; auto; lra. }
  destruct x as [s|[]| |s m e B] eqn:Ex, y as [t|[]| |t m' e' B'] eqn:Ey;
    try (rewrite <- Ex, <- Ey; apply X; subst; reflexivity); repeat split.
Qed.
Definition sgl (l : list float) (m : list (ext R)) : Prop := Forall2 same_sign l m.
Lemma sgl_skipn k l m : sgl l m -> sgl (skipn k l) (skipn k m).
Proof. intro H. revert k. induction H; intros [|k]; cbn; auto; constructor; auto. Qed.
Lemma sgl_firstn k l m : sgl l m -> sgl (firstn k l) (firstn k m).
Proof. intro H. revert k. induction H; intros [|k]; cbn; constructor; auto. apply IHForall2. Qed.
Lemma sgl_nans n : sgl (nans n) (nans n).
Proof. induction n; cbn; constructor; auto. apply same_sign_nan. Qed.
Lemma sgl_len l m : sgl l m -> length l = length m. Proof. induction 1; cbn; congruence. Qed.
Lemma sgl_slice_from l m i : sgl l m -> sgl (slice_from l i) (slice_from m i).
Proof. intro H. unfold slice_from. rewrite (sgl_len H). now apply sgl_skipn. Qed.
Lemma sgl_set_from l m i r s : sgl l m -> sgl r s -> sgl (set_from l i r) (set_from m i s).
Proof. intros H K. unfold set_from. rewrite (sgl_len H). apply Forall2_app; [now apply sgl_firstn|assumption]. Qed.
Lemma sgl_repl l m : sgl l m -> forall p q, match p, q with Some x, Some y => same_sign x y | None, None => True | _, _ => False end ->
  sgl (repl0_from p l) (repl0_from q m).
Proof.
  intro H. induction H as [|x y l m Hxy H IH]; intros p q Hpq; cbn [repl0_from]; [constructor|].
  assert (C : veqb x v0 = veqb y v0) by apply Hxy. rewrite <- C. destruct (veqb x v0).
  - destruct p as [u|], q as [v|]; try contradiction; constructor; try assumption; apply IH; assumption.
  - constructor; [assumption|]. apply IH. assumption.
Qed.
Lemma sgl_sub l m : sgl (map2 vsub l m) (map2 vsub (map exact l) (map exact m)).
Proof. revert m. induction l; intros [|y m]; cbn [map map2]; constructor; [apply same_sign_sub|apply IHl]. Qed.
Definition sgline (a : line float) (b : line (ext R)) : Prop := lmp a = lmp b /\ sgl (lser a) (lser b).
Lemma sgline_lsub a b : sgline (lsub a b) (lsub (exact_line a) (exact_line b)).
Proof.
  unfold sgline, lsub, binop, exact_line, clone, bars; cbn [lmp lser]. split; [reflexivity|].
  rewrite map_length, <- !map_slice_from. apply sgl_set_from; [apply sgl_nans|apply sgl_sub].
Qed.
Lemma sgline_shift a b p : sgline a b -> sgline (shift a p) (shift b p).
Proof.
  intros [E H]. pose proof (sgl_len H) as L. unfold sgline, shift, kwop_p, clone, bars; cbn [lmp lser]. rewrite E, L. split; [reflexivity|].
  apply sgl_set_from; [apply sgl_nans|]. pose proof (sgl_slice_from (lmp b - 1) H) as S. pose proof (sgl_len S) as LS.
  unfold ser_shift. rewrite LS. destruct (p <? 0)%Z; apply Forall2_app; try apply sgl_nans; [now apply sgl_skipn|now apply sgl_firstn].
Qed.
Lemma sgline_repl a b : sgline a b -> sgline (stdop ser_replace0_ffill a) (stdop ser_replace0_ffill b).
Proof.
  intros [E H]. pose proof (sgl_len H) as L. unfold sgline, stdop, clone, bars; cbn [lmp lser]. rewrite E, L. split; [reflexivity|].
  apply sgl_set_from; [apply sgl_nans|]. apply sgl_repl; [now apply sgl_slice_from|exact I].
Qed.
Lemma sgline_idiff strict a b : sgline (cross_idiff strict a b) (cross_idiff strict (exact_line a) (exact_line b)).
Proof.
  unfold cross_idiff. destruct strict; [|apply sgline_repl]; apply sgline_shift, sgline_lsub.
Qed.
Lemma cmp_s_sg op op' a b : (forall x y, same_sign x y -> op x v0 = op' y v0) -> sgline a b -> cmpop_s op a v0 = cmpop_s op' b v0.
Proof.
  intros Ho [E H]. unfold cmpop_s, bars. rewrite E, (sgl_len H). f_equal. f_equal.
  pose proof (sgl_slice_from (Z.max (lmp b) 1 - 1) H) as S. induction S as [|x y l m X S IHS]; cbn [map]; [reflexivity|]. now rewrite (Ho _ _ X), IHS.
Qed.
Lemma cross_up_exact strict a b : cross_up strict (exact_line a) (exact_line b) = cross_up strict a b.
Proof.
  unfold cross_up. rewrite (cmpop_hom exact (fun x y => vltb y x)) by (intros; apply exact_ltb). f_equal.
  symmetry. apply cmp_s_sg; [|apply sgline_idiff]. intros x y (A & _). exact A.
Qed.
Lemma cross_down_exact strict a b : cross_down strict (exact_line a) (exact_line b) = cross_down strict a b.
Proof.
  unfold cross_down. rewrite (cmpop_hom exact vltb) by (intros; apply exact_ltb). f_equal.
  symmetry. apply cmp_s_sg; [|apply sgline_idiff]. intros x y (_ & A & _). exact A.
Qed.
Lemma rmul_b_exact z (c : bline) : (Z.abs z <= 2 ^ 53)%Z -> exact_line (rmul_b (vofZ z) c) = rmul_b (vofZ z) c.
Proof.
  intro Hz. unfold rmul_b, exact_line; cbn [lmp lser]. rewrite map_set_from, map_nans by reflexivity. do 2 f_equal.
  rewrite map_map. apply map_ext. intro b. destruct (fofZ_exact z Hz) as [F E].
  destruct b; unfold vofbool.
  - destruct val1 as [F1 V1]. destruct (@mul_in (vofZ z) (vofZ z) (vofZ z) (vofZ 1) F F1) as (_ & Fm & Vm); [rewrite V1; lra|].
    unfold v1. rewrite (exact_fin Fm). replace (val (vmul (vofZ z) (vofZ 1))) with (IZR z) by lra. cbn. now rewrite Rmult_1_r.
  - unfold v0. destruct (@mul_in (vofZ 0) (vofZ 0) (vofZ z) (vofZ 0) F (proj1 (fofZ_exact 0 ltac:(vm_compute; discriminate)))) as (_ & Fm & Vm); [rewrite val0; lra|].
    rewrite (exact_fin Fm). rewrite val0 in Vm. replace (val (vmul (vofZ z) (vofZ 0))) with 0 by lra. cbn. now rewrite Rmult_0_r.
Qed.
Lemma crossup_exact strict a b : exact_line (crossup strict a b) = crossup strict (exact_line a) (exact_line b).
Proof. unfold crossup. rewrite cross_up_exact. apply rmul_b_exact. vm_compute. discriminate. Qed.
Lemma crossdown_exact strict a b : exact_line (crossdown strict a b) = crossdown strict (exact_line a) (exact_line b).
Proof. unfold crossdown. rewrite cross_down_exact. apply rmul_b_exact. vm_compute. discriminate. Qed.
