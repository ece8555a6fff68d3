(** How far apart values, sums and averages of slightly different prices are. *)
From Coq Require Import ZArith QArith List Bool Reals Lia Lra.
From Verif Require Import Num Series Line LineFacts Spec RSpec RFacts StatSpec StatFacts UnitFacts IndMA IndBasic IndStat IndRange Catalog BandSpec BandFacts.
Import ListNotations.
Local Open Scope R_scope.
Arguments skipn : simpl never.
Arguments firstn : simpl never.
Local Notation V := (ext R).
Implicit Types g h k : gap.

(** ** single values *)
Lemma off_decided g : decided (off g).
Proof. split; [reflexivity|]. intros x y H. destruct x, y; cbn in *; auto. Qed.
Lemma off_nan g : off g vnan vnan. Proof. reflexivity. Qed.
Lemma off_sub_gap g h x y : fst h <= fst g -> snd g <= snd h -> off g x y -> off h x y.
Proof. intros A B H. destruct x, y; cbn in *; auto. lra. Qed.
Lemma off_add g h x x' y y' : off g x x' -> off h y y' -> off (gadd g h) (vadd x y) (vadd x' y').
Proof. intros A B. destruct x, x', y, y'; cbn in *; try easy; lra. Qed.
Lemma off_sub g h x x' y y' : off g x x' -> off h y y' -> off (gsub g h) (vsub x y) (vsub x' y').
Proof. intros A B. destruct x, x', y, y'; cbn in *; try easy; lra. Qed.
Lemma gscale_in c g d : fst g <= d <= snd g -> fst (gscale c g) <= c * d <= snd (gscale c g).
Proof.
  intros H. unfold gscale. cbn [fst snd]. destruct (Rle_dec 0 c).
  - split; [apply Rle_trans with (c * fst g); [apply Rmin_l|nra]|apply Rle_trans with (c * snd g); [nra|apply Rmax_r]].
  - split; [apply Rle_trans with (c * snd g); [apply Rmin_r|nra]|apply Rle_trans with (c * fst g); [nra|apply Rmax_l]].
Qed.
Lemma off_mul c g x x' : off g x x' -> off (gscale c g) (vmul (Fin c) x) (vmul (Fin c) x').
Proof.
  intros H. destruct x as [| | |a], x' as [| | |b]; cbn in H; try easy.
  - cbn. unfold inf_signed, bpos, bneg. destruct (bltb b0 c); [reflexivity|]. destruct (bltb c b0); reflexivity.
  - cbn. unfold inf_opp, bpos, bneg. destruct (bltb b0 c); [reflexivity|]. destruct (bltb c b0); reflexivity.
  - rewrite !vmul_fin. unfold off. replace (c * b - c * a) with (c * (b - a)) by ring. now apply gscale_in.
Qed.
Lemma vmul_comm (x y : V) : vmul x y = vmul y x.
Proof. destruct x, y; cbn; try reflexivity. f_equal. ring. Qed.
Lemma off_mul_r c g x x' : off g x x' -> off (gscale c g) (vmul x (Fin c)) (vmul x' (Fin c)).
Proof. intro H. rewrite (vmul_comm x), (vmul_comm x'). now apply off_mul. Qed.
Lemma off_div d g x x' : d <> 0 -> off g x x' -> off (gscale (/ d) g) (vdiv x (Fin d)) (vdiv x' (Fin d)).
Proof.
  intros D H. destruct x as [| | |a], x' as [| | |b]; cbn in H; try easy.
  - change (vdiv PInf (Fin d)) with (if bneg d then NInf else PInf : V). now destruct (bneg d).
  - change (vdiv NInf (Fin d)) with (if bneg d then PInf else NInf : V). now destruct (bneg d).
  - rewrite !vdiv_fin by exact D. unfold off. replace (b / d - a / d) with (/ d * (b - a)) by (field; exact D). now apply gscale_in.
Qed.
Lemma ghull_l g h d : fst g <= d <= snd g -> fst (ghull g h) <= d <= snd (ghull g h).
Proof. intro H. unfold ghull. cbn [fst snd]. pose proof (Rmin_l (fst g) (fst h)). pose proof (Rmax_l (snd g) (snd h)). lra. Qed.
Lemma ghull_r g h d : fst h <= d <= snd h -> fst (ghull g h) <= d <= snd (ghull g h).
Proof. intro H. unfold ghull. cbn [fst snd]. pose proof (Rmin_r (fst g) (fst h)). pose proof (Rmax_r (snd g) (snd h)). lra. Qed.
Lemma ghull_mix g h a a' b b' : fst g <= a' - a <= snd g -> fst h <= b' - b <= snd h -> a <= b -> b' <= a' ->
  fst (ghull g h) <= a' - b <= snd (ghull g h).
Proof.
  intros A B X Y. unfold ghull. cbn [fst snd]. pose proof (Rmin_r (fst g) (fst h)). pose proof (Rmax_l (snd g) (snd h)). lra.
Qed.
Lemma ghull_comm g h : ghull g h = ghull h g.
Proof. unfold ghull. now rewrite Rmin_comm, Rmax_comm. Qed.
Lemma off_hull_l g h x y : off g x y -> off (ghull g h) x y.
Proof. intro H. destruct x, y; cbn in H; try easy. unfold off. now apply ghull_l. Qed.
Lemma off_hull_r g h x y : off h x y -> off (ghull g h) x y.
Proof. rewrite ghull_comm. apply off_hull_l. Qed.
Lemma vleb_same g h (x x' t t' : V) : off g x x' -> off h t t' -> is_num x -> ~ is_num t -> vleb t' x' = vleb t x /\ vleb x' t' = vleb x t.
Proof. intros A B X T. destruct x, x', t, t'; cbn in *; try easy. Qed.
Lemma off_clip_lo g h x x' t t' : off g x x' -> off h t t' -> off (ghull g h) (clip_lo t x) (clip_lo t' x').
Proof.
  intros A B. unfold clip_lo. rewrite (decided_nan _ _ _ (off_decided g) A).
  destruct (visnan x) eqn:NX; [now apply off_hull_l|].
  destruct x as [| | |a], x' as [| | |a']; cbn in A; try easy; destruct t as [| | |b], t' as [| | |b']; cbn in B; try easy;
    rewrite ?vleb_fin; cbn; try (now apply ghull_l); try (now apply ghull_r).
  destruct (Rltb_spec a b) as [X|X], (Rltb_spec a' b') as [Y|Y]; cbn; first [now apply ghull_r|now apply ghull_l|idtac].
  - pose proof (Rmin_r (fst g) (fst h)). pose proof (Rmax_l (snd g) (snd h)). lra.
  - pose proof (Rmin_l (fst g) (fst h)). pose proof (Rmax_r (snd g) (snd h)). lra.
Qed.
Lemma off_clip_hi g h x x' t t' : off g x x' -> off h t t' -> off (ghull g h) (clip_hi t x) (clip_hi t' x').
Proof.
  intros A B. unfold clip_hi. rewrite (decided_nan _ _ _ (off_decided g) A).
  destruct (visnan x) eqn:NX; [now apply off_hull_l|].
  destruct x as [| | |a], x' as [| | |a']; cbn in A; try easy; destruct t as [| | |b], t' as [| | |b']; cbn in B; try easy;
    rewrite ?vleb_fin; cbn; try (now apply ghull_l); try (now apply ghull_r).
  destruct (Rltb_spec b a) as [X|X], (Rltb_spec b' a') as [Y|Y]; cbn; first [now apply ghull_r|now apply ghull_l|idtac].
  - pose proof (Rmin_l (fst g) (fst h)). pose proof (Rmax_r (snd g) (snd h)). lra.
  - pose proof (Rmin_r (fst g) (fst h)). pose proof (Rmax_l (snd g) (snd h)). lra.
Qed.

(** ** windows *)
Lemma nums_sum g l m : numbers (off g) l m -> INR (length l) * fst g <= Rsum m - Rsum l <= INR (length l) * snd g.
Proof.
  induction 1 as [|x y l m H F IH]; [unfold Rsum; cbn; lra|]. cbn [length]. rewrite S_INR, !Rsum_cons. cbn in H. lra.
Qed.
Lemma nums_length g l m : numbers (off g) l m -> length m = length l.
Proof. intro H. exact (F2_length _ _ _ H). Qed.
Lemma nums_mean g l m : numbers (off g) l m -> l <> [] -> fst g <= Rmean m - Rmean l <= snd g.
Proof.
  intros H L. pose proof (nums_sum _ _ _ H) as S. unfold Rmean. rewrite (nums_length _ _ _ H).
  assert (P : 0 < INR (length l)) by (apply lt_0_INR; destruct l; [easy|cbn; lia]).
  replace (Rsum m / INR (length l) - Rsum l / INR (length l)) with (/ INR (length l) * (Rsum m - Rsum l)) by (field; lra).
  apply Rinv_0_lt_compat in P as Q. split.
  - apply Rmult_le_reg_l with (INR (length l)); auto. rewrite <- Rmult_assoc, Rinv_r by lra. lra.
  - apply Rmult_le_reg_l with (INR (length l)); auto. rewrite <- Rmult_assoc, Rinv_r by lra. lra.
Qed.
Lemma off_win_mean g l m : numbers (off g) l m -> off g (win_mean (map (@Fin R) l)) (win_mean (map (@Fin R) m)).
Proof.
  intro H. destruct l as [|x l].
  - inversion H; subst. unfold win_mean. change (vsum (map (@Fin R) [])) with (Fin 0 : V). cbn [map length Z.of_nat].
    rewrite vofZ_fin, vdiv_fin0, inf_signed0. reflexivity.
  - rewrite !win_mean_fin by (try (inversion H; subst); discriminate). apply nums_mean; auto. discriminate.
Qed.
Lemma off_win_sum g p l m : numbers (off g) l m -> length l = p -> off (gscale (INR p) g) (win_sum (map (@Fin R) l)) (win_sum (map (@Fin R) m)).
Proof.
  intros H L. unfold win_sum. rewrite !vsum_fin. unfold off. pose proof (nums_sum _ _ _ H) as S. rewrite L in S.
  unfold gscale. cbn [fst snd]. pose proof (Rmin_l (INR p * fst g) (INR p * snd g)). pose proof (Rmax_r (INR p * fst g) (INR p * snd g)). lra.
Qed.
Lemma off_best g (better : R -> R -> R) l m : (forall a a' b b', fst g <= a' - a <= snd g -> fst g <= b' - b <= snd g ->
    fst g <= better a' b' - better a b <= snd g) ->
  numbers (off g) l m -> forall x y, fst g <= y - x <= snd g -> fst g <= fold_left better m y - fold_left better l x <= snd g.
Proof. intros B H. induction H as [|u v l m U F IH]; intros x y X; cbn [fold_left]; auto. Qed.
Lemma fold_vmax2 l x : fold_left vmax2 (map (@Fin R) l) (Fin x) = Fin (fold_left (fun a b => if Rltb a b then b else a) l x).
Proof. revert x. induction l as [|y l IH]; intro x; cbn [map fold_left]; auto. unfold vmax2 at 2. rewrite vltb_fin. destruct (Rltb x y); apply IH. Qed.
Lemma fold_vmin2 l x : fold_left vmin2 (map (@Fin R) l) (Fin x) = Fin (fold_left (fun a b => if Rltb b a then b else a) l x).
Proof. revert x. induction l as [|y l IH]; intro x; cbn [map fold_left]; auto. unfold vmin2 at 2. rewrite vltb_fin. destruct (Rltb y x); apply IH. Qed.
Lemma off_win_max g l m : numbers (off g) l m -> off g (win_max (map (@Fin R) l)) (win_max (map (@Fin R) m)).
Proof.
  intro H. destruct H as [|x y l m X F]; [reflexivity|]. cbn [map win_max]. rewrite !fold_vmax2. unfold off.
  apply (off_best g (fun a b => if Rltb a b then b else a)); auto.
  intros a a' b b' A B. destruct (Rltb_spec a b), (Rltb_spec a' b'); lra.
Qed.
Lemma off_win_min g l m : numbers (off g) l m -> off g (win_min (map (@Fin R) l)) (win_min (map (@Fin R) m)).
Proof.
  intro H. destruct H as [|x y l m X F]; [reflexivity|]. cbn [map win_min]. rewrite !fold_vmin2. unfold off.
  apply (off_best g (fun a b => if Rltb b a then b else a)); auto.
  intros a a' b b' A B. destruct (Rltb_spec b a), (Rltb_spec b' a'); lra.
Qed.
(** weights that are not negative *)
Lemma nums_weighted g l m : numbers (off g) l m -> forall ws, Forall (fun w => 0 <= w) ws -> length ws = length l ->
  Rsum ws * fst g <= Rsum (map2 Rmult m ws) - Rsum (map2 Rmult l ws) <= Rsum ws * snd g.
Proof.
  induction 1 as [|x y l m H F IH]; intros ws W L.
  - destruct ws; [|discriminate]. unfold Rsum. cbn. lra.
  - destruct ws as [|w ws]; [discriminate|]. inversion W; subst. cbn [map2]. rewrite !Rsum_cons.
    specialize (IH ws H3 ltac:(cbn in L; lia)). cbn in H. split; nra.
Qed.
Lemma map2_fin l ws : map2 vmul (map (@Fin R) l) (map (@Fin R) ws) = map (@Fin R) (map2 Rmult l ws).
Proof. revert ws. induction l as [|x l IH]; intros [|w ws]; cbn [map map2]; auto. rewrite vmul_fin. f_equal. apply IH. Qed.
Lemma off_wma g p l m : (1 <= p)%nat -> numbers (off g) l m -> length l = p ->
  off (INR p * (INR p + 1) / 2 * fst g, INR p * (INR p + 1) / 2 * snd g) (win_wma (map (@Fin R) l)) (win_wma (map (@Fin R) m)).
Proof.
  intros Hp H L. unfold win_wma. rewrite !map_length, (nums_length _ _ _ H), L.
  assert (E : map (fun i => vofZ (Z.of_nat i)) (seq 1 p) = map (@Fin R) (map INR (seq 1 p))).
  { rewrite map_map. apply map_ext. intro i. now rewrite vofZ_fin, IZR_nat. }
  rewrite E, !map2_fin, !vsum_fin. unfold off.
  pose proof (nums_weighted _ _ _ H (map INR (seq 1 p))) as W.
  assert (S : Rsum (map INR (seq 1 p)) = INR p * (INR p + 1) / 2) by apply MAFacts.Rsum_INR_seq.
  rewrite S in W. assert (Q : Forall (fun w => 0 <= w) (map INR (seq 1 p))).
  { rewrite Forall_forall. intros w Hw. apply in_map_iff in Hw. destruct Hw as (i & <- & _). apply pos_INR. }
  specialize (W Q ltac:(rewrite map_length, seq_length; lia)). exact W.
Qed.
(** ** spread *)
Lemma nums_dev g l m : numbers (off g) l m -> l <> [] ->
  Forall2 (fun x y => Rabs ((y - Rmean m) - (x - Rmean l)) <= snd g - fst g) l m.
Proof.
  intros H L. pose proof (nums_mean _ _ _ H L) as M. revert M. generalize (Rmean l) as u, (Rmean m) as v. intros u v M. clear L.
  induction H as [|x y l m X F IH]; constructor; auto. cbn in X. apply Rabs_le. lra.
Qed.
Lemma off_win_mad g l m : numbers (off g) l m -> off (gspread g) (win_mad (map (@Fin R) l)) (win_mad (map (@Fin R) m)).
Proof.
  intro H. unfold win_mad. destruct l as [|x0 l0] eqn:E.
  - inversion H; subst. cbn [map]. unfold win_mean. change (vsum (@nil V)) with (Fin 0 : V). cbn [length Z.of_nat].
    rewrite vofZ_fin, vdiv_fin0, inf_signed0. reflexivity.
  - rewrite <- E in *. assert (L : l <> []) by (subst; discriminate). assert (Lm : m <> []).
    { intro C. apply nums_length in H. rewrite C in H. subst. discriminate. }
    rewrite !win_mean_fin by auto.
    assert (K : forall c r, map (fun x : V => vabs (vsub x (Fin c))) (map (@Fin R) r) = map (@Fin R) (map (fun x => Rabs (x - c)) r)).
    { intros c r. rewrite !map_map. apply map_ext. intro x. now rewrite vsub_fin, vabs_fin. }
    rewrite !K. apply off_win_mean. pose proof (nums_dev _ _ _ H L) as D. unfold numbers.
    apply (F2_map _ _ (fun x => Rabs (x - Rmean l)) (fun x => Rabs (x - Rmean m)) l m) with (2 := D).
    intros x y X. unfold off, gspread. cbn [fst snd]. pose proof (Rabs_triang_inv (y - Rmean m) (x - Rmean l)).
    pose proof (Rabs_triang_inv (x - Rmean l) (y - Rmean m)). rewrite (Rabs_minus_sym (x - Rmean l)) in H1. lra.
Qed.
(** standard deviation: the triangle inequality *)
Lemma pairs_sum (l m : list R) (u v : R) : length l = length m ->
  SXX (combine (map (fun x => x - u) l) (map (fun y => y - v) m)) = Rsum (map (fun x => (x - u) ^ 2) l) /\
  SYY (combine (map (fun x => x - u) l) (map (fun y => y - v) m)) = Rsum (map (fun y => (y - v) ^ 2) m).
Proof.
  unfold SXX, SYY. revert m. induction l as [|x l IH]; intros [|y m] L; try discriminate; [split; reflexivity|].
  cbn [map combine]. rewrite !Rsum_cons. cbn [fst snd]. destruct (IH m ltac:(cbn in L; lia)) as [A B]. rewrite A, B. split; ring.
Qed.
Lemma pairs_diff w u v l m : Forall2 (fun x y => Rabs ((y - v) - (x - u)) <= w) l m ->
  let q := combine (map (fun x => x - u) l) (map (fun y => y - v) m) in
  SYY q - 2 * SXY q + SXX q <= INR (length l) * (w * w).
Proof.
  cbv zeta. unfold SXX, SYY, SXY. induction 1 as [|x y l m H F IH]; [unfold Rsum; cbn; lra|].
  cbn [length map combine]. rewrite S_INR, !Rsum_cons. cbn [fst snd].
  assert (Q : ((y - v) - (x - u)) * ((y - v) - (x - u)) <= w * w).
  { revert H. generalize ((y - v) - (x - u)). intros d H. unfold Rabs in H. destruct (Rcase_abs d); nra. }
  nra.
Qed.
Lemma off_win_std g l m : numbers (off g) l m -> off (gspread g) (win_std 0 (map (@Fin R) l)) (win_std 0 (map (@Fin R) m)).
Proof.
  intro H. destruct l as [|x0 l0] eqn:E.
  - inversion H; subst. reflexivity.
  - rewrite <- E in *. assert (L : l <> []) by (subst; discriminate). pose proof (nums_length _ _ _ H) as Lm.
    assert (P : (0 < length l)%nat) by (subst; cbn; lia). clear E x0 l0. rewrite !win_std_fin by lia. unfold off, gspread. cbn [fst snd].
    pose proof (nums_dev _ _ _ H L) as D. set (w := snd g - fst g) in *. pose proof (pairs_diff _ _ _ _ _ D) as T. cbv zeta in T.
    pose proof (cauchy (combine (map (fun x => x - Rmean l) l) (map (fun y => y - Rmean m) m))) as C.
    destruct (pairs_sum l m (Rmean l) (Rmean m) (eq_sym Lm)) as [A B]. rewrite A, B in T, C.
    revert T C. generalize (SXY (combine (map (fun x => x - Rmean l) l) (map (fun y => y - Rmean m) m))). intros s T C.
    fold (sqdev l) in T, C. fold (sqdev m) in T, C.
    assert (V1 : Rvar 0 l = sqdev l / INR (length l)) by (unfold Rvar; cbn [INR]; rewrite Rminus_0_r; reflexivity).
    assert (V2 : Rvar 0 m = sqdev m / INR (length l)) by (unfold Rvar; rewrite Lm; cbn [INR]; rewrite Rminus_0_r; reflexivity).
    pose proof (@Rvar_nonneg 0 l P) as N1. pose proof (@Rvar_nonneg 0 m ltac:(lia)) as N2.
    pose proof (sqrt_sqrt _ N1) as S1. pose proof (sqrt_sqrt _ N2) as S2. pose proof (sqrt_pos (Rvar 0 l)) as P1. pose proof (sqrt_pos (Rvar 0 m)) as P2.
    set (a := sqrt (Rvar 0 l)) in *. set (b := sqrt (Rvar 0 m)) in *. rewrite V1 in S1. rewrite V2 in S2.
    assert (Pn : 0 < INR (length l)) by (now apply lt_0_INR). set (n := INR (length l)) in *.
    assert (X1 : sqdev l = n * (a * a)) by (rewrite S1; field; lra). assert (X2 : sqdev m = n * (b * b)) by (rewrite S2; field; lra).
    rewrite X1, X2 in T, C. assert (W : 0 <= w).
    { inversion D as [E1 E2|x y l' m' K _ E1 E2]; [congruence|]. eapply Rle_trans; [apply Rabs_pos|exact K]. }
    assert (SL : s <= n * (a * b)).
    { apply Rnot_lt_le. intro K. assert (0 <= n * (a * b)) by (apply Rmult_le_pos; [lra|now apply Rmult_le_pos]). nra. }
    assert (Q : (b - a) * (b - a) <= w * w).
    { apply Rmult_le_reg_l with n; [exact Pn|]. nra. }
    split; nra.
Qed.

(** ** means over the bars which are numbers *)
Lemma off_vsum g l m : Forall2 (off g) l m -> off (INR (length l) * fst g, INR (length l) * snd g) (vsum l) (vsum m).
Proof.
  intro H. unfold vsum. rewrite v0_fin.
  assert (K : forall (k : nat) x y, off (INR k * fst g, INR k * snd g) x y ->
    off (INR (k + length l) * fst g, INR (k + length l) * snd g) (fold_left vadd l x) (fold_left vadd m y)).
  { induction H as [|u v l m U F IH]; intros k x y X; cbn [fold_left length]; [now rewrite Nat.add_0_r|].
    replace (k + S (length l))%nat with (S k + length l)%nat by lia. apply IH.
    eapply off_sub_gap; [| |apply (off_add _ _ _ _ _ _ X U)]; unfold gadd; rewrite S_INR; cbn [fst snd]; lra. }
  apply (K 0%nat). cbn. lra.
Qed.
Lemma F2_notnan g l m : Forall2 (off g) l m -> Forall2 (off g) (notnan l) (notnan m).
Proof.
  induction 1 as [|x y l m H F IH]; [constructor|]. unfold notnan in *. cbn [filter]. rewrite (decided_nan _ _ _ (off_decided g) H). destruct (negb (visnan x)); auto.
Qed.
Lemma off_over n g x y : 0 < n -> off (n * fst g, n * snd g) x y -> off g (vdiv x (Fin n)) (vdiv y (Fin n)).
Proof.
  intros P H. destruct x as [| | |a], y as [| | |b]; cbn in H; try easy.
  - change (vdiv PInf (Fin n)) with (if bneg n then NInf else PInf : V). now destruct (bneg n).
  - change (vdiv NInf (Fin n)) with (if bneg n then PInf else NInf : V). now destruct (bneg n).
  - rewrite !vdiv_fin by lra. unfold off. split; apply Rmult_le_reg_l with n; auto;
      replace (n * (b / n - a / n)) with (b - a) by (field; lra); lra.
Qed.
Lemma off_ser_mean g l m : Forall2 (off g) l m -> off g (ser_mean l) (ser_mean m).
Proof.
  intro H. apply F2_notnan in H. unfold ser_mean. pose proof (off_vsum _ _ _ H) as S. pose proof (F2_length _ _ _ H) as L.
  destruct H as [|x y l' m' H F]; [reflexivity|]. set (l1 := x :: l') in *. set (m1 := y :: m') in *. rewrite L.
  rewrite vofZ_fin, IZR_nat. apply off_over; [apply lt_0_INR; cbn; lia|exact S].
Qed.

(** ** exponential averages *)
Lemma ewma_step o n a b : 0 <= o -> 0 < n ->
  (if veqb (Fin a : V) (Fin b) then Fin a else vdiv (vadd (vmul (Fin o) (Fin a)) (vmul (Fin n) (Fin b))) (vadd (Fin o) (Fin n))) =
  Fin ((o * a + n * b) / (o + n)).
Proof.
  intros Ho Hn. rewrite veqb_fin, !vmul_fin, !vadd_fin, vdiv_fin by lra. destruct (beqb_spec a b) as [->|]; [|reflexivity].
  f_equal. field. lra.
Qed.
Lemma mix_in o n p q u v : 0 <= o -> 0 < n -> p <= u <= q -> p <= v <= q -> p <= (o * u + n * v) / (o + n) <= q.
Proof.
  intros Ho Hn U W. assert (P : 0 < o + n) by lra. split; apply Rmult_le_reg_l with (o + n); auto;
    replace ((o + n) * ((o * u + n * v) / (o + n))) with (o * u + n * v) by (field; lra); nra.
Qed.
Definition plainv (x : V) : Prop := match x with PInf | NInf => False | _ => True end.
Lemma off_ewma_from g al adj s s' : 0 < al <= 1 -> Forall2 (off g) s s' -> Forall plainv s -> forall wa wa' o, 0 <= o -> plainv wa -> off g wa wa' ->
  Forall2 (off g) (ewma_from (Fin al) adj wa (Fin o) s) (ewma_from (Fin al) adj wa' (Fin o) s').
Proof.
  intros H F. induction F as [|x y s s' X F IH]; intros PL wa wa' o Ho Pw W; [constructor|]. inversion PL; subst.
  assert (Ho' : 0 <= o * (1 - al)) by (apply Rmult_le_pos; lra).
  destruct wa as [| | |a], wa' as [| | |a']; cbn in W; try easy; destruct x as [| | |b], y as [| | |b']; cbn in X; try easy;
    cbn [ewma_from]; rewrite v1_fin, vsub_fin, vmul_fin.
  - change (visnan (NaN : V)) with true. cbv iota. constructor; [reflexivity|]. apply IH; auto; exact I || reflexivity.
  - change (visnan (NaN : V)) with true. change (visnan (Fin b)) with false. change (visnan (Fin b')) with false. cbv iota.
    constructor; [exact X|]. apply IH; auto; exact I || exact X.
  - change (visnan (NaN : V)) with true. change (visnan (Fin a)) with false. change (visnan (Fin a')) with false. cbv iota.
    constructor; [exact W|]. apply IH; auto; exact I || exact W.
  - change (visnan (Fin a)) with false. change (visnan (Fin a')) with false. change (visnan (Fin b)) with false. change (visnan (Fin b')) with false. cbv iota.
    assert (N : exists n, (if adj then Fin 1 else Fin al : V) = Fin n /\ 0 < n) by (destruct adj; eexists; split; try reflexivity; lra).
    destruct N as (n & En & Hn). rewrite En, !ewma_step by assumption. cbv iota.
    assert (M : off g (Fin ((o * (1 - al) * a + n * b) / (o * (1 - al) + n))) (Fin ((o * (1 - al) * a' + n * b') / (o * (1 - al) + n)))).
    { unfold off. replace (_ - _) with ((o * (1 - al) * (a' - a) + n * (b' - b)) / (o * (1 - al) + n)) by (field; lra).
      apply mix_in; auto; lra. }
    constructor; [exact M|]. destruct adj; rewrite ?vadd_fin; apply IH; auto; try exact I; lra.
Qed.
Lemma prep_plain s : Forall plainv (map prep s).
Proof. induction s as [|x s IH]; cbn; constructor; auto. now destruct x. Qed.
Lemma off_ser_ewma g al adj s s' : 0 < al <= 1 -> Forall2 (off g) s s' -> Forall2 (off g) (ser_ewma (Fin al) adj s) (ser_ewma (Fin al) adj s').
Proof.
  intros H F. assert (P : Forall2 (off g) (map prep s) (map prep s')).
  { apply (F2_map (off g)); auto. intros x y. apply decided_prep, off_decided. }
  unfold ser_ewma. pose proof (prep_plain s) as L. destruct P as [|x y l m X P]; [constructor|]. inversion L; subst. constructor; [exact X|].
  rewrite v1_fin. apply off_ewma_from; auto. lra.
Qed.
Lemma off_ser_diff g s s' p : Forall2 (off g) s s' -> Forall2 (off (gsub g g)) (ser_diff s p) (ser_diff s' p).
Proof.
  intro F. unfold ser_diff. apply (F2_map2 (off g) (off g)); auto; [intros; now apply off_sub|]. apply F2_shift; auto. reflexivity.
Qed.
