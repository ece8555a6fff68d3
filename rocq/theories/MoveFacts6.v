(** Prices moved by a constant or mirrored at a level: quotients of sums over windows. *)
From Coq Require Import ZArith QArith List Bool Reals Lia Lra Classical.
From Verif Require Import Num Series Line LineFacts OpFacts Spec RSpec RFacts RLineFacts StatFacts MAFacts BoundSpec OscFacts PropLinesFacts OperandFacts
  UnitSpec UnitFacts MoveSpec MoveFacts MoveFacts2 MoveFacts3 MoveFacts4 MoveFacts5 CausalFacts CatalogR CatalogR2 CatalogSpec
  IndMA IndBasic IndStat IndRange IndOsc IndVol Apply IndSar Catalog.
Import ListNotations.
Local Open Scope R_scope.
Arguments skipn : simpl never.
Arguments firstn : simpl never.
Local Notation V := (ext R).

Definition sumg (f : nat -> V) (js : list nat) : V := guard_win win_sum (map f js).
Lemma sumg_fin f g js : (forall j, In j js -> f j = Fin (g j)) -> sumg f js = Fin (Rsum (map g js)).
Proof.
  intro H. unfold sumg, guard_win.
  assert (E : map prep (map f js) = map (@Fin R) (map g js)).
  { rewrite !map_map. apply map_ext_in. intros j J. now rewrite H. }
  rewrite E. assert (B : existsb visnan (map (@Fin R) (map g js)) = false).
  { generalize (map g js). intro s. induction s; auto. }
  rewrite B. unfold win_sum. now rewrite vsum_fin.
Qed.
Lemma sumg_nan f js j : In j js -> (forall r, f j <> Fin r) -> sumg f js = NaN.
Proof.
  intros J H. unfold sumg, guard_win. assert (B : existsb visnan (map prep (map f js)) = true).
  { apply existsb_exists. exists (prep (f j)). split; [now apply in_map, in_map|]. destruct (f j) as [| | |r]; try reflexivity. now destruct (H r). }
  now rewrite B.
Qed.
Definition num (x : V) : R := match x with Fin a => a | _ => 0 end.
Lemma sumg_cases (f : nat -> V) js :
  (forall j, In j js -> f j = Fin (num (f j))) \/ (exists j, In j js /\ forall r, f j <> Fin r).
Proof.
  destruct (classic (exists j, In j js /\ forall r, f j <> Fin r)) as [H|H]; [now right|left].
  intros j J. destruct (f j) eqn:E; try (exfalso; apply H; exists j; split; [exact J|]; intros r Q; congruence). reflexivity.
Qed.
Lemma sub_num (x y : V) r : vsub x y = Fin r -> x = Fin (num x) /\ y = Fin (num y).
Proof. destruct x, y; try discriminate. auto. Qed.
Lemma sub_not_num (x y : V) : (forall r, y <> Fin r) -> forall r, vsub x y <> Fin r.
Proof. intros H r E. apply sub_num in E. destruct E as [_ E]. exact (H _ E). Qed.
Lemma sub_not_num_l (x y : V) : (forall r, x <> Fin r) -> forall r, vsub x y <> Fin r.
Proof. intros H r E. apply sub_num in E. destruct E as [E _]. exact (H _ E). Qed.
Lemma div_nan (x : V) : vdiv x NaN = NaN. Proof. now destruct x. Qed.
Lemma num_sub a b : num (vsub (Fin a : V) (Fin b)) = a - b. Proof. reflexivity. Qed.

Lemma share_point (A B C : nat -> V) js :
  vdiv (sumg (fun j => vsub (A j) (C j)) js) (sumg (fun j => vsub (A j) (B j)) js) =
  aff true 1 (vdiv (sumg (fun j => vsub (C j) (B j)) js) (sumg (fun j => vsub (A j) (B j)) js)).
Proof.
  destruct (sumg_cases (fun j => vsub (A j) (B j)) js) as [H|(j & J & H)].
  2: { rewrite (sumg_nan (fun j => vsub (A j) (B j)) js j J H), !div_nan. reflexivity. }
  destruct (sumg_cases C js) as [K|(j & J & K)].
  2: { rewrite (sumg_nan (fun j => vsub (A j) (C j)) js j J), (sumg_nan (fun j => vsub (C j) (B j)) js j J).
       - destruct (sumg _ js); reflexivity.
       - now apply sub_not_num_l.
       - now apply sub_not_num. }
  assert (HA : forall j, In j js -> A j = Fin (num (A j)) /\ B j = Fin (num (B j))) by (intros j J; eapply sub_num, H, J).
  rewrite (sumg_fin (fun j => vsub (A j) (C j)) (fun j => num (A j) - num (C j))),
    (sumg_fin (fun j => vsub (A j) (B j)) (fun j => num (A j) - num (B j))),
    (sumg_fin (fun j => vsub (C j) (B j)) (fun j => num (C j) - num (B j))).
  2-4: intros j J; destruct (HA j J) as [EA EB]; specialize (K j J); cbv beta; destruct (A j), (B j), (C j); try discriminate; reflexivity.
  set (sAB := Rsum (map (fun j => num (A j) - num (B j)) js)). set (sCB := Rsum (map (fun j => num (C j) - num (B j)) js)).
  assert (E : Rsum (map (fun j => num (A j) - num (C j)) js) = sAB - sCB).
  { unfold sAB, sCB. clear. induction js as [|j js IH]; cbn [map]; [cbn; ring|]. rewrite !Rsum_cons, IH. ring. }
  rewrite E. pose proof (ratio1 (Fin sAB) (Fin 0) (Fin sCB) I I) as Q. rewrite !vsub_fin, !Rminus_0_r in Q. exact Q.
Qed.
Lemma share_line n p (A B C : line V) : (1 <= p)%nat -> fit n A -> fit n B -> fit n C ->
  ldiv (sumn p (lsub A C)) (sumn p (lsub A B)) = mapl (aff true 1) (ldiv (sumn p (lsub C B)) (sumn p (lsub A B))).
Proof.
  intros P FA FB FC. bars_of. exact (share_point (val A) (val B) (val C) (seq (S i - p) p)).
Qed.

Section Ind.
  Variable m : bool.
  Variable n : nat.
  Notation mv t := (mapl (aff m t)).
  Notation mx := (MoveFacts.mx m).
  Implicit Types (h l c o v : line V).
  Lemma mv_share t p h l c : (1 <= p)%nat -> fit n h -> fit n l -> fit n c ->
    ldiv (sumn p (lsub (mv t c) (truelow 1 (mv t (mx l h)) (mv t c)))) (sumn p (truerange 1 (mv t (mx h l)) (mv t (mx l h)) (mv t c))) =
    mv (kap m 1) (ldiv (sumn p (lsub c (truelow 1 l c))) (sumn p (truerange 1 h l c))).
  Proof.
    intros P H L C. rewrite (mv_truerange m n), (mv_truelow m n) by (assumption || lia). rewrite mv_sub_same.
    unfold MoveFacts.mx, kap. destruct m; [|now rewrite !mapl_id].
    rewrite (neg_op n); [|unfold truelow; fits|exact C]. unfold truerange, truelow. cbv zeta. apply (share_line n); fits.
  Qed.
  Lemma mv_ultosc t p1 p2 p3 f1 f2 f3 h l c : (1 <= p1)%nat -> (1 <= p2)%nat -> (1 <= p3)%nat -> fit n h -> fit n l -> fit n c ->
    ultosc p1 p2 p3 (Fin f1) (Fin f2) (Fin f3) (mv t (mx h l)) (mv t (mx l h)) (mv t c) =
      converted (mv (kap m 100)) (ultosc p1 p2 p3 (Fin f1) (Fin f2) (Fin f3) h l c).
  Proof.
    intros P1 P2 P3 H L C. unfold ultosc. cbv zeta. rewrite !vadd_fin.
    destruct (veqb (Fin (f1 + f2 + f3) : V) v0) eqn:E; [reflexivity|]. cbn [converted]. f_equal.
    rewrite !mv_share by assumption.
    assert (Z : f1 + f2 + f3 <> 0).
    { intro Q. rewrite Q in E. cbn in E. unfold beqb in E. cbn in E. unfold Rltb in E. destruct (Rlt_dec 0 0); [lra|discriminate]. }
    rewrite vofZ_fin, div_fin, !vmul_fin by exact Z. rewrite !mv_rmul_s, !mv_add. f_equal. f_equal.
    unfold kap. destruct m; field; exact Z.
  Qed.

  Lemma beta_point (X Y : nat -> V) t u js p : length js = p ->
    let B X Y := vdiv (vsub (vmul (vofZ (Z.of_nat p)) (sumg (fun j => vmul (X j) (Y j)) js)) (vmul (sumg X js) (sumg Y js)))
      (vsub (vmul (vofZ (Z.of_nat p)) (sumg (fun j => vmul (X j) (X j)) js)) (vmul (sumg X js) (sumg X js))) in
    B (fun j => aff m t (X j)) (fun j => aff m u (Y j)) = B X Y.
  Proof.
    intros E B. unfold B. clear B.
    assert (NF : forall (s : R) (x : V), (forall r, x <> Fin r) -> forall r, aff m s x <> Fin r).
    { intros s x H r. unfold aff. destruct m, x as [| | |q]; try discriminate; now destruct (H q). }
    destruct (sumg_cases X js) as [HX|(j & J & H)].
    2: { rewrite (sumg_nan X js j J H), (sumg_nan (fun j => aff m t (X j)) js j J (NF _ _ H)).
         assert (Q : forall a b c : V, vdiv (vsub a (vmul NaN b)) c = NaN) by (intros [| | |] [| | |] [| | |]; reflexivity).
         now rewrite !Q. }
    destruct (sumg_cases Y js) as [HY|(j & J & H)].
    2: { rewrite (sumg_nan Y js j J H), (sumg_nan (fun j => aff m u (Y j)) js j J (NF _ _ H)).
         assert (Q : forall a b c : V, vdiv (vsub a (vmul b NaN)) c = NaN) by (intros [| | |] [| | |] [| | |]; reflexivity).
         now rewrite !Q. }
    set (x := fun j => num (X j)). set (y := fun j => num (Y j)).
    assert (S1 : sumg X js = Fin (Rsum (map x js))) by (apply sumg_fin; exact HX).
    assert (S2 : sumg Y js = Fin (Rsum (map y js))) by (apply sumg_fin; exact HY).
    assert (S3 : sumg (fun j => vmul (X j) (Y j)) js = Fin (Rsum (map (fun j => x j * y j) js))).
    { apply sumg_fin. intros j J. unfold x, y. rewrite (HX j J), (HY j J) at 1. reflexivity. }
    assert (S4 : sumg (fun j => vmul (X j) (X j)) js = Fin (Rsum (map (fun j => x j * x j) js))).
    { apply sumg_fin. intros j J. unfold x. rewrite (HX j J) at 1 2. reflexivity. }
    assert (T1 : sumg (fun j => aff m t (X j)) js = Fin (Rsum (map (fun j => af m t (x j)) js))).
    { apply sumg_fin. intros j J. unfold x. rewrite (HX j J) at 1. apply aff_fin. }
    assert (T2 : sumg (fun j => aff m u (Y j)) js = Fin (Rsum (map (fun j => af m u (y j)) js))).
    { apply sumg_fin. intros j J. unfold y. rewrite (HY j J) at 1. apply aff_fin. }
    assert (T3 : sumg (fun j => vmul (aff m t (X j)) (aff m u (Y j))) js = Fin (Rsum (map (fun j => af m t (x j) * af m u (y j)) js))).
    { apply sumg_fin. intros j J. unfold x, y. rewrite (HX j J), (HY j J) at 1. rewrite !aff_fin. reflexivity. }
    assert (T4 : sumg (fun j => vmul (aff m t (X j)) (aff m t (X j))) js = Fin (Rsum (map (fun j => af m t (x j) * af m t (x j)) js))).
    { apply sumg_fin. intros j J. unfold x. rewrite (HX j J) at 1 2. rewrite !aff_fin. reflexivity. }
    rewrite S1, S2, S3, S4, T1, T2, T3, T4. rewrite vofZ_fin, IZR_nat, !vmul_fin, !vsub_fin. rewrite <- E.
    assert (SUM : forall s z, Rsum (map (fun j => af m s (z j)) js) = INR (length js) * s + (if m then -1 else 1) * Rsum (map z js)).
    { intros s z. clear. induction js as [|j js IH]; [cbn; destruct m; ring|]. cbn [map length]. rewrite !Rsum_cons, IH, S_INR.
      unfold af. destruct m; ring. }
    assert (PROD : forall (s q : R) (z w : nat -> R), Rsum (map (fun j => af m s (z j) * af m q (w j)) js) =
      INR (length js) * (s * q) + (if m then -1 else 1) * (s * Rsum (map w js) + q * Rsum (map z js)) + Rsum (map (fun j => z j * w j) js)).
    { intros s q z w. clear. induction js as [|j js IH]; [cbn; destruct m; ring|]. cbn [map length]. rewrite !Rsum_cons, IH, S_INR.
      unfold af. destruct m; ring. }
    rewrite !SUM, !PROD. f_equal; f_equal; destruct m; ring.
  Qed.
  Lemma beta_bars p pr (a b : line V) k1 k2 f g : (1 <= p)%nat -> feeds a n k1 f -> feeds b n k2 g ->
    delivers (beta p pr false a b) n (Nat.max k1 k2 + p - 1) (fun i => let js := seq (S i - p) p in
      vdiv (vsub (vmul (vofZ (Z.of_nat p)) (sumg (fun j => vmul (f j) (g j)) js)) (vmul (sumg f js) (sumg g js)))
      (vsub (vmul (vofZ (Z.of_nat p)) (sumg (fun j => vmul (f j) (f j)) js)) (vmul (sumg f js) (sumg f js)))).
  Proof.
    intros P A B. unfold beta. cbv zeta. unfold pow2.
    pose proof (delivers_feeds (rolling_delivers win_sum P A)) as SX.
    pose proof (delivers_feeds (rolling_delivers win_sum P B)) as SY.
    pose proof (delivers_feeds (rolling_delivers win_sum P (delivers_feeds (binop_s_delivers (fun x _ => vmul x x) (vofZ 2) A)))) as SXX.
    pose proof (delivers_feeds (rolling_delivers win_sum P (delivers_feeds (binop_delivers vmul A B)))) as SXY.
    pose proof (delivers_feeds (rbinop_s_delivers vmul (vofZ (Z.of_nat p)) SXY)) as N1.
    pose proof (delivers_feeds (binop_delivers vmul SX SY)) as N2.
    pose proof (delivers_feeds (rbinop_s_delivers vmul (vofZ (Z.of_nat p)) SXX)) as D1.
    pose proof (delivers_feeds (binop_s_delivers (fun x _ => vmul x x) (vofZ 2) SX)) as D2.
    pose proof (delivers_feeds (binop_delivers vsub N1 N2)) as N.
    pose proof (delivers_feeds (binop_delivers vsub D1 D2)) as D.
    pose proof (binop_delivers vdiv N D) as R.
    replace (Nat.max k1 k2 + p - 1)%nat with
      (Nat.max (Nat.max (Nat.max k1 k2 + p - 1) (Nat.max (k1 + p - 1) (k2 + p - 1))) (Nat.max (k1 + p - 1) (k1 + p - 1)))%nat by lia.
    exact R.
  Qed.
  Lemma mv_beta t u p pr (a b : line V) : (1 <= p)%nat -> fit n a -> fit n b ->
    beta p pr false (mv t a) (mv u b) = beta p pr false a b.
  Proof.
    intros P A B. pose proof (fit_feeds _ _ A) as FA. pose proof (fit_feeds _ _ B) as FB.
    pose proof (beta_bars p pr _ _ _ _ _ _ P (feeds_mapl (aff m t) _ _ _ _ FA) (feeds_mapl (aff m u) _ _ _ _ FB)) as Q.
    pose proof (beta_bars p pr _ _ _ _ _ _ P FA FB) as Q'.
    eapply same_bars; [exact Q|exact Q'|reflexivity|]. intros i _. cbv zeta.
    exact (beta_point (val a) (val b) t u (seq (S i - p) p) p (seq_length _ _)).
  Qed.
End Ind.
