(** Prices moved by a constant or mirrored at a level: bands, ranges and directional movement. *)
From Coq Require Import ZArith QArith List Bool Reals Lia Lra.
From Verif Require Import Num Series Line LineFacts OpFacts Spec RSpec RFacts StatFacts MAFacts PropLinesFacts OperandFacts
  UnitSpec UnitFacts MoveSpec MoveFacts MoveFacts2 MoveFacts3 CausalFacts CatalogR CatalogR2 CatalogSpec
  IndMA IndBasic IndStat IndRange IndOsc IndVol Apply IndSar Catalog.
Import ListNotations.
Local Open Scope R_scope.
Arguments skipn : simpl never.
Arguments firstn : simpl never.
Local Notation V := (ext R).

(** ** errors: an average can only fail with an IndexError *)
Definition ixerr {A} (r : res A) : Prop := forall e, r = Raise e -> e = IndexError.
Lemma ix_ok {A} (a : A) : ixerr (Ok a). Proof. intros e H. discriminate. Qed.
Lemma ix_bind {A B} (r : res A) (f : A -> res B) : ixerr r -> (forall a, ixerr (f a)) -> ixerr (bind r f).
Proof. intros H K e. destruct r; cbn [bind]; [apply K|]. intros [= <-]. now apply H. Qed.
Lemma ix_getitem {A} (s : list A) i : ixerr (getitem s i).
Proof.
  unfold getitem. destruct (_ <? 0)%Z; cbv zeta; try (intros e [= <-]; reflexivity);
    destruct (_ <? 0)%Z; try (intros e [= <-]; reflexivity);
    destruct (nth_error _ _); [apply ix_ok|intros e [= <-]; reflexivity|apply ix_ok|intros e [= <-]; reflexivity].
Qed.
Lemma ix_ewm (a : line V) pval po pe alp sd F : (forall s, ixerr (F s)) -> ixerr (ewm_call a pval po pe alp sd F).
Proof.
  intro H. unfold ewm_call. apply ix_bind.
  - unfold mf_ewm. cbv zeta.
    assert (L : forall (s : list V) v, ixerr (match rev s with [] => Raise IndexError | _ :: r => Ok (rev (v :: r)) end)).
    { intros s v e. destruct (rev s); intros [= <-]; reflexivity. }
    apply ix_bind; [|intro; apply ix_ok].
    destruct sd; try apply L; try apply ix_ok. apply ix_bind; [apply ix_getitem|intro; apply L].
  - intro o. unfold mf_call. cbn [snd]. apply ix_bind; [apply H|intro; apply ix_ok].
Qed.
Lemma ix_dyn_from al : forall (x : V) s, ixerr (dyn_from x al s).
Proof.
  induction al as [|a al IH]; intros x s; [apply ix_ok|]. destruct s as [|y s]; [intros e [= <-]; reflexivity|].
  cbn [dyn_from]. cbv zeta. apply ix_bind; [apply IH|intro; apply ix_ok].
Qed.
Lemma ix_avg (a : avg V) : forall p l, ixerr (avg_fun a p l).
Proof.
  induction a; intros p l; cbn [avg_fun]; try apply ix_ok.
  - apply ix_ewm. intro. apply ix_ok.
  - apply ix_ewm. intro. apply ix_ok.
  - unfold dema. repeat (apply ix_bind; [apply IHa|intro]). apply ix_ok.
  - unfold tema. repeat (apply ix_bind; [apply IHa|intro]). apply ix_ok.
  - unfold trix. repeat (apply ix_bind; [apply IHa|intro]). apply ix_ok.
  - unfold gdema. repeat (apply ix_bind; [apply IHa|intro]). apply ix_ok.
  - unfold t3. repeat (apply ix_bind; [apply ix_ewm; intro; apply ix_ok|intro]). apply ix_ok.
  - unfold t3_gd, gdema. repeat (apply ix_bind; [repeat (apply ix_bind; [apply IHa|intro]); apply ix_ok|intro]).
    repeat (apply ix_bind; [apply IHa|intro]); apply ix_ok.
  - apply ix_ewm. intro s. unfold dyn_mean. destruct (map prep s); [intros e [= <-]; reflexivity|].
    apply ix_bind; [apply ix_dyn_from|intro; apply ix_ok].
  - apply ix_ewm. intro. apply ix_ok.
Qed.
Lemma ix_smoother alt pe (ma : avg V) p l : ixerr (dm_smoother alt pe (avg_fun ma) p l).
Proof. unfold dm_smoother. destruct alt; [apply ix_avg|]. apply ix_ewm. intro. apply ix_ok. Qed.
Lemma bind_swap {A B C} (r : res A) (q : res B) (f : A -> B -> res C) : ixerr r -> ixerr q ->
  bind r (fun x => bind q (fun y => f x y)) = bind q (fun y => bind r (fun x => f x y)).
Proof.
  intros H K. destruct r as [x|e], q as [y|e']; cbn [bind]; try reflexivity.
  rewrite (H e eq_refl), (K e' eq_refl). reflexivity.
Qed.

Lemma del_mapl m t l n k g : delivers l n k g -> delivers (mapl (aff m t) l) n k (fun i => aff m t (g i)).
Proof.
  intros [F N]. split; [now apply feeds_mapl|]. intros i Hi Hn. cbn [lser mapl].
  rewrite nth_error_map, N by assumption. cbn [option_map]. f_equal. apply aff_nan.
Qed.

Lemma neg_neg (l : line V) : mapl (aff true 0) (mapl (aff true 0) l) = l.
Proof.
  destruct l as [p s]. unfold mapl. cbn [lmp lser]. f_equal. rewrite map_map. rewrite <- (map_id s) at 2. apply map_ext.
  intro x. unfold aff. destruct x; try reflexivity. cbn. f_equal. ring.
Qed.

Section Ind.
  Variable m : bool.
  Variable n : nat.
  Notation mv t := (mapl (aff m t)).
  Notation mx := (MoveFacts.mx m).
  Implicit Types (h l c o v : line V).

  Lemma neg_diff (lb : nat) (l : line V) : (1 <= lb)%nat -> fit n l ->
    mapl (aff true 0) (diff l (Z.of_nat lb)) = downmove lb l.
  Proof.
    intros B L. apply fit_feeds in L. unfold downmove.
    assert (D0 : delivers (diff l (Z.of_nat lb)) n (st l + lb) (fun i => vsub (val l i) (val l (i - lb))))
      by (apply diff_delivers; [intro x; now destruct x|exact L]).
    pose proof (del_mapl true 0 _ _ _ _ D0) as D1.
    pose proof (binop_delivers vsub (delivers_feeds (at_ago_delivers L B)) L) as D2.
    replace (Nat.max (st l + lb) (st l)) with (st l + lb)%nat in D2 by lia.
    eapply delivers_same; [exact D1|exact D2|]. intros i _. apply neg_sub.
  Qed.
  Lemma mv_upmove t lb h l : (1 <= lb)%nat -> fit n l ->
    upmove lb (mv t (mx h l)) = mx (upmove lb h) (downmove lb l).
  Proof.
    intros B L. unfold upmove. rewrite mv_diff. unfold MoveFacts.mx. destruct m; [now apply neg_diff|apply mapl_id].
  Qed.
  Lemma mv_downmove t lb h l : (1 <= lb)%nat -> fit n h ->
    downmove lb (mv t (mx l h)) = mx (downmove lb l) (upmove lb h).
  Proof.
    intros B H. unfold downmove. rewrite mv_at_ago, mv_sub_same. unfold MoveFacts.mx. destruct m; [|apply mapl_id].
    change (lsub (at_ago h (- Z.of_nat lb)) h) with (downmove lb h). rewrite <- (neg_diff lb h B H). apply neg_neg.
  Qed.
  Lemma mv_pdm1 t lb h l : (1 <= lb)%nat -> fit n h -> fit n l ->
    pdm1 lb (mv t (mx h l)) (mv t (mx l h)) = mx pdm1 mdm1 lb h l.
  Proof.
    intros B H L. unfold pdm1, mdm1. rewrite mv_upmove, mv_downmove by assumption. unfold MoveFacts.mx. now destruct m.
  Qed.
  Lemma mv_mdm1 t lb h l : (1 <= lb)%nat -> fit n h -> fit n l ->
    mdm1 lb (mv t (mx h l)) (mv t (mx l h)) = mx mdm1 pdm1 lb h l.
  Proof.
    intros B H L. unfold pdm1, mdm1. rewrite mv_upmove, mv_downmove by assumption. unfold MoveFacts.mx. now destruct m.
  Qed.
  Lemma mv_truerange t lb h l c : (1 <= lb)%nat -> fit n h -> fit n l -> fit n c ->
    truerange lb (mv t (mx h l)) (mv t (mx l h)) (mv t c) = truerange lb h l c.
  Proof.
    intros B H L C. unfold truerange. cbv zeta. rewrite mv_at_ago, mv_clip_lo_l, mv_clip_hi_l.
    rewrite <- (sub_range m n t (lclip_lo_l (at_ago c (- Z.of_nat lb)) h) (lclip_hi_l (at_ago c (- Z.of_nat lb)) l)) by fits.
    unfold MoveFacts.mx. now destruct m.
  Qed.
  Lemma mv_truelow t lb h l c : (1 <= lb)%nat -> fit n h -> fit n l -> fit n c ->
    truelow lb (mv t (mx l h)) (mv t c) =
      mv t (mx (truelow lb l c) (lclip_lo_l (at_ago c (- Z.of_nat lb)) h)).
  Proof.
    intros B H L C. unfold truelow. rewrite mv_at_ago, mv_clip_hi_l. unfold MoveFacts.mx. now destruct m.
  Qed.
  Lemma mv_atr t ma p lb h l c : (1 <= lb)%nat -> fit n h -> fit n l -> fit n c ->
    atr ma p lb (mv t (mx h l)) (mv t (mx l h)) (mv t c) = atr ma p lb h l c.
  Proof. intros. unfold atr. now rewrite mv_truerange. Qed.

  Section DM.
    Variables (sm : line V -> res (line V)) (lb : nat) (h l c : line V) (t : R).
    Hypothesis Hix : forall a, ixerr (sm a).
    Hypotheses (B : (1 <= lb)%nat) (H : fit n h) (L : fit n l) (C : fit n c).
    Hypothesis Hfit : forall a r, fit n a -> (Z.of_nat lb + 1 <= lmp a)%Z -> sm a = Ok r -> fit n r.
    Notation h' := (mv t (mx h l)).
    Notation l' := (mv t (mx l h)).
    Notation c' := (mv t c).
    Definition swap2 {A} (p : A * A) : A * A := (mx (fst p) (snd p), mx (snd p) (fst p)).

    Lemma mv_plus_dm : plus_dm sm lb h' l' = mx plus_dm minus_dm sm lb h l.
    Proof. unfold plus_dm, minus_dm. rewrite mv_pdm1 by assumption. unfold MoveFacts.mx. now destruct m. Qed.
    Lemma mv_minus_dm : minus_dm sm lb h' l' = mx minus_dm plus_dm sm lb h l.
    Proof. unfold plus_dm, minus_dm. rewrite mv_mdm1 by assumption. unfold MoveFacts.mx. now destruct m. Qed.
    Lemma mv_dm : dm sm lb h' l' = converted swap2 (dm sm lb h l).
    Proof.
      unfold dm. rewrite mv_plus_dm, mv_minus_dm. unfold MoveFacts.mx, swap2. unfold MoveFacts.mx. destruct m.
      - unfold plus_dm, minus_dm. rewrite bind_swap by apply Hix. destruct (sm (pdm1 lb h l)) as [x|]; [|reflexivity].
        cbn [bind]. now destruct (sm (mdm1 lb h l)).
      - destruct (plus_dm sm lb h l) as [x|]; [|reflexivity]. cbn [bind]. now destruct (minus_dm sm lb h l).
    Qed.
    Lemma mv_di_range : di_range sm lb h' l' c' = di_range sm lb h l c.
    Proof. unfold di_range. now rewrite mv_truerange. Qed.
    Lemma mv_plus_di : plus_di sm lb h' l' c' = mx plus_di minus_di sm lb h l c.
    Proof.
      unfold plus_di, minus_di. rewrite mv_plus_dm, mv_di_range. unfold MoveFacts.mx. now destruct m.
    Qed.
    Lemma mv_minus_di : minus_di sm lb h' l' c' = mx minus_di plus_di sm lb h l c.
    Proof.
      unfold plus_di, minus_di. rewrite mv_minus_dm, mv_di_range. unfold MoveFacts.mx. now destruct m.
    Qed.
    Lemma mv_di : di sm lb h' l' c' = converted swap2 (di sm lb h l c).
    Proof.
      unfold di. rewrite mv_dm, mv_di_range. destruct (dm sm lb h l) as [[x y]|]; [|reflexivity]. cbn [bind converted].
      destruct (di_range sm lb h l c) as [r|]; [|reflexivity]. cbn [bind converted]. unfold swap2, MoveFacts.mx.
      cbn [fst snd]. now destruct m.
    Qed.
    Lemma di_fit p : di sm lb h l c = Ok p -> fit n (fst p) /\ fit n (snd p).
    Proof.
      unfold di, dm, plus_dm, minus_dm, di_range. intro E.
      destruct (sm (pdm1 lb h l)) as [x|] eqn:E1; [|discriminate]. cbn [bind] in E.
      destruct (sm (mdm1 lb h l)) as [y|] eqn:E2; [|discriminate]. cbn [bind] in E.
      destruct (sm (truerange lb h l c)) as [z|] eqn:E3; [|discriminate]. cbn [bind fst snd] in E. injection E as <-.
      assert (fit n x /\ fit n y /\ fit n z) as (X & Y & Z).
      { destruct H as [H1 H2], L as [L1 L2], C as [C1 C2].
        split; [|split].
        - refine (Hfit _ _ _ _ E1); [|apply (pdm1_mp (le_n n)); assumption]. unfold pdm1. unfold upmove, downmove.
          eapply del_fit, mul_b_delivers; [eapply fit_feeds; fits|].
          eapply bdelivers_bfeeds, cmpop_bdelivers; eapply fit_feeds; fits.
        - refine (Hfit _ _ _ _ E2); [|apply (mdm1_mp (le_n n)); assumption]. unfold mdm1. unfold upmove, downmove.
          eapply del_fit, mul_b_delivers; [eapply fit_feeds; fits|].
          eapply bdelivers_bfeeds, cmpop_bdelivers; eapply fit_feeds; fits.
        - refine (Hfit _ _ _ _ E3); [|apply (truerange_mp (le_n n)); assumption]. unfold truerange. fits. }
      assert (Z' : fit n (mkLine (lmp z + 1) (lser z))) by (destruct Z as [Z1 Z2]; split; cbn; [lia|exact Z2]).
      cbn [fst snd]. split; fits.
    Qed.
    Lemma mv_dx : dx sm lb h' l' c' = dx sm lb h l c.
    Proof.
      unfold dx. rewrite mv_di. destruct (di sm lb h l c) as [[x y]|] eqn:E; [|reflexivity]. cbn [bind converted fst snd].
      apply di_fit in E. cbn [fst snd] in E. destruct E as [X Y]. unfold swap2, MoveFacts.mx. cbn [fst snd].
      destruct m; [|reflexivity]. rewrite (add_comm n y x) by assumption. rewrite <- (neg_op n y x) by assumption.
      now rewrite mv0_abs.
    Qed.
    Lemma mv_adx ma p : adx ma p sm lb h' l' c' = adx ma p sm lb h l c.
    Proof. unfold adx. now rewrite mv_dx. Qed.
    Lemma mv_adxr ta pr ma p : adxr ta pr ma p sm lb h' l' c' = adxr ta pr ma p sm lb h l c.
    Proof. unfold adxr. now rewrite mv_adx. Qed.
  End DM.

  (** ** bands, distance from the mean *)
  Lemma mv_add_fix t (a b : line V) : ladd (mv t a) b = mv t (mx ladd lsub a b).
  Proof.
    rewrite <- (mapl_id b) at 1. transitivity (mv t (binop (fun x y => mx vadd vsub x y) a b)).
    - apply g_binop; auto with aff. intros x y. rewrite aff_id. unfold aff, MoveFacts.mx.
      destruct m, x, y; try reflexivity; cbn; f_equal; ring.
    - unfold MoveFacts.mx. now destruct m.
  Qed.
  Lemma mv_sub_fix t (a b : line V) : lsub (mv t a) b = mv t (mx lsub ladd a b).
  Proof.
    rewrite <- (mapl_id b) at 1. transitivity (mv t (binop (fun x y => mx vsub vadd x y) a b)).
    - apply g_binop; auto with aff. intros x y. rewrite aff_id. unfold aff, MoveFacts.mx.
      destruct m, x, y; try reflexivity; cbn; f_equal; ring.
    - unfold MoveFacts.mx. now destruct m.
  Qed.
  Lemma mv_bbands t p devs ma sd c : follows m t ma p ->
    bbands p devs ma sd (mv t c) =
      converted (fun r => (mv t (fst (fst r)), mv t (mx (snd (fst r)) (snd r)), mv t (mx (snd r) (snd (fst r)))))
        (bbands p devs ma sd c).
  Proof.
    intro F. unfold bbands. rewrite F. destruct (ma p c) as [x|]; [|reflexivity]. cbn [bind converted fst snd].
    rewrite mv_stddev, mv_add_fix, mv_sub_fix. unfold MoveFacts.mx. now destruct m.
  Qed.
  Lemma mv_cci t p factor ma dev h l c : fit n h -> fit n l -> follows m t ma p ->
    cci p factor ma dev (mv t (mx h l)) (mv t (mx l h)) (mv t c) = converted (mv 0) (cci p factor ma dev h l c).
  Proof.
    intros H L F. unfold cci. cbv zeta. rewrite (add_pair m n t h l H L), mv_add, vofZ_fin, mv_div_s by lra.
    replace ((t + t + t) / 3) with t by field. rewrite F.
    destruct (ma p _) as [x|]; [|reflexivity]. cbn [bind converted]. now rewrite mv_mad, mv_sub_same, mv0_div.
  Qed.
End Ind.

Lemma smoother_fit n alt pe (ma : avg V) p lb : dm_ok alt pe p lb -> forall a r, fit n a -> (Z.of_nat lb + 1 <= lmp a)%Z ->
  dm_smoother alt pe (avg_fun ma) p a = Ok r -> fit n r.
Proof.
  intros D a r A M E. apply fit_Rl in A.
  destruct (R_dm_smoother (le_n n) (R_avg (le_n n) ma) D A M E) as (r' & E' & K).
  rewrite E in E'. injection E' as <-. now apply fit_Rl.
Qed.
