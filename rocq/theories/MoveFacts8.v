(** Prices upside down: every indicator of the catalogue, and programs. *)
From Coq Require Import ZArith QArith List Bool Reals Lia Lra.
From Verif Require Import Num Series Line LineFacts OpFacts Spec RSpec RFacts StatFacts MAFacts PropLinesFacts OperandFacts
  UnitSpec UnitFacts MoveSpec MoveFacts MoveFacts2 MoveFacts3 MoveFacts4 MoveFacts5 MoveFacts6 CausalFacts CatalogR CatalogR2 CatalogSpec CatalogFacts
  IndMA IndBasic IndStat IndRange IndOsc IndVol Apply IndSar IndHT Catalog UnitFacts4 MoveFacts7.
Import ListNotations.
Local Open Scope R_scope.
Arguments skipn : simpl never.
Arguments firstn : simpl never.
Local Notation V := (ext R).
Local Notation mr t := (mapl (aff true t)).

Lemma mirrored_mr t l : mirrored t l = mr t l. Proof. reflexivity. Qed.
Lemma o1_mir t r r' : r = converted (mr t) r' -> o1 r = converted (views [Mir t 0]) (o1 r').
Proof. intros ->. now destruct r'. Qed.
Lemma o1_as (r r' : res (line V)) : r = r' -> o1 r = converted (views [As 0]) (o1 r').
Proof. intros ->. now destruct r'. Qed.
Lemma ok_mir t r r' : r = mr t r' -> Ok [r] = converted (views [Mir t 0]) (Ok [r']).
Proof. intros ->. reflexivity. Qed.
Lemma ok_as (r r' : line V) : r = r' -> Ok [r] = converted (views [As 0]) (Ok [r']).
Proof. intros ->. reflexivity. Qed.
Lemma o2_mir t r r' : r = converted (fun r => (mr t (fst r), mr t (snd r))) r' -> o2 r = converted (views [Mir t 0; Mir t 1]) (o2 r').
Proof. intros ->. now destruct r' as [[]|]. Qed.
Lemma o2_swap (r r' : res (line V * line V)) : r = converted (swap2 true) r' -> o2 r = converted (views [As 1; As 0]) (o2 r').
Proof. intros ->. now destruct r' as [[]|]. Qed.
Lemma o3_mir t r r' : r = converted (fun r => (mr t (fst (fst r)), mr t (snd (fst r)), mr t (snd r))) r' ->
  o3 r = converted (views [Mir t 0; Mir t 1; Mir t 2]) (o3 r').
Proof. intros ->. now destruct r' as [[[]]|]. Qed.
Lemma views_as_from ls : forall pre, views (map As (seq (length pre) (length ls))) (pre ++ ls) = ls.
Proof.
  induction ls as [|l ls IH]; intro pre; [reflexivity|]. cbn [length seq map views flat_map see].
  rewrite nth_error_app2, Nat.sub_diag by lia. cbn [nth_error app]. f_equal. specialize (IH (pre ++ [l])).
  rewrite app_length, <- app_assoc in IH. cbn [length app] in IH. rewrite Nat.add_1_r in IH. exact IH.
Qed.
Lemma views_as ls : views (map As (seq 0 (length ls))) ls = ls.
Proof. exact (views_as_from ls []). Qed.

Lemma mr_flag c c' b : (forall x, vmul c (vofbool x) = aff true 0 (vmul c' (vofbool x))) -> rmul_b c b = mr 0 (rmul_b c' b).
Proof.
  intro H. unfold rmul_b. cbv zeta. unfold mapl. cbn [lmp lser]. f_equal.
  rewrite (map_ext _ (fun x => aff true 0 (vmul c' (vofbool x))) H), <- (map_map (fun x => vmul c' (vofbool x)) (aff true 0)).
  apply h_nans. apply aff_nan.
Qed.
Lemma mr_crossdown t s a b : crossdown s (mr t a) (mr t b) = mr 0 (crossup s a b).
Proof.
  unfold crossup, crossdown. rewrite (mv_down true t s a b : cross_down s (mr t a) (mr t b) = cross_up s a b).
  apply mr_flag. intros [|]; unfold vofbool, v1; rewrite ?v0_fin, ?vofZ_fin, !vmul_fin, aff_fin; f_equal; ring.
Qed.
Lemma mr_crossup t s a b : crossup s (mr t a) (mr t b) = mr 0 (crossdown s a b).
Proof.
  unfold crossup, crossdown. rewrite (mv_up true t s a b : cross_up s (mr t a) (mr t b) = cross_down s a b).
  apply mr_flag. intros [|]; unfold vofbool, v1; rewrite ?v0_fin, ?vofZ_fin, !vmul_fin, aff_fin; f_equal; ring.
Qed.

Section Run.
  Variable n : nat.
  Lemma run_mirror x vs x' ws ins : mirror x vs x' ws -> valid x -> Forall (fit n) ins -> length ins = length vs ->
    run x' (views vs ins) = converted (views ws) (run x ins).
  Proof.
    intros H Hv F L.
    destruct H; cbn [valid] in Hv;
      try (rewrite map_length, seq_length in L; subst k; rewrite views_as; destruct (run x ins) eqn:E; [|reflexivity]; cbn [converted];
        apply run_outputs in E; rewrite <- E, views_as; reflexivity);
      cbn [length bars_hl bars_hlc bars_ohlc app] in L;
      repeat (destruct ins as [|? ins]; cbn [length] in L; [discriminate L|injection L as L]);
      (destruct ins; [clear L|discriminate L]);
      repeat match goal with H : Forall _ (_ :: _) |- _ => inversion H; clear H; subst end;
      repeat match goal with H : Forall _ [] |- _ => clear H end;
      cbn [bars_hl bars_hlc bars_ohlc app views flat_map see nth_error option_map run in1 in2 in3 in4]; rewrite ?mirrored_mr.
    - apply o1_mir. now apply avg_level.
    - apply o1_mir. cbn [avg_fun converted]. now rewrite mv_min.
    - apply o1_mir. cbn [avg_fun converted]. now rewrite mv_max.
    - apply o1_mir. cbn [avg_fun converted]. now rewrite mv_sumn.
    - apply o1_mir. now apply avg_change.
    - apply o1_as. now apply avg_spread.
    - apply o1_as. cbn [avg_fun]. now rewrite mv_minindex.
    - apply o1_as. cbn [avg_fun]. now rewrite mv_maxindex.
    - apply ok_mir. now apply (mv_avgprice true n t d l l0 l1 l2).
    - apply ok_mir. now apply (mv_typprice true n t d l l0 l1).
    - apply ok_mir. now apply (mv_wclprice true n t w d l l0 l1).
    - apply ok_mir. now apply (mv_medprice true n t d l l0).
    - apply ok_mir. apply mv_add.
    - apply ok_mir. apply mv_sub.
    - cbn [o2 bind converted fst snd minmax views flat_map see nth_error option_map app]. now rewrite mv_max, mv_min.
    - apply ok_as. now rewrite mv_minindex_abs.
    - apply ok_as. now rewrite mv_maxindex_abs.
    - unfold minmaxindex. rewrite mv_maxindex_abs, mv_minindex_abs, mv_maxindex, mv_minindex. now destruct ab.
    - apply ok_mir. now apply (mv_midprice true n t p l l0).
    - apply o3_mir. unfold macd. apply mv_macd_from; now apply avg_level.
    - apply o3_mir. unfold macd_talib. apply mv_macd_from; [intro; apply mv_ewm_span; [lia|reflexivity]|apply mv_ema; lia|apply mv_ema; lia].
    - apply o1_mir. apply mv_apo; now apply avg_level.
    - apply ok_mir. apply mr_crossdown.
    - apply ok_mir. apply mr_crossup.
    - rewrite mv_bbands by now apply avg_level. now destruct (bbands _ _ _ _ _) as [[[]]|].
    - apply o1_mir. apply (mv_cci true n t p f _ _ l l0 l1); auto; now apply avg_level.
    - apply ok_as. now apply (mv_correl true n).
    - apply ok_as. now apply (mv_beta true n).
    - apply ok_as. now apply (mv_truerange true n t lb l l0 l1).
    - apply o1_as. now apply (mv_atr true n t _ p lb l l0 l1).
    - apply o1_as. now apply (mv_minus_dm true n (dm_smoother alt pe (avg_fun ma) p) lb l l0 t).
    - apply o1_as. now apply (mv_plus_dm true n (dm_smoother alt pe (avg_fun ma) p) lb l l0 t).
    - apply o2_swap. apply (mv_dm true n (dm_smoother alt pe (avg_fun ma) p) lb l l0 t); auto using ix_smoother.
    - apply o1_as. now apply (mv_minus_di true n (dm_smoother alt pe (avg_fun ma) p) lb l l0 l1 t).
    - apply o1_as. now apply (mv_plus_di true n (dm_smoother alt pe (avg_fun ma) p) lb l l0 l1 t).
    - apply o2_swap. apply (mv_di true n (dm_smoother alt pe (avg_fun ma) p) lb l l0 l1 t); auto using ix_smoother.
    - apply o1_as. apply (mv_dx true n (dm_smoother alt pe (avg_fun ma) p) lb l l0 l1 t); auto using ix_smoother; now apply smoother_fit.
    - apply o1_as. apply (mv_adx true n (dm_smoother alt pe (avg_fun ma) p) lb l l0 l1 t); auto using ix_smoother; now apply smoother_fit.
    - apply o1_as. apply (mv_adxr true n (dm_smoother alt pe (avg_fun ma) p) lb l l0 l1 t); auto using ix_smoother; now apply smoother_fit.
    - apply o1_mir. apply (mv_rsi true n); auto. intros _. now apply keeps_positive.
    - apply o2_mir. apply (mv_stochf true n t _ p pf l l0 l1); auto; try tauto. apply avg_level; tauto.
    - apply o2_mir. apply (mv_stochastic true n t _ _ p pf ps l l0 l1); auto; try tauto; apply avg_level; tauto.
    - apply o1_mir. apply (mv_ultosc true n t p1 p2 p3 f1 f2 f3 l l0 l1); auto; tauto.
    - apply o1_mir. now apply (mv_stochrsi true n).
    - apply o2_mir. apply (mv_stochrsi_talib true n); auto; try tauto. apply avg_level; tauto.
    - apply ok_mir. now apply (mv_williamsr true n t p l l0 l1).
    - apply o1_mir. now apply (mv_cmo true n).
    - cbn [o2 bind converted fst snd]. unfold aroon. cbn [fst snd views flat_map see nth_error app].
      now rewrite (mv_aroon_up true t p l l0 : aroon_up p (mr t l0) = aroon_dn p l0), (mv_aroon_dn true t p l l0 : aroon_dn p (mr t l) = aroon_up p l).
    - apply ok_mir. now apply (mv_aroonosc true n t p l l0).
    - apply ok_mir. now apply (mv_bop true n t l l0 l1 l2).
    - apply ok_mir. now apply (mv_ad true n t l l0 l1 l2).
    - apply o1_mir. apply (mv_adosc true n t _ pf ps l l0 l1 l2); auto; apply avg_level; tauto.
    - apply ok_mir. apply mv_obv. now left.
  Qed.
End Run.

(** ** programs *)
Lemma see_inside env v : inside (length env) v -> exists l, see env v = Some l.
Proof.
  destruct v as [i|t i]; cbn [inside see]; intro H; apply nth_error_Some in H; destruct (nth_error env i) as [l|]; try congruence; eexists; reflexivity.
Qed.
Lemma views_nth env vs : Forall (inside (length env)) vs -> forall i v, nth_error vs i = Some v -> nth_error (views vs env) i = see env v.
Proof.
  induction 1 as [|w vs H F IH]; intros [|i] v E; try discriminate.
  - injection E as <-. cbn [views flat_map]. destruct (see_inside _ _ H) as [l ->]. reflexivity.
  - cbn [views flat_map nth_error] in E |- *. destruct (see_inside _ _ H) as [l ->]. cbn [app nth_error]. now apply IH.
Qed.
Lemma pick_all (env : list (line V)) is : Forall (fun i => (i < length env)%nat) is ->
  exists ls, pick env is = Ok ls /\ length ls = length is /\ (forall P, Forall P env -> Forall P ls) /\
    forall j i, nth_error is j = Some i -> nth_error ls j = nth_error env i.
Proof.
  induction 1 as [|i is H F IH]; [exists []; repeat split; auto; intros [|j] i; discriminate|].
  destruct IH as (ls & P1 & P2 & P3 & P4). apply nth_error_Some in H. destruct (nth_error env i) as [a|] eqn:E; [|congruence].
  exists (a :: ls). cbn [pick]. rewrite E, P1. cbn [bind length]. rewrite P2. repeat split; auto.
  - intros P Q. constructor; [|auto]. rewrite Forall_forall in Q. apply Q. now apply nth_error_In in E.
  - intros [|j] q Q; cbn [nth_error] in *; [injection Q as <-; now rewrite E|now apply P4].
Qed.
Lemma chosen_see (env ls : list (line V)) is v v' : (forall j i, nth_error is j = Some i -> nth_error ls j = nth_error env i) ->
  chosen is v = Some v' -> see ls v = see env v'.
Proof.
  intros H E. destruct v as [j|t j]; cbn [chosen] in E; destruct (nth_error is j) as [i|] eqn:Q; try discriminate;
    injection E as <-; cbn [see]; now rewrite (H j i Q).
Qed.
Lemma pick_views (env ls : list (line V)) vs is is' ins : Forall (inside (length env)) vs ->
  (forall j i, nth_error is j = Some i -> nth_error ls j = nth_error env i) ->
  map (nth_error vs) is' = map (chosen is) ins -> Forall (fun v => exists v', chosen is v = Some v') ins ->
  pick (views vs env) is' = Ok (views ins ls).
Proof.
  intros F H. revert ins. induction is' as [|i is' IH]; intros [|v ins] E C; try discriminate; [reflexivity|].
  cbn [map] in E. injection E as E1 E2. inversion C as [|? ? [v' Ev] C' Q]; subst. rewrite Ev in E1. cbn [pick].
  rewrite (views_nth env vs F i v' E1). pose proof (chosen_see env ls is v v' H Ev) as S.
  assert (I : inside (length env) v') by (rewrite Forall_forall in F; apply F; now apply nth_error_In in E1).
  destruct (see_inside _ _ I) as [l El]. rewrite El. rewrite (IH ins E2 C'). cbn [bind views flat_map]. now rewrite S, El.
Qed.
Lemma views_app vs ws env : views (vs ++ ws) env = views vs env ++ views ws env.
Proof. unfold views. apply flat_map_app. Qed.
Lemma views_old vs env os : Forall (inside (length env)) vs -> views vs (env ++ os) = views vs env.
Proof.
  induction 1 as [|v vs H F IH]; [reflexivity|]. cbn [views flat_map]. unfold views in IH. rewrite IH. f_equal.
  destruct v as [i|t i]; cbn [inside see] in *; now rewrite nth_error_app1.
Qed.
Lemma views_new vs env os : views (map (later (length env)) vs) (env ++ os) = views vs os.
Proof.
  induction vs as [|v vs IH]; [reflexivity|]. cbn [map views flat_map]. unfold views in IH. rewrite IH. f_equal.
  destruct v as [i|t i]; cbn [later see]; rewrite nth_error_app2 by lia; now replace (length env + i - length env)%nat with i by lia.
Qed.
Lemma same_outs x vs x' ws : mirror x vs x' ws -> Forall (inside (outputs x)) ws /\ Forall (inside (length vs)) vs.
Proof.
  intro H. destruct H; try (split; unfold bars_hl, bars_hlc, bars_ohlc; repeat constructor; cbn; lia).
  split; apply Forall_forall; intros v Q; apply in_map_iff in Q; destruct Q as (i & <- & Q); apply in_seq in Q; cbn [inside]; [lia|].
  rewrite map_length, seq_length. lia.
Qed.
Theorem session_mirrored n k vs steps steps' ws : session_mirror k vs steps steps' ws ->
  Forall (fun s => valid (fst s) /\ ~ cyclic (fst s)) steps -> Forall (inside k) vs ->
  forall env, Forall (fit n) env -> length env = k ->
  session (views vs env) steps' = converted (views ws) (session env steps).
Proof.
  induction 1 as [k vs|k vs x is x' is' ins outs r r' ws M I L E S IH]; intros HV IV env F <-; [reflexivity|]. cbn [session].
  inversion HV as [|? ? [Hv Hc] HV' Q1]; subst. cbn [fst] in Hv, Hc.
  destruct (pick_all env is I) as (ls & P1 & P2 & P3 & P4). rewrite P1. cbn [bind].
  destruct (same_outs _ _ _ _ M) as [O1 O2].
  assert (C : Forall (fun v => exists v', chosen is v = Some v') ins).
  { rewrite <- L in O2. eapply Forall_impl; [|exact O2]. intros [i|t i]; cbn [inside chosen]; intro Q; apply nth_error_Some in Q;
      destruct (nth_error is i); try congruence; eexists; reflexivity. }
  rewrite (pick_views env ls vs is is' ins IV P4 E C). cbn [bind].
  rewrite (run_mirror n x ins x' outs ls M Hv (P3 _ F)) by congruence. destruct (run x ls) as [os|e] eqn:R; [|reflexivity]. cbn [converted bind].
  pose proof (run_outputs _ _ _ R) as Lo.
  rewrite <- (views_old vs env os IV), <- (views_new outs env os), <- views_app. apply IH; auto.
  - apply Forall_app. split.
    + eapply Forall_impl; [|exact IV]. intros [i|t i]; cbn [inside]; lia.
    + apply Forall_forall. intros v Q. apply in_map_iff in Q. destruct Q as (w & <- & Q). rewrite Forall_forall in O1. specialize (O1 w Q).
      destruct w as [i|t i]; cbn [later inside] in *; lia.
  - apply Forall_app. split; [assumption|]. exact (run_fit n x ls os Hv Hc (P3 _ F) R).
  - rewrite app_length. lia.
Qed.

(** ** the parabolic stop and reverse *)
Lemma pymax_fin a b : pymax (Fin a : V) (Fin b) = Fin (if Rlt_dec a b then b else a).
Proof. unfold pymax. cbn. unfold Rltb. now destruct (Rlt_dec a b). Qed.
Lemma ltb_fin a b : vltb (Fin a : V) (Fin b) = if Rlt_dec a b then true else false.
Proof. cbn. unfold Rltb. now destruct (Rlt_dec a b). Qed.
Lemma sar_mirrored n t AF AX (h l : line V) : fit n h -> fit n l -> definite h l ->
  sar AF AX (mirrored t l) (mirrored t h) = converted (mirrored t) (sar AF AX h l).
Proof.
  intros H L (i & h1 & l1 & h2 & l2 & Ei & H1 & L1 & H2 & L2 & D & E). apply (mv_sar true n t AF AX h l H L).
  rewrite <- Ei, !slice_from_nat.
  assert (SK : forall (s : list V) a b, nth_error s i = Some a -> nth_error s (S i) = Some b -> exists r, skipn i s = a :: b :: r).
  { intros s a b A B. replace i with (i + 0)%nat in A by lia. rewrite <- nth_error_skipn in A. replace (S i) with (i + 1)%nat in B by lia.
    rewrite <- nth_error_skipn in B. destruct (skipn i s) as [|x [|y r]]; try discriminate. injection A as ->. injection B as ->. now exists r. }
  destruct (SK _ _ _ H1 H2) as [r ->]. destruct (SK _ _ _ L1 L2) as [q ->]. cbn [turning]. unfold turns, MoveFacts.mx, start_trend.
  rewrite !aff_fin, !vsub_fin. replace (t - l2 - (t - l1)) with (l1 - l2) by ring. replace (t - h1 - (t - h2)) with (h2 - h1) by ring.
  rewrite v0_fin, !pymax_fin, !ltb_fin.
  destruct (Rlt_dec (h2 - h1) (l1 - l2)), (Rlt_dec (l1 - l2) (h2 - h1)), (Rlt_dec (l1 - l2) 0), (Rlt_dec (h2 - h1) 0); try lra;
    unfold vofbool, v1; rewrite ?v0_fin, ?vofZ_fin, !vmul_fin, !ltb_fin;
    repeat match goal with |- context [Rlt_dec ?a ?b] => destruct (Rlt_dec a b) end; try reflexivity; exfalso; lra.
Qed.
