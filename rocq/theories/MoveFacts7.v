(** Prices moved by a constant: every indicator of the catalogue, and sessions. *)
From Coq Require Import ZArith QArith List Bool Reals Lia Lra.
From Verif Require Import Num Series Line LineFacts OpFacts Spec RSpec RFacts StatFacts MAFacts PropLinesFacts OperandFacts
  UnitSpec UnitFacts MoveSpec MoveFacts MoveFacts2 MoveFacts3 MoveFacts4 MoveFacts5 MoveFacts6 CausalFacts CatalogR CatalogR2 CatalogSpec CatalogFacts
  IndMA IndBasic IndStat IndRange IndOsc IndVol Apply IndSar IndHT Catalog UnitFacts4.
Import ListNotations.
Local Open Scope R_scope.
Arguments skipn : simpl never.
Arguments firstn : simpl never.
Local Notation V := (ext R).
Local Notation up t := (mapl (aff false t)).

Lemma raised_up t l : raised t l = up t l. Proof. reflexivity. Qed.
Lemma follows_still (ma : ma_fun V) p : follows false 0 ma p.
Proof. intro a. rewrite mapl_id. destruct (ma p a); [|reflexivity]. cbn [converted]. now rewrite mapl_id. Qed.
Lemma turning_up t hs ls : turning false t hs ls.
Proof.
  destruct hs as [|h1 [|h2 hs]], ls as [|l1 [|l2 ls]]; cbn [turning]; auto.
  unfold turns, MoveFacts.mx, start_trend. rewrite !aff_false_sub. reflexivity.
Qed.

Lemma o1_up t r r' : r = converted (up t) r' -> o1 r = converted (raised_by [t]) (o1 r').
Proof. intros ->. now destruct r'. Qed.
Lemma o1_still r r' : r = r' -> o1 r = converted (raised_by [0]) (o1 r').
Proof. intros ->. destruct r'; [|reflexivity]. cbn [o1 bind converted raised_by]. now rewrite raised_up, mapl_id. Qed.
Lemma o2_still r r' : r = r' -> o2 r = converted (raised_by [0; 0]) (o2 r').
Proof. intros ->. destruct r' as [[]|]; [|reflexivity]. cbn [o2 bind converted raised_by]. now rewrite !raised_up, !mapl_id. Qed.
Lemma o3_still r r' : r = r' -> o3 r = converted (raised_by [0; 0; 0]) (o3 r').
Proof. intros ->. destruct r' as [[[]]|]; [|reflexivity]. cbn [o3 bind converted raised_by]. now rewrite !raised_up, !mapl_id. Qed.
Lemma ok_up t r r' : r = up t r' -> Ok [r] = converted (raised_by [t]) (Ok [r']).
Proof. intros ->. reflexivity. Qed.
Lemma ok_still (r r' : line V) : r = r' -> Ok [r] = converted (raised_by [0]) (Ok [r']).
Proof. intros ->. cbn [converted raised_by]. now rewrite raised_up, mapl_id. Qed.
Lemma conv_still (r : res (line V)) : converted (up 0) r = r.
Proof. destruct r; [|reflexivity]. cbn [converted]. now rewrite mapl_id. Qed.
Lemma conv2_still (r : res (line V * line V)) : converted (fun r => (up 0 (fst r), up 0 (snd r))) r = r.
Proof. destruct r as [[]|]; [|reflexivity]. cbn [converted fst snd]. now rewrite !mapl_id. Qed.
Lemma conv3_still (r : res (line V * line V * line V)) : converted (fun r => (up 0 (fst (fst r)), up 0 (snd (fst r)), up 0 (snd r))) r = r.
Proof. destruct r as [[[]]|]; [|reflexivity]. cbn [converted fst snd]. now rewrite !mapl_id. Qed.
Lemma conv2_swap {A} (r : res (A * A)) : converted (swap2 false) r = r.
Proof. now destruct r as [[]|]. Qed.

Lemma raised_by_0 ts : forall ls, Forall (eq 0) ts -> length ls = length ts -> raised_by ts ls = ls.
Proof.
  induction ts as [|t ts IH]; intros [|l ls] H L; try discriminate; [reflexivity|]. inversion H; subst. cbn [raised_by].
  rewrite raised_up, mapl_id, IH; auto.
Qed.

Lemma run_outputs x ins outs : run x ins = Ok outs -> length outs = outputs x.
Proof.
  destruct x; cbn [run outputs];
    lazymatch goal with
    | |- in1 _ _ = _ -> _ => apply in1_len; intro
    | |- in2 _ _ = _ -> _ => apply in2_len; do 2 intro
    | |- in3 _ _ = _ -> _ => apply in3_len; do 3 intro
    | |- in4 _ _ = _ -> _ => apply in4_len; do 4 intro
    | |- inht _ _ = _ -> _ => apply inht_len; intro
    | _ => idtac
    end; cbn beta; lazymatch goal with
    | |- o1 _ = _ -> _ => apply o1_len
    | |- o2 _ = _ -> _ => apply o2_len
    | |- o3 _ = _ -> _ => apply o3_len
    | _ => apply ok_len
    end.
Qed.

Section Run.
  Variable n : nat.
  Lemma run_shifts x ts ws ins : shifts x ts ws -> valid x -> Forall (fit n) ins -> length ins = length ts ->
    run x (raised_by ts ins) = converted (raised_by ws) (run x ins).
  Proof.
    intros H Hv F L.
    destruct H; cbn [valid] in Hv;
      try match goal with H : Forall (eq 0) ?ts |- _ =>
        rewrite raised_by_0 by assumption; destruct (run x ins) eqn:E; [|reflexivity]; cbn [converted];
        rewrite raised_by_0; [reflexivity|now apply Forall_forall; intros q Q; apply repeat_spec in Q|
          rewrite repeat_length; now apply run_outputs in E] end;
      cbn [length] in L; repeat (destruct ins as [|? ins]; cbn [length] in L; [discriminate L|injection L as L]);
      (destruct ins; [clear L|discriminate L]);
      repeat match goal with H : Forall _ (_ :: _) |- _ => inversion H; clear H; subst end;
      repeat match goal with H : Forall _ [] |- _ => clear H end;
      cbn [raised_by run in1 in2 in3 in4]; rewrite ?raised_up.
    - apply o1_up. now apply avg_level.
    - apply o1_up. cbn [avg_fun converted]. now rewrite mv_max.
    - apply o1_up. cbn [avg_fun converted]. now rewrite mv_min.
    - apply o1_up. cbn [avg_fun converted]. now rewrite mv_sumn.
    - apply o1_up. now apply avg_change.
    - apply o1_still. now apply avg_spread.
    - apply o1_still. cbn [avg_fun]. now rewrite mv_maxindex.
    - apply o1_still. cbn [avg_fun]. now rewrite mv_minindex.
    - apply ok_up. now apply (mv_avgprice false n t d l l0 l1 l2).
    - apply ok_up. now apply (mv_typprice false n t d l l0 l1).
    - apply ok_up. now apply (mv_wclprice false n t w d l l0 l1).
    - apply ok_up. now apply (mv_medprice false n t d l l0).
    - apply ok_up. apply mv_add.
    - apply ok_up. apply mv_sub.
    - cbn [o2 bind converted fst snd minmax raised_by]. now rewrite mv_max, mv_min.
    - apply ok_still. now rewrite mv_maxindex_abs.
    - apply ok_still. now rewrite mv_minindex_abs.
    - apply o2_still. unfold minmaxindex. now rewrite mv_maxindex_abs, mv_minindex_abs, mv_maxindex, mv_minindex.
    - apply ok_up. now apply (mv_midprice false n t p l l0).
    - apply o3_still. unfold macd. rewrite mv_macd_from; [apply conv3_still|now apply avg_level|now apply avg_level|apply follows_still].
    - apply o3_still. unfold macd_talib. rewrite mv_macd_from; [apply conv3_still|intro; apply mv_ewm_span; [lia|reflexivity]|apply mv_ema; lia|apply mv_ema; lia].
    - apply o1_up. apply mv_apo; now apply avg_level.
    - apply ok_still. unfold crossup. now rewrite mv_up.
    - apply ok_still. unfold crossdown. now rewrite mv_down.
    - rewrite mv_bbands by now apply avg_level. now destruct (bbands _ _ _ _ _) as [[[]]|].
    - apply o1_up. apply (mv_cci false n t p f _ _ l l0 l1); auto; now apply avg_level.
    - apply ok_still. now apply (mv_correl false n).
    - apply ok_still. now apply (mv_beta false n).
    - apply ok_up. now apply (mv_truelow false n t lb l l l0).
    - apply ok_still. now apply (mv_truerange false n t lb l l0 l1).
    - apply o1_still. now apply (mv_atr false n t _ p lb l l0 l1).
    - apply o1_still. now apply (mv_plus_dm false n (dm_smoother alt pe (avg_fun ma) p) lb l l0 t).
    - apply o1_still. now apply (mv_minus_dm false n (dm_smoother alt pe (avg_fun ma) p) lb l l0 t).
    - apply o2_still. etransitivity; [apply (mv_dm false n (dm_smoother alt pe (avg_fun ma) p) lb l l0 t); auto using ix_smoother|apply conv2_swap].
    - apply o1_still. now apply (mv_plus_di false n (dm_smoother alt pe (avg_fun ma) p) lb l l0 l1 t).
    - apply o1_still. now apply (mv_minus_di false n (dm_smoother alt pe (avg_fun ma) p) lb l l0 l1 t).
    - apply o2_still. etransitivity; [apply (mv_di false n (dm_smoother alt pe (avg_fun ma) p) lb l l0 l1 t); auto using ix_smoother|apply conv2_swap].
    - apply o1_still. apply (mv_dx false n (dm_smoother alt pe (avg_fun ma) p) lb l l0 l1 t); auto using ix_smoother; now apply smoother_fit.
    - apply o1_still. apply (mv_adx false n (dm_smoother alt pe (avg_fun ma) p) lb l l0 l1 t); auto using ix_smoother; now apply smoother_fit.
    - apply o1_still. apply (mv_adxr false n (dm_smoother alt pe (avg_fun ma) p) lb l l0 l1 t); auto using ix_smoother; now apply smoother_fit.
    - apply o1_still. rewrite (mv_rsi false n); auto; [apply conv_still|discriminate].
    - apply o1_up. now apply (mv_cmo false n).
    - apply o2_still. etransitivity; [apply (mv_stochf false n t _ p pf l l0 l1); auto; try tauto; apply follows_still|apply conv2_still].
    - apply o2_still. etransitivity; [apply (mv_stochastic false n t _ _ p pf ps l l0 l1); auto; try tauto; apply follows_still|apply conv2_still].
    - apply ok_up. now apply (mv_williamsr false n t p l l0 l1).
    - cbn [o2 bind converted fst snd aroon raised_by]. unfold aroon. cbn [fst snd].
      rewrite (mv_aroon_up false t p l l0 : aroon_up p (up t l) = aroon_up p l), (mv_aroon_dn false t p l l0 : aroon_dn p (up t l0) = aroon_dn p l0), !raised_up, !mapl_id. reflexivity.
    - apply ok_up. now apply (mv_aroonosc false n t p l l0).
    - apply o1_still. etransitivity; [apply (mv_ultosc false n t p1 p2 p3 f1 f2 f3 l l0 l1); auto; tauto|apply conv_still].
    - apply ok_up. now apply (mv_bop false n t l l0 l1 l2).
    - apply o1_still. rewrite (mv_stochrsi false n); auto. apply conv_still.
    - apply o2_still. rewrite (mv_stochrsi_talib false n); auto; try tauto; [apply conv2_still|apply follows_still].
    - rewrite mapl_id. apply ok_up. now apply (mv_ad false n t l l0 l1 l2).
    - rewrite mapl_id. apply o1_up. apply (mv_adosc false n t _ pf ps l l0 l1 l2); auto; apply follows_still.
    - rewrite mapl_id. apply ok_up. apply mv_obv. now right.
    - apply o1_up. apply (mv_sar false n t _ _ l l0); auto. apply turning_up.
  Qed.
End Run.

Lemma run_fit n x ins outs : valid x -> ~ cyclic x -> Forall (fit n) ins -> run x ins = Ok outs -> Forall (fit n) outs.
Proof.
  intros Hv Hc F E. assert (D : Forall2 (Rl n n) ins ins).
  { clear E. induction F as [|l ins H F IH]; constructor; [now apply fit_Rl|exact IH]. }
  destruct (run_R (le_n n) x Hv Hc D E) as (y' & _ & Q). clear - Q. induction Q as [|a b s r H Q IH]; constructor; [|exact IH].
  destruct H as (A & B & _). now split.
Qed.

Lemma nth_raised ts : forall (env : list (line V)) i t, length env = length ts -> nth_error ts i = Some t ->
  exists a, nth_error env i = Some a /\ nth_error (raised_by ts env) i = Some (raised t a).
Proof.
  induction ts as [|w ts IH]; intros [|e env] [|i] t L H; try discriminate.
  - injection H as <-. now exists e.
  - cbn in L |- *. apply IH; [lia|exact H].
Qed.
Lemma pick_raised ts env is : forall ins, length env = length ts -> map (nth_error ts) is = map Some ins ->
  exists ls, pick env is = Ok ls /\ length ls = length ins /\ pick (raised_by ts env) is = Ok (raised_by ins ls) /\
    forall P, Forall P env -> Forall P ls.
Proof.
  induction is as [|i is IH]; intros [|u ins] L E; try discriminate.
  - exists []. repeat split; auto.
  - cbn [map] in E. injection E as E1 E2. destruct (IH ins L E2) as [ls [P1 [P2 [P3 P4]]]].
    destruct (nth_raised ts env i u L E1) as [a [N1 N2]]. exists (a :: ls). cbn [pick]. rewrite N1, N2, P1, P3.
    cbn [bind raised_by length]. rewrite P2. repeat split; auto. intros P Q. constructor; [|auto].
    rewrite Forall_forall in Q. apply Q. now apply nth_error_In in N1.
Qed.
Lemma raised_by_app us vs : forall (ls ms : list (line V)), length ls = length us ->
  raised_by us ls ++ raised_by vs ms = raised_by (us ++ vs) (ls ++ ms).
Proof.
  induction us as [|u us IH]; intros [|l ls] ms L; try discriminate; [reflexivity|]. cbn in L |- *. now rewrite IH by lia.
Qed.
Lemma shifts_outs x ts ws : shifts x ts ws -> length ws = outputs x.
Proof. intro H. destruct H; try reflexivity. apply repeat_length. Qed.

Theorem session_shift n ts steps ws : session_shifts ts steps ws ->
  Forall (fun s => valid (fst s) /\ ~ cyclic (fst s)) steps ->
  forall env, Forall (fit n) env -> length env = length ts ->
  session (raised_by ts env) steps = converted (raised_by ws) (session env steps).
Proof.
  induction 1 as [ts|ts x is r ins outs ws E U S IH]; intros HV env F L; [reflexivity|]. cbn [session].
  inversion HV as [|? ? [Hv Hc] HV' Q1]; subst. cbn [fst] in Hv, Hc.
  destruct (pick_raised ts env is ins L E) as [ls [P1 [P2 [P3 P4]]]]. rewrite P1, P3. cbn [bind].
  rewrite (run_shifts n x ins outs ls U Hv (P4 _ F) P2). destruct (run x ls) as [os|e] eqn:R; [|reflexivity]. cbn [converted bind].
  pose proof (run_outputs _ _ _ R) as Lo. pose proof (shifts_outs _ _ _ U) as Lw. rewrite raised_by_app by assumption. apply IH; auto.
  - apply Forall_app. split; [assumption|]. exact (run_fit n x ls os Hv Hc (P4 _ F) R).
  - rewrite !app_length. lia.
Qed.
