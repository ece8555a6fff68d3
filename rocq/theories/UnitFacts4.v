(** Change of unit: every indicator of the catalogue, and sessions. *)
From Coq Require Import ZArith QArith List Bool Reals Lia Lra.
From Verif Require Import Num Series Line LineFacts RFacts UnitSpec UnitFacts UnitFacts2 UnitFacts3 IndMA IndBasic IndStat
  IndRange IndOsc IndVol Apply IndSar IndHT IndMama Catalog.
Import ListNotations.
Local Open Scope R_scope.
Local Notation V := (ext R).

Lemma in_units_1 us (ls : list (line V)) : Forall (eq 1) us -> length ls = length us -> in_units us ls = ls.
Proof.
  intro H. revert ls. induction H as [|u us E H IH]; intros [|l ls] L; try discriminate; [reflexivity|].
  cbn [in_units]. subst u. rewrite in_unit_1, IH by (cbn in L; lia). reflexivity.
Qed.
Lemma in_units_length us (ls : list (line V)) : length ls = length us -> length (in_units us ls) = length us.
Proof. revert ls. induction us as [|u us IH]; intros [|l ls] L; try discriminate; [reflexivity|]. cbn. now rewrite IH by (cbn in L; lia). Qed.

Lemma units_pos x us ws : units x us ws -> Forall (Rlt 0) us -> Forall (Rlt 0) ws.
Proof.
  intros H P.
  assert (O : 0 < 1) by lra.
  destruct H; repeat match goal with
    | H : _ \/ _ |- _ => destruct H; subst
    | H : Forall _ (_ :: _) |- _ => inversion H; clear H; subst
    end; repeat constructor; auto using pos_prod, pos_quot, sqrt_lt_R0.
Qed.

Lemma o1_conv u r r' : r = converted (in_unit u) r' -> o1 r = converted (in_units [u]) (o1 r').
Proof. intros ->. now destruct r'. Qed.
Lemma o2_conv u r r' : r = converted (In2 u) r' -> o2 r = converted (in_units [u; u]) (o2 r').
Proof. intros ->. now destruct r' as [[]|]. Qed.
Lemma o3_conv u r r' : r = converted (In3 u) r' -> o3 r = converted (in_units [u; u; u]) (o3 r').
Proof. intros ->. now destruct r' as [[[]]|]. Qed.
Lemma o1_free r r' : r = r' -> o1 r = converted (in_units [1]) (o1 r').
Proof. intros ->. destruct r'; [|reflexivity]. cbn [o1 bind converted in_units]. now rewrite in_unit_1. Qed.
Lemma o2_free r r' : r = r' -> o2 r = converted (in_units [1; 1]) (o2 r').
Proof. intros ->. destruct r' as [[]|]; [|reflexivity]. cbn [o2 bind converted in_units]. now rewrite !in_unit_1. Qed.
Lemma o3_free r r' : r = r' -> o3 r = converted (in_units [1; 1; 1]) (o3 r').
Proof. intros ->. destruct r' as [[[]]|]; [|reflexivity]. cbn [o3 bind converted in_units]. now rewrite !in_unit_1. Qed.
Lemma ok_conv u r r' : r = in_unit u r' -> Ok [r] = converted (in_units [u]) (Ok [r']).
Proof. intros ->. reflexivity. Qed.
Lemma ok_free (r r' : line V) : r = r' -> Ok [r] = converted (in_units [1]) (Ok [r']).
Proof. intros ->. cbn [converted in_units]. now rewrite in_unit_1. Qed.

Lemma one_line_1 x ins : one_line x = true -> run x ins = converted (in_units [1]) (run x ins).
Proof.
  intro H. destruct x; try discriminate H; cbn [run].
  - now apply o1_free.
  - destruct ins as [|? [|]]; try reflexivity. now apply o1_free.
  - destruct ins as [|? [|]]; try reflexivity. now apply ok_free.
  - destruct ins as [|? [|]]; try reflexivity. now apply ok_free.
  - destruct ins as [|? [|? [|]]]; try reflexivity. now apply o1_free.
Qed.

Lemma in_smoother u alt pe ma p : 0 < u -> (alt = true -> same ma = true) ->
  forall a, dm_smoother alt pe (avg_fun ma) p (in_unit u a) = converted (in_unit u) (dm_smoother alt pe (avg_fun ma) p a).
Proof. intros H S a. apply in_dm_smoother; [assumption|]. intro E. apply avg_same; auto. Qed.

Ltac lens L :=
  match type of L with
  | length ?ins = _ => destruct ins as [|? ins]; cbn [length] in L; [try discriminate L|try discriminate L; injection L as L; lens L]
  | _ => idtac
  end.

Theorem run_units x us ws ins :
  units x us ws -> Forall (Rlt 0) us -> length ins = length us ->
  run x (in_units us ins) = converted (in_units ws) (run x ins).
Proof.
  intros H P L.
  destruct H; try match goal with H : one_line _ = true |- _ => rewrite in_units_1 by assumption; now apply one_line_1 end;
    repeat match goal with H : _ \/ _ |- _ => destruct H; subst end;
    repeat match goal with H : Forall _ (_ :: _) |- _ => inversion H; clear H; subst end;
    repeat match goal with H : Forall _ [] |- _ => clear H end;
    repeat match goal with H : 0 < ?u, H' : 0 < ?u |- _ => clear H' end;
    cbn [length] in L; repeat (destruct ins as [|? ins]; cbn [length] in L; [discriminate L|injection L as L]);
    (destruct ins; [clear L|discriminate L]); cbn [in_units run in1 in2 in3 in4 inht].
  - apply o1_conv. now apply avg_same.
  - apply o1_free. now apply avg_pure.
  - destruct a; try discriminate. apply o1_conv. cbn [avg_fun converted]. now rewrite in_var.
  - apply ok_conv. now apply in_avgprice.
  - apply ok_conv. now apply in_typprice.
  - apply ok_conv. now apply in_wclprice.
  - apply ok_conv. now apply in_medprice.
  - apply ok_conv. now apply in_sqrt.
  - apply ok_conv. apply in_add.
  - apply ok_conv. apply in_sub.
  - apply ok_conv. now apply in_mul.
  - apply ok_conv. now apply in_div.
  - cbn [o2 bind converted fst snd minmax in_units]. now rewrite in_max, in_min.
  - apply ok_free. now apply in_maxindex_abs.
  - apply ok_free. now apply in_minindex_abs.
  - apply o2_free. now rewrite in_minmaxindex.
  - apply ok_conv. now apply in_midprice.
  - apply o3_conv. apply in_macd_from; now apply avg_same.
  - apply o3_conv. apply in_macd_from; [now apply in_ewm_span|now apply in_ema|now apply in_ema].
  - apply o1_conv. apply in_apo; first [assumption|now apply avg_same].
  - apply o3_free. apply in_ppo; first [assumption|now apply avg_same].
  - apply o3_free. apply in_ppo; first [assumption|now apply avg_same].
  - apply ok_free. unfold crossup. now rewrite in_cross_up.
  - apply ok_free. unfold crossdown. now rewrite in_cross_down.
  - apply o1_free. unfold crossover. now rewrite in_cross_up, in_cross_down.
  - apply o3_conv. apply in_bbands; first [assumption|now apply avg_same].
  - apply o1_free. apply in_cci; first [assumption|now apply avg_same].
  - apply ok_free. now apply in_correl.
  - apply ok_free. now apply in_beta.
  - apply ok_conv. now apply in_beta_raw.
  - reflexivity.
  - apply ok_conv. now apply in_truelow.
  - apply ok_conv. now apply in_truerange.
  - apply o1_conv. apply in_atr; first [assumption|now apply avg_same].
  - apply o1_free. apply in_natr; first [assumption|now apply avg_same].
  - apply o1_conv. apply in_plus_dm; first [assumption|now apply in_smoother].
  - apply o1_conv. apply in_minus_dm; first [assumption|now apply in_smoother].
  - apply o2_conv. apply in_dm; first [assumption|now apply in_smoother].
  - apply o1_free. apply in_plus_di; first [assumption|now apply in_smoother].
  - apply o1_free. apply in_minus_di; first [assumption|now apply in_smoother].
  - apply o2_free. apply in_di; first [assumption|now apply in_smoother].
  - apply o1_free. apply in_dx; first [assumption|now apply in_smoother].
  - apply o1_free. apply in_adx; first [assumption|now apply in_smoother].
  - apply o1_free. apply in_adxr; first [assumption|now apply in_smoother].
  - apply o1_free. apply in_rsi; first [assumption|now apply avg_same].
  - apply o1_free. apply in_cmo; first [assumption|now apply avg_same].
  - apply ok_free. now apply in_mfi.
  - apply o2_free. unfold stochf. now rewrite in_stoch_k.
  - apply o2_free. unfold stochastic, stochf. now rewrite in_stoch_k.
  - apply ok_free. now apply in_williamsr.
  - apply o2_free. unfold aroon. now rewrite in_aroon_up, in_aroon_dn.
  - apply ok_free. unfold aroonosc. now rewrite in_aroon_up, in_aroon_dn.
  - apply o1_free. now apply in_ultosc.
  - apply ok_free. now apply in_bop.
  - apply o1_free. now apply in_stochrsi.
  - apply o2_free. unfold stochrsi_talib. now rewrite in_stochrsi.
  - apply ok_conv. now apply in_ad.
  - apply o1_conv. apply in_adosc; first [assumption|now apply avg_same].
  - apply ok_conv. now apply in_obv.
  - apply o1_conv. now apply in_sar.
  - apply o1_conv. now apply in_sarext.
  - apply o1_free. exact (in_dcperiod u ltac:(assumption) (HLine _)).
  - apply o1_free. exact (in_dcperiod u ltac:(assumption) (HHighLow _ _)).
  - apply o2_conv. exact (in_phasor u ltac:(assumption) (HLine _)).
  - apply o2_conv. exact (in_phasor u ltac:(assumption) (HHighLow _ _)).
  - apply o2_conv. exact (in_mama u ltac:(assumption) f s (HLine _)).
  - apply o2_conv. exact (in_mama u ltac:(assumption) f s (HHighLow _ _)).
  - apply o1_free. exact (in_dcphase u ltac:(assumption) (HLine _)).
  - apply o1_free. exact (in_dcphase u ltac:(assumption) (HHighLow _ _)).
  - apply o2_free. exact (in_sine u ltac:(assumption) (HLine _)).
  - apply o2_free. exact (in_sine u ltac:(assumption) (HHighLow _ _)).
  - apply o1_conv. exact (in_trendline u ltac:(assumption) (HLine _)).
  - apply o1_conv. exact (in_trendline u ltac:(assumption) (HHighLow _ _)).
  - apply o1_free. exact (in_trendmode u ltac:(assumption) (HLine _)).
  - apply o1_free. exact (in_trendmode u ltac:(assumption) (HHighLow _ _)).
Qed.

Lemma nth_in_units us : forall (env : list (line V)) i u, length env = length us -> nth_error us i = Some u ->
  exists a, nth_error env i = Some a /\ nth_error (in_units us env) i = Some (in_unit u a).
Proof.
  induction us as [|w us IH]; intros [|e env] [|i] u L H; try discriminate.
  - injection H as <-. now exists e.
  - cbn in L |- *. apply IH; [lia|exact H].
Qed.
Lemma pick_units us env is : forall ins, length env = length us -> map (nth_error us) is = map Some ins ->
  exists ls, pick env is = Ok ls /\ length ls = length ins /\ pick (in_units us env) is = Ok (in_units ins ls).
Proof.
  induction is as [|i is IH]; intros [|u ins] L E; try discriminate.
  - exists []. repeat split.
  - cbn [map] in E. injection E as E1 E2. destruct (IH ins L E2) as [ls [P1 [P2 P3]]].
    destruct (nth_in_units us env i u L E1) as [a [N1 N2]]. exists (a :: ls). cbn [pick]. rewrite N1, N2, P1, P3.
    cbn [bind in_units length]. now rewrite P2.
Qed.
Lemma in_units_app us vs : forall (ls ms : list (line V)), length ls = length us ->
  in_units us ls ++ in_units vs ms = in_units (us ++ vs) (ls ++ ms).
Proof.
  induction us as [|u us IH]; intros [|l ls] ms L; try discriminate; [reflexivity|]. cbn in L |- *. now rewrite IH by lia.
Qed.
Lemma in_units_len2 ws (ls : list (line V)) : length (in_units ws ls) = Nat.min (length ws) (length ls).
Proof. revert ls. induction ws as [|w ws IH]; intros [|l ls]; try reflexivity. cbn. now rewrite IH. Qed.

Lemma o1_len r (outs : list (line V)) : o1 r = Ok outs -> length outs = 1%nat.
Proof. destruct r; [|discriminate]. cbn. intro H. now injection H as <-. Qed.
Lemma o2_len r (outs : list (line V)) : o2 r = Ok outs -> length outs = 2%nat.
Proof. destruct r; [|discriminate]. cbn. intro H. now injection H as <-. Qed.
Lemma o3_len r (outs : list (line V)) : o3 r = Ok outs -> length outs = 3%nat.
Proof. destruct r; [|discriminate]. cbn. intro H. now injection H as <-. Qed.
Lemma ok_len (r : line V) outs : Ok [r] = Ok outs -> length outs = 1%nat.
Proof. intro H. now injection H as <-. Qed.
Section Len.
  Variable n : nat.
  Variable outs : list (line V).
  Variable ins : list (line V).
  Lemma in1_len f : (forall a, f a = Ok outs -> length outs = n) -> in1 ins f = Ok outs -> length outs = n.
  Proof. intro H. destruct ins as [|? [|]]; try discriminate. apply H. Qed.
  Lemma in2_len f : (forall a b, f a b = Ok outs -> length outs = n) -> in2 ins f = Ok outs -> length outs = n.
  Proof. intro H. destruct ins as [|? [|? [|]]]; try discriminate. apply H. Qed.
  Lemma in3_len f : (forall a b c, f a b c = Ok outs -> length outs = n) -> in3 ins f = Ok outs -> length outs = n.
  Proof. intro H. destruct ins as [|? [|? [|? [|]]]]; try discriminate. apply H. Qed.
  Lemma in4_len f : (forall a b c d, f a b c d = Ok outs -> length outs = n) -> in4 ins f = Ok outs -> length outs = n.
  Proof. intro H. destruct ins as [|? [|? [|? [|? [|]]]]]; try discriminate. apply H. Qed.
  Lemma inht_len f : (forall i, f i = Ok outs -> length outs = n) -> inht ins f = Ok outs -> length outs = n.
  Proof. intro H. destruct ins as [|? [|? [|]]]; try discriminate; apply H. Qed.
End Len.
Lemma run_outs x us ws ins outs : units x us ws -> run x ins = Ok outs -> length outs = length ws.
Proof.
  intro H. destruct H; try match goal with H : one_line _ = true |- _ => destruct x; try discriminate H end;
    cbn [length run]; lazymatch goal with
    | |- in1 _ _ = _ -> _ => apply in1_len; intro
    | |- in2 _ _ = _ -> _ => apply in2_len; do 2 intro
    | |- in3 _ _ = _ -> _ => apply in3_len; do 3 intro
    | |- in4 _ _ = _ -> _ => apply in4_len; do 4 intro
    | |- inht _ _ = _ -> _ => apply inht_len; intro
    | _ => idtac
    end; cbn beta; lazymatch goal with
    | |- o1 _ = _ -> _ => apply o1_len
    | |- o2 _ = _ -> _ => apply o2_len
    | |- o3 _ = _ -> _ => apply o3_len
    | _ => apply ok_len
    end.
Qed.

Theorem session_unit_free us steps ws : session_units us steps ws ->
  forall env, Forall (Rlt 0) us -> length env = length us ->
  session (in_units us env) steps = converted (in_units ws) (session env steps).
Proof.
  induction 1 as [us|us x is r ins outs ws E U S IH]; intros env P L; [reflexivity|]. cbn [session].
  destruct (pick_units us env is ins L E) as [ls [P1 [P2 P3]]]. rewrite P1, P3. cbn [bind].
  assert (Pi : Forall (Rlt 0) ins).
  { rewrite Forall_forall in P |- *. intros u Hu. apply P. apply (in_map Some) in Hu. rewrite <- E in Hu.
    apply in_map_iff in Hu. destruct Hu as [i [Hi _]]. now apply nth_error_In in Hi. }
  rewrite (run_units x ins outs ls U Pi P2). destruct (run x ls) as [os|e] eqn:R; [|reflexivity]. cbn [converted bind].
  pose proof (run_outs _ _ _ _ _ U R) as Lo. rewrite in_units_app by assumption. apply IH.
  - apply Forall_app. split; [assumption|]. now apply (units_pos _ _ _ U).
  - rewrite !app_length. lia.
Qed.
