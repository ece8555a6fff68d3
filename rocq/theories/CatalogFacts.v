(** No repainting for every indicator of the catalogue and every session. *)
From Coq Require Import ZArith List Bool Lia Arith.
From Verif Require Import Num Series Line Spec LineFacts ScanFacts Expr CausalFacts WarmFacts
  IndMA IndBasic IndStat IndRange IndOsc IndVol Apply IndSar IndHT IndMama Catalog CatalogSpec
  CatalogR CatalogR2.
Import ListNotations.
Set Implicit Arguments.

Section F.
  Context {V : Type} {N : Num V} {T : NumT V}.
  Variables n n' : nat.
  Hypothesis Hnn : n <= n'.
  Notation line := (line V).
  Notation Rl := (@Rl V n n').
  Notation Rls := (Forall2 Rl).
  Notation Rp := (@Rp V n n').
  Notation Rt := (@Rt V n n').

  Lemma Rr_in1 (f f' : line -> res (list line)) ins ins' :
    Rls ins ins' -> (forall a a', Rl a a' -> Rr Rls (f a) (f' a')) -> Rr Rls (in1 ins f) (in1 ins' f').
  Proof.
    intros H Hf. destruct H as [|a a' ? ? Ha [|]]; try apply Rr_raise. now apply Hf.
  Qed.
  Lemma Rr_in2 (f f' : line -> line -> res (list line)) ins ins' :
    Rls ins ins' -> (forall a a' b b', Rl a a' -> Rl b b' -> Rr Rls (f a b) (f' a' b')) ->
    Rr Rls (in2 ins f) (in2 ins' f').
  Proof.
    intros H Hf. destruct H as [|a a' ? ? Ha [|b b' ? ? Hb [|]]]; try apply Rr_raise. now apply Hf.
  Qed.
  Lemma Rr_in3 (f f' : line -> line -> line -> res (list line)) ins ins' :
    Rls ins ins' ->
    (forall a a' b b' c c', Rl a a' -> Rl b b' -> Rl c c' -> Rr Rls (f a b c) (f' a' b' c')) ->
    Rr Rls (in3 ins f) (in3 ins' f').
  Proof.
    intros H Hf. destruct H as [|a a' ? ? Ha [|b b' ? ? Hb [|c c' ? ? Hc [|]]]]; try apply Rr_raise. now apply Hf.
  Qed.
  Lemma Rr_in4 (f f' : line -> line -> line -> line -> res (list line)) ins ins' :
    Rls ins ins' ->
    (forall a a' b b' c c' d d', Rl a a' -> Rl b b' -> Rl c c' -> Rl d d' ->
       Rr Rls (f a b c d) (f' a' b' c' d')) ->
    Rr Rls (in4 ins f) (in4 ins' f').
  Proof.
    intros H Hf. destruct H as [|a a' ? ? Ha [|b b' ? ? Hb [|c c' ? ? Hc [|d d' ? ? Hd [|]]]]]; try apply Rr_raise.
    now apply Hf.
  Qed.
  Lemma Rr_inht (f f' : ht_in V -> res (list line)) ins ins' :
    Rls ins ins' -> (forall i i', Rin n n' i i' -> Rr Rls (f i) (f' i')) -> Rr Rls (inht ins f) (inht ins' f').
  Proof.
    intros H Hf. destruct H as [|a a' ? ? Ha [|b b' ? ? Hb [|]]]; try apply Rr_raise; apply Hf; simpl; auto.
  Qed.
  Lemma Rr_o1 r r' : Rr Rl r r' -> Rr Rls (o1 r) (o1 r').
  Proof. intro H. eapply Rr_bind; [exact H|]. intros a a' Ha. apply Rr_ok. auto. Qed.
  Lemma Rr_o2 r r' : Rr Rp r r' -> Rr Rls (o2 r) (o2 r').
  Proof. intro H. eapply Rr_bind; [exact H|]. intros a a' [H1 H2]. apply Rr_ok. auto. Qed.
  Lemma Rr_o3 r r' : Rr Rt r r' -> Rr Rls (o3 r) (o3 r').
  Proof. intro H. eapply Rr_bind; [exact H|]. intros a a' [[H1 H2] H3]. apply Rr_ok. auto. Qed.
  Lemma Rr_one a a' : Rl a a' -> Rr Rls (Ok [a]) (Ok [a']).
  Proof. intro. apply Rr_ok. auto. Qed.

  Ltac rl1 :=
    lazymatch goal with
    | |- BRl _ _ (cmpop _ _ _) _ => apply BR_cmpop
    | |- BRl _ _ (cmpop_s _ _ _) _ => apply BR_cmpop_s
    | |- BRl _ _ (bbinop _ _ _) _ => apply BR_bbinop
    | |- Rl (ladd _ _) _ => apply R_binop
    | |- Rl (lsub _ _) _ => apply R_binop
    | |- Rl (lmul _ _) _ => apply R_binop
    | |- Rl (ldiv _ _) _ => apply R_binop
    | |- Rl (labs _) _ => apply R_mapop
    | |- Rl (mapop _ _) _ => apply R_mapop
    | |- Rl (binop_s _ _ _) _ => apply R_binop_s
    | |- Rl (rbinop_s _ _ _) _ => apply R_rbinop_s
    | |- Rl (pow2 _) _ => apply R_pow2
    | |- Rl (mul_b _ _) _ => apply R_mul_b
    | |- Rl (rmul_b _ _) _ => apply R_rmul_b
    | |- Rl (rolling _ _ _) _ => apply R_rolling1
    | |- Rl (rolling2 _ _ _ _) _ => apply R_rolling2
    | |- Rl (rolling_count _ _ _) _ => apply R_rolling_count
    | |- Rl (raw (fillna0 _)) _ => apply R_raw_map
    | |- Rl (stdop ser_cumsum _) _ => apply R_cumsum
    | |- Rl (diff _ _) _ => apply R_diff
    | |- Rl (pct_change _ _) _ => apply R_pct
    | |- Rl (at_ago _ (Z.neg _)) _ => apply R_at_ago1
    | |- Rl (at_ago _ (- _)) _ => apply R_at_ago
    | |- Rl (lclip_lo _ _) _ => apply R_lclip_lo
    | |- Rl (cross_idiff _ _ _) _ => apply R_idiff
    | |- Rl (strength _) _ => apply R_strength
    | |- Rl (truelow _ _ _) _ => apply R_truelow
    | |- Rl (truerange _ _ _ _) _ => apply R_truerange
    | |- Rl (ad _ _ _ _) _ => apply R_ad
    end.
  Ltac rl := repeat first [ assumption | rl1 | lia ].
  Ltac one := apply Rr_one; rl.
  Ltac sm := apply R_dm_smoother; auto; apply R_avg; auto.
  Ltac avs := try (apply R_avg; assumption); auto.

  Lemma run_R x ins ins' :
    valid x -> ~ cyclic x -> Rls ins ins' -> Rr Rls (run x ins) (run x ins').
  Proof.
    intros Hv Hc Hi.
    destruct x; cbn [valid cyclic run] in *; try (exfalso; now apply Hc); clear Hc;
      first [ apply Rr_in1; [exact Hi|]; intros l1 l1' Ha
            | apply Rr_in2; [exact Hi|]; intros l1 l1' l2 l2' Ha Hb
            | apply Rr_in3; [exact Hi|]; intros l1 l1' l2 l2' l3 l3' Ha Hb Hc
            | apply Rr_in4; [exact Hi|]; intros l1 l1' l2 l2' l3 l3' l4 l4' Ha Hb Hc Hd
            | apply Rr_inht; [exact Hi|]; intros i i' Hin
            | idtac ];
      unfold avgprice, typprice, wclprice, medprice, mathrad, to_radians, mathapply, sqrt_ind, add_ind,
        div_ind, mult_ind, sub_ind, maxindex_abs, minindex_abs, midprice, max_ind, min_ind, crossup,
        crossdown, cross_up, cross_down, correl, beta, mfi, williamsr, aroonosc, aroon_up, aroon_dn,
        aroon_from, bop, sumn; unfold max_ind, min_ind, sumn, aroon_from;
      cbv zeta; try (destruct degrees; one; fail); try (one; fail).
    - (* expressions *) apply Rr_o1. intros y Hy. destruct (eval_extends Hnn Hi) as [H _]. eauto.
    - apply Rr_o1. now apply R_avg.
    - apply Rr_o2, Rr_ok. split; unfold minmax, min_ind, max_ind; cbn [fst snd]; rl.
    - apply Rr_o2, Rr_ok. unfold minmaxindex, minindex_abs, maxindex_abs, minindex, maxindex.
      destruct absidx; split; cbn [fst snd]; rl.
    - apply Rr_o3. unfold macd. apply R_macd_from; auto; try lia; try apply R_avg; auto;
        intros e e' He; apply R_avg; auto; lia.
    - apply Rr_o3. unfold macd_talib. destruct Hv as (H1 & H2 & H3). apply R_macd_from; auto.
      + intros e e' He y Hy. unfold ema_full in *. eapply R_ewm_span; eauto. right. lia.
      + intros e e' He. apply Rma_ema; auto. lia.
      + intros q e e' Hq He. now apply Rma_ema.
    - apply Rr_o1. unfold apo. destruct Hv.
      eapply Rr_bind with (P := Rp); [apply R_posc; auto; now apply R_avg|]. intros m m' [M1 M2]. apply Rr_ok. rl.
    - apply Rr_o3. destruct Hv as (? & ? & ?). apply R_ppo_from; avs.
    - apply Rr_o3. destruct Hv as (? & ? & ?). apply R_ppo_from; avs.
    - apply Rr_o1. apply Rr_raise.
    - apply Rr_o3. unfold bbands, stddev. eapply Rr_bind with (P := Rl); [apply R_avg; auto|]. intros m m' Hm.
      apply Rr_ok. split; [split|]; cbn [fst snd]; rl.
    - apply Rr_o1. unfold cci, mad. cbv zeta. eapply Rr_bind with (P := Rl); [apply R_avg; rl|]. intros m m' Hm.
      apply Rr_ok. rl.
    - destruct rets; one.
    - apply Rr_o1. apply Rr_raise.
    - apply Rr_o1. unfold atr. apply R_avg; auto. rl.
    - apply Rr_o1. unfold natr, atr. eapply Rr_bind with (P := Rl); [apply R_avg; rl|]. intros m m' Hm. apply Rr_ok. rl.
    - apply Rr_o1, R_plus_dm; auto. sm.
    - apply Rr_o1, R_minus_dm; auto. sm.
    - apply Rr_o2, R_dm; auto. sm.
    - apply Rr_o1, R_plus_di; auto. sm.
    - apply Rr_o1, R_minus_di; auto. sm.
    - apply Rr_o2, R_di; auto. sm.
    - apply Rr_o1, R_dx; auto. sm.
    - apply Rr_o1, R_adx; auto; [sm|now apply R_avg|apply Hv].
    - apply Rr_o1, R_adxr; auto; [sm|now apply R_avg|apply Hv].
    - apply Rr_o1, R_rsi; auto. now apply R_avg.
    - apply Rr_o1. unfold cmo. eapply Rr_bind with (P := Rl); [apply R_avg; auto; now apply R_updays|]. intros u u' Hu.
      eapply Rr_bind with (P := Rl); [apply R_avg; auto; now apply R_downdays|]. intros w w' Hw. apply Rr_ok. rl.
    - destruct Hv. apply Rr_o2, R_stochf; auto. now apply R_avg.
    - destruct Hv as (? & ? & ?). apply Rr_o2. unfold stochastic.
      eapply Rr_bind with (P := Rp); [apply R_stochf; auto; now apply R_avg|]. intros f f' [F1 F2].
      eapply Rr_bind with (P := Rl); [apply R_avg; auto|]. intros w w' Hw. apply Rr_ok. split; cbn [fst snd]; rl.
    - apply Rr_o2, Rr_ok. unfold aroon, aroon_up, aroon_dn, aroon_from. cbv zeta.
      split; cbn [fst snd]; rl.
    - apply Rr_o1. unfold ultosc, sumn. cbv zeta. destruct (veqb _ _); [apply Rr_raise|].
      destruct Hv as (? & ? & ?). apply Rr_ok. rl.
    - apply Rr_o1, R_stochrsi; auto.
    - destruct Hv. apply Rr_o2. unfold stochrsi_talib. eapply Rr_bind with (P := Rl); [now apply R_stochrsi|].
      intros m m' Hm. eapply Rr_bind with (P := Rl); [apply R_avg; auto|]. intros w w' Hw. apply Rr_ok.
      split; cbn [fst snd]; rl.
    - destruct Hv. apply Rr_o1. unfold adosc. cbv zeta. eapply Rr_bind with (P := Rl); [apply R_avg; rl|]. intros m m' Hm.
      eapply Rr_bind with (P := Rl); [apply R_avg; rl|]. intros w w' Hw. apply Rr_ok. rl.
    - apply Rr_one. now apply R_obv.
    - apply Rr_o1, R_sar; auto.
    - apply Rr_o1, R_sarext; auto.
    - apply Rr_o1, R_dcperiod; auto.
    - apply Rr_o2, R_phasor; auto.
    - apply Rr_o2, R_mama; auto.
  Qed.

  Lemma pick_R env env' is :
    Rls env env' -> Rr Rls (pick env is) (pick env' is).
  Proof.
    intro He. induction is as [|i is IH]; cbn [pick]; [apply Rr_ok; constructor|].
    assert (Hn : match nth_error env i, nth_error env' i with
                 | Some a, Some a' => Rl a a' | None, None => True | _, _ => False end).
    { clear IH is. revert i. induction He as [|a a' e e' Ha He IH]; intros [|i]; simpl; auto. apply IH. }
    destruct (nth_error env i), (nth_error env' i); try contradiction; [|apply Rr_raise].
    eapply Rr_bind; [exact IH|]. intros r r' Hr. apply Rr_ok. now constructor.
  Qed.

  Lemma session_R steps env env' :
    Forall (fun s => valid (fst s) /\ ~ cyclic (fst s)) steps -> Rls env env' ->
    Rr Rls (session env steps) (session env' steps).
  Proof.
    intro Hs. revert env env'. induction Hs as [|[x is] steps [Hv Hc] Hs IH]; intros env env' He; cbn [session].
    - now apply Rr_ok.
    - eapply Rr_bind; [now apply pick_R|]. intros ins ins' Hi.
      eapply Rr_bind; [now apply run_R|]. intros o o' Ho. apply IH. now apply Forall2_app.
  Qed.
End F.
