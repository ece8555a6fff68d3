(** Minimum periods and warm-up for every indicator of the catalogue and every session. *)
From Coq Require Import ZArith List Bool Lia Arith.
From Verif Require Import Num Series Line Spec LineFacts ScanFacts Expr CausalFacts WarmFacts
  IndMA IndBasic IndStat IndRange IndOsc IndVol Apply IndSar IndHT IndMama Catalog CatalogSpec
  CatalogR CatalogR2 CatalogW CatalogW2.
Import ListNotations.

Section F.
  Context {V : Type} {N : Num V} {T : NumT V}.
  Hypothesis HN : nan_laws N.
  Variable n : nat.
  Notation line := (line V).
  Notation W := (@W V N n).
  Notation BW := (@BW n).
  Definition We (m : Z) (l : line) : Prop := exists b, W m b l.
  Notation Wi := (Forall2 We).
  Notation Wo b := (Forall2 (fun m l => W m b l)).

  Lemma Wi_in1 (f : line -> res (list line)) ms ins (Q : list line -> Prop) :
    Wi ms ins -> (forall m b a, ms = [m] -> W m b a -> Post Q (f a)) -> Post Q (in1 ins f).
  Proof.
    intros H Hf. destruct H as [|m a ? ? [b Ha] [|]]; try apply Post_raise. eapply Hf; eauto.
  Qed.
  Lemma Wi_in2 (f : line -> line -> res (list line)) ms ins (Q : list line -> Prop) :
    Wi ms ins -> (forall m1 m2 b1 b2 a1 a2, ms = [m1; m2] -> W m1 b1 a1 -> W m2 b2 a2 -> Post Q (f a1 a2)) ->
    Post Q (in2 ins f).
  Proof.
    intros H Hf. destruct H as [|m1 a1 ? ? [b1 H1] [|m2 a2 ? ? [b2 H2] [|]]]; try apply Post_raise.
    eapply Hf; eauto.
  Qed.
  Lemma Wi_in3 (f : line -> line -> line -> res (list line)) ms ins (Q : list line -> Prop) :
    Wi ms ins ->
    (forall m1 m2 m3 b1 b2 b3 a1 a2 a3, ms = [m1; m2; m3] -> W m1 b1 a1 -> W m2 b2 a2 -> W m3 b3 a3 ->
       Post Q (f a1 a2 a3)) -> Post Q (in3 ins f).
  Proof.
    intros H Hf.
    destruct H as [|m1 a1 ? ? [b1 H1] [|m2 a2 ? ? [b2 H2] [|m3 a3 ? ? [b3 H3] [|]]]]; try apply Post_raise.
    eapply Hf; eauto.
  Qed.
  Lemma Wi_in4 (f : line -> line -> line -> line -> res (list line)) ms ins (Q : list line -> Prop) :
    Wi ms ins ->
    (forall m1 m2 m3 m4 b1 b2 b3 b4 a1 a2 a3 a4, ms = [m1; m2; m3; m4] ->
       W m1 b1 a1 -> W m2 b2 a2 -> W m3 b3 a3 -> W m4 b4 a4 -> Post Q (f a1 a2 a3 a4)) ->
    Post Q (in4 ins f).
  Proof.
    intros H Hf.
    destruct H as [|m1 a1 ? ? [b1 H1] [|m2 a2 ? ? [b2 H2] [|m3 a3 ? ? [b3 H3] [|m4 a4 ? ? [b4 H4] [|]]]]];
      try apply Post_raise.
    eapply Hf; eauto.
  Qed.
  Lemma Wi_inht (f : ht_in V -> res (list line)) ms ins (Q : list line -> Prop) :
    Wi ms ins -> (forall i, Win n i (ht_mp ms) -> Post Q (f i)) -> Post Q (inht ins f).
  Proof.
    intros H Hf.
    destruct H as [|m1 a1 ? ? [b1 H1] [|m2 a2 ? ? [b2 H2] [|]]]; try apply Post_raise; apply Hf;
      unfold ht_mp; cbn [fold_right Win].
    - exists b1. eapply W_to; [exact H1|pose proof (W_mp1 H1); lia|auto].
    - exists m1, m2, b1, b2. pose proof (W_mp1 H1). pose proof (W_mp1 H2). split; [auto|split; [auto|lia]].
  Qed.
  Lemma Post_o1 b m r : Post (W m b) r -> Post (Wo b [m]) (o1 r).
  Proof. intro H. eapply Post_bind; [exact H|]. intros a Ha. apply Post_ok. auto. Qed.
  Lemma Post_o2 b m1 f1 m2 f2 r :
    Post (Wp n m1 f1 m2 f2) r -> (b = true -> f1 = true) -> (b = true -> f2 = true) ->
    Post (Wo b [m1; m2]) (o2 r).
  Proof.
    intros H B1 B2. eapply Post_bind; [exact H|]. intros a [H1 H2]. apply Post_ok.
    constructor; [|constructor; [|constructor]]; eapply W_to; eauto.
  Qed.
  Lemma Post_o3 b m1 f1 m2 f2 m3 f3 r :
    Post (Wt n m1 f1 m2 f2 m3 f3) r -> (b = true -> f1 = true) -> (b = true -> f2 = true) ->
    (b = true -> f3 = true) -> Post (Wo b [m1; m2; m3]) (o3 r).
  Proof.
    intros H B1 B2 B3. eapply Post_bind; [exact H|]. intros a [[H1 H2] H3]. apply Post_ok.
    constructor; [|constructor; [|constructor; [|constructor]]]; eapply W_to; eauto.
  Qed.
  Lemma Post_one b m a : W m b a -> Post (Wo b [m]) (Ok [a]).
  Proof. intro. apply Post_ok. auto. Qed.

  Ltac wl1 :=
    lazymatch goal with
    | |- BW _ (cmpop _ _ _) => eapply BW_cmpop
    | |- BW _ (cmpop_s _ _ _) => eapply BW_cmpop_s
    | |- BW _ (bbinop _ _ _) => eapply BW_bbinop
    | |- W _ _ (ladd _ _) => eapply W_binop
    | |- W _ _ (lsub _ _) => eapply W_binop
    | |- W _ _ (lmul _ _) => eapply W_binop
    | |- W _ _ (ldiv _ _) => eapply W_binop
    | |- W _ _ (labs _) => eapply W_mapop
    | |- W _ _ (mapop _ _) => eapply W_mapop
    | |- W _ _ (binop_s _ _ _) => eapply W_binop_s
    | |- W _ _ (rbinop_s _ _ _) => eapply W_rbinop_s
    | |- W _ _ (pow2 _) => eapply W_pow2
    | |- W _ _ (mul_b _ _) => eapply W_mul_b
    | |- W _ _ (rmul_b _ _) => eapply W_rmul_b
    | |- W _ _ (rolling _ _ _) => eapply W_rolling1
    | |- W _ _ (rolling2 _ _ _ _) => eapply W_rolling2
    | |- W _ _ (raw (fillna0 (lser (rolling_count _ _ _)))) => eapply W_rolling_count_raw
    | |- W _ _ (diff _ _) => eapply W_diff
    | |- W _ _ (pct_change _ _) => eapply W_pct
    | |- W _ _ (at_ago _ (Z.neg _)) => eapply W_at_ago1
    | |- W _ _ (at_ago _ (- _)) => eapply W_at_ago
    | |- W _ _ (cross_idiff _ _ _) => eapply W_idiff
    | |- W _ _ (strength _) => eapply W_strength
    | |- W _ _ (truelow _ _ _) => eapply W_truelow
    | |- W _ _ (truerange _ _ _ _) => eapply W_truerange
    | |- W _ _ (ad _ _ _ _) => eapply W_ad
    end.
  Ltac wl := repeat first [ exact HN | eassumption | wl1 | lia ].
  Ltac w1s := repeat match goal with
    | H : W ?m _ _ |- _ =>
        lazymatch goal with _ : (1 <= m)%Z |- _ => fail | _ => pose proof (W_mp1 H) end end.
  Ltac zmax := repeat match goal with
    | |- context [Z.max ?a ?b] =>
        lazymatch a with context [Z.max _ _] => fail | _ => idtac end;
        lazymatch b with context [Z.max _ _] => fail | _ => idtac end;
        destruct (Z.max_spec a b) as [[? ->]|[? ->]] end; lia.
  Ltac zl := unfold tr_mp in *; first [lia | zmax].
  Ltac wk := w1s; eapply W_to; [wl|try zl|try (intros; reflexivity); auto].
  Ltac one := apply Post_one; wk.

  Lemma run_W x ms ins :
    valid x -> Wi ms ins -> Post (Wo (plain x) (mps x ms)) (run x ins).
  Proof.
    intros Hv Hi.
    destruct x; cbn [valid run plain] in *;
      first [ eapply Wi_in1; [exact Hi|]; intros m1 b1 l1 -> Ha
            | eapply Wi_in2; [exact Hi|]; intros m1 m2 b1 b2 l1 l2 -> Ha Hb
            | eapply Wi_in3; [exact Hi|]; intros m1 m2 m3 b1 b2 b3 l1 l2 l3 -> Ha Hb Hc
            | eapply Wi_in4; [exact Hi|]; intros m1 m2 m3 m4 b1 b2 b3 b4 l1 l2 l3 l4 -> Ha Hb Hc Hd
            | eapply Wi_inht; [exact Hi|]; intros i Hin
            | idtac ]; cbn [mps]; cbv zeta;
      unfold avgprice, typprice, wclprice, medprice, mathrad, to_radians, mathapply, sqrt_ind, add_ind,
        div_ind, mult_ind, sub_ind, maxindex_abs, minindex_abs, midprice, max_ind, min_ind, crossup,
        crossdown, cross_up, cross_down, correl, beta, mfi, williamsr, aroonosc, aroon_up, aroon_dn,
        aroon_from, bop, sumn; unfold max_ind, min_ind, sumn, aroon_from;
      cbv zeta;
      try (destruct degrees; one; fail); try (one; fail).
    - (* expressions *) apply Post_o1. intros y Hy.
      destruct (@eval_warm V N HN n ins (fun v => nth v ms 0%Z)) as [H _]; [|now apply H].
      intros v l Hv'. clear - Hi Hv'. revert v Hv'. induction Hi as [|m a ms ins [b Ha] Hi IH]; intros [|v] E;
        try discriminate; cbn [nth_error nth] in *.
      + injection E as <-. destruct Ha as (A1 & A2 & A3 & _). rewrite A1. auto.
      + auto.
    - apply Post_o1. eapply W_avg; eauto.
    - eapply Post_o2; [apply Post_ok; unfold minmax, min_ind, max_ind; split; cbn [fst snd]; wk|auto|auto].
    - destruct absidx; (eapply Post_o2;
        [apply Post_ok; unfold minmaxindex, minindex_abs, maxindex_abs, minindex, maxindex; split; cbn [fst snd]; wk|auto|auto]).
    - destruct Hv as (? & ? & ?).
      eapply Post_o3; [unfold macd; eapply W_macd_from; try (eapply W_avg; eauto; fail); auto|auto|auto|auto].
    - destruct Hv as (? & ? & ?). w1s.
      eapply Post_o3 with (f1 := true) (f2 := true) (f3 := true); auto. unfold macd_talib.
      intros y Hy.
      assert (E : Wma n ema (fun p m => m + (Z.of_nat p - 1))%Z true)
        by (intros q b0 m0 fl Hq Hb; eapply Wma_ema; eauto).
      refine (_ (@W_macd_from V N n (ema_full pfast SEED_AVG (Z.of_nat pslow)) (ema pslow) ema _ true psignal l1
        (m1 + (Z.of_nat pfast - 1)) true (m1 + (Z.of_nat pslow - 1)) true _ _ E _ y Hy)).
      + cbv beta zeta. intros [[K2 K3] K4]. split; [split|]; (eapply W_to; [eassumption|zl|auto]).
      + intros z Hz. unfold ema_full in Hz. eapply W_ewm_span; [| |exact Ha|exact Hz]; lia.
      + apply (E pslow l1 m1 b1); auto. lia.
      + auto.
    - destruct Hv. apply Post_o1. unfold apo.
      eapply Post_bind; [eapply W_posc; try (eapply W_avg; fail); eauto; apply W_avg; auto|].
      intros z [Z1 Z2]. apply Post_ok. wk.
    - destruct Hv as (? & ? & ?).
      eapply Post_o3; [unfold ppo; eapply W_ppo_from; eauto; apply W_avg; auto|auto|auto|auto].
    - destruct Hv as (? & ? & ?).
      eapply Post_o3; [unfold ppofast; eapply W_ppo_from; eauto; apply W_avg; auto|auto|auto|auto].
    - apply Post_raise.
    - eapply Post_o3 with (f1 := plain_avg ma) (f2 := true) (f3 := true); auto. unfold bbands, stddev.
      eapply Post_bind; [eapply W_avg; eauto|]. intros z Hz. cbv zeta. apply Post_ok.
      split; [split|]; cbn [fst snd]; wk.
    - apply Post_o1. unfold cci, mad. cbv zeta.
      assert (Ht : W (Z.max (Z.max m1 m2) m3) true (binop_s vdiv (ladd (ladd l1 l2) l3) (vofZ 3))) by wk.
      eapply Post_bind; [eapply W_avg; eauto|]. intros z Hz. apply Post_ok. wk.
    - destruct rets; one.
    - apply Post_raise.
    - apply Post_o1. unfold atr. pose proof (W_truerange lookback Ha Hb Hc) as Ht. eapply W_avg; eauto.
    - apply Post_o1. unfold natr, atr. pose proof (W_truerange lookback Ha Hb Hc) as Ht.
      eapply Post_bind; [eapply W_avg; eauto|]. intros z Hz. apply Post_ok. wk.
    - apply Post_o1. eapply W_plus_dm; eauto. now apply W_dm_smoother.
    - apply Post_o1. eapply W_minus_dm; eauto. now apply W_dm_smoother.
    - eapply Post_o2; [eapply W_dm; eauto; now apply W_dm_smoother|auto|auto].
    - apply Post_o1. eapply W_plus_di; eauto. now apply W_dm_smoother.
    - apply Post_o1. eapply W_minus_di; eauto. now apply W_dm_smoother.
    - eapply Post_o2; [eapply W_di; eauto; now apply W_dm_smoother|auto|auto].
    - apply Post_o1. eapply W_dx; eauto. now apply W_dm_smoother.
    - apply Post_o1. eapply W_adx; eauto; [now apply W_dm_smoother|now apply W_avg|apply Hv].
    - apply Post_o1. eapply W_adxr; eauto; [now apply W_dm_smoother|now apply W_avg|apply Hv].
    - apply Post_o1. eapply W_rsi; eauto. now apply W_avg.
    - apply Post_o1. unfold cmo, rsi_mp. pose proof (W_updays HN 1 Ha) as Hu. pose proof (W_downdays HN 1 Ha) as Hd.
      eapply Post_bind; [eapply W_avg; eauto|]. intros u U. eapply Post_bind; [eapply W_avg; eauto|].
      intros w Hw. apply Post_ok. wk.
    - destruct Hv. eapply Post_o2; [eapply W_stochf; eauto; now apply W_avg|auto|auto].
    - destruct Hv as (? & ? & ?). 
      eapply Post_o2 with (f1 := plain_avg ma) (f2 := plain_avg maslow).
      + unfold stochastic. eapply Post_bind; [eapply W_stochf; eauto; now apply W_avg|]. intros f [F1 F2].
        eapply Post_bind; [eapply W_avg; eauto|]. intros w Hw. apply Post_ok. split; auto.
      + intro E. now apply andb_prop in E.
      + intro E. now apply andb_prop in E.
    - apply Post_one. unfold stoch_mp. wk.
    - eapply Post_o2 with (f1 := true) (f2 := true); auto. apply Post_ok. unfold aroon, aroon_up, aroon_dn, aroon_from.
      cbv zeta. split; cbn [fst snd]; wk.
    - destruct Hv as (? & ? & ?). apply Post_o1. unfold ultosc, sumn. cbv zeta.
      destruct (veqb _ _); [apply Post_raise|]. apply Post_ok.
      wk.
    - apply Post_o1. eapply W_stochrsi; eauto.
    - destruct Hv. eapply Post_o2 with (f1 := true) (f2 := plain_avg ma); auto. unfold stochrsi_talib.
      eapply Post_bind; [eapply W_stochrsi; eauto|]. intros z Hz.
      eapply Post_bind; [eapply W_avg; eauto|]. intros w Hw. apply Post_ok. now split.
    - destruct Hv. apply Post_o1. unfold adosc. cbv zeta. pose proof (W_ad Ha Hb Hc Hd) as Hz.
      eapply Post_bind; [eapply W_avg; eauto|]. intros z Z1. eapply Post_bind; [eapply W_avg; eauto|].
      intros w Hw. apply Post_ok. wk.
    - apply Post_one. eapply W_obv; eauto.
    - apply Post_o1. eapply W_sar; eauto.
    - apply Post_o1. eapply W_sarext; eauto.
    - apply Post_o1. now apply W_dcperiod.
    - eapply Post_o2; [now apply W_phasor|auto|auto].
    - eapply Post_o2; [now apply W_mama|auto|auto].
    - apply Post_o1. now apply W_dcphase.
    - eapply Post_o2; [now apply W_sine|auto|auto].
    - apply Post_o1. now apply W_trendline.
    - apply Post_o1. now apply W_trendmode.
  Qed.

  Lemma pick_W ms env is : Wi ms env -> Post (Wi (map (fun i => nth i ms 0%Z) is)) (pick env is).
  Proof.
    intro He. induction is as [|i is IH]; cbn [pick map]; [apply Post_ok; constructor|].
    assert (Hn : match nth_error env i with Some a => We (nth i ms 0%Z) a | None => True end).
    { clear IH is. revert i. induction He as [|m a ms env Ha He IH]; intros [|i]; cbn; auto. apply IH. }
    destruct (nth_error env i); [|apply Post_raise].
    eapply Post_bind; [exact IH|]. intros r Hr. apply Post_ok. now constructor.
  Qed.

  Lemma session_W steps ms env :
    Forall (fun s => valid (fst s)) steps -> Wi ms env ->
    Post (fun outs => exists new nms, outs = env ++ new /\ session_mps ms steps = ms ++ nms /\
            Wi nms new /\ (Forall (fun s => plain (fst s) = true) steps -> Wo true nms new))
      (session env steps).
  Proof.
    intro Hs. revert ms env. induction Hs as [|[x is] steps Hv Hs IH]; intros ms env He; cbn [session session_mps].
    - apply Post_ok. exists [], []. rewrite !app_nil_r. repeat split; auto.
    - eapply Post_bind; [eapply pick_W; eauto|]. intros ins Hins.
      eapply Post_bind; [eapply run_W; eauto|]. intros o Ho.
      assert (Ho' : Wi (mps x (map (fun i => nth i ms 0%Z) is)) o).
      { clear - Ho. induction Ho; constructor; auto. eexists; eauto. }
      intros outs Hout. destruct (IH _ _ (Forall2_app He Ho') _ Hout) as (new & nms & -> & Es & Hn & Hp).
      exists (o ++ new), (mps x (map (fun i => nth i ms 0%Z) is) ++ nms).
      rewrite !app_assoc. repeat split; auto.
      + now apply Forall2_app.
      + intro Hpl. inversion Hpl as [|? ? P1 P2]; subst. cbn [fst] in *. apply Forall2_app; auto.
        now rewrite P1 in Ho.
  Qed.
End F.
