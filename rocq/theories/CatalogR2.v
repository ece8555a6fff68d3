(** No repainting, indicator by indicator. *)
From Coq Require Import ZArith List Bool Lia Arith.
From Coq Require QArith.
From Verif Require Import Num Series Line Spec LineFacts ScanFacts Expr CausalFacts WarmFacts
  IndMA IndBasic IndStat IndRange IndOsc IndVol Apply IndSar IndHT IndMama Catalog CatalogSpec CatalogR.
Import ListNotations.
Set Implicit Arguments.
Arguments skipn : simpl never.
Arguments firstn : simpl never.

(** success is preserved, with related results *)
Definition Rr {A A'} (P : A -> A' -> Prop) (r : res A) (r' : res A') : Prop :=
  forall y, r = Ok y -> exists y', r' = Ok y' /\ P y y'.

Lemma Rr_ok {A A'} (P : A -> A' -> Prop) a a' : P a a' -> Rr P (Ok a) (Ok a').
Proof. intros H y [= <-]. eauto. Qed.
Lemma Rr_raise {A A'} (P : A -> A' -> Prop) e r' : Rr P (Raise e) r'.
Proof. intros y H. discriminate. Qed.
Lemma Rr_bind {A A' B B'} (P : A -> A' -> Prop) (Q : B -> B' -> Prop) r r' f f' :
  Rr P r r' -> (forall a a', P a a' -> Rr Q (f a) (f' a')) -> Rr Q (bind r f) (bind r' f').
Proof.
  intros Hr Hf y Hy. apply bind_ok in Hy. destruct Hy as (a & Ha & Hy).
  destruct (Hr _ Ha) as (a' & Ha' & HP). rewrite Ha'. cbn [bind]. exact (Hf _ _ HP _ Hy).
Qed.

Section R2.
  Context {V : Type} {N : Num V} {T : NumT V}.
  Variables n n' : nat.
  Hypothesis Hnn : n <= n'.
  Notation line := (line V).
  Notation Rl := (@Rl V n n').
  Notation BRl := (@BRl n n').

  Definition Rma (ma : ma_fun V) : Prop :=
    forall p a a', 1 <= p -> Rl a a' -> Rr Rl (ma p a) (ma p a').
  Definition Rp (x x' : line * line) : Prop := Rl (fst x) (fst x') /\ Rl (snd x) (snd x').
  Definition Rt (x x' : line * line * line) : Prop := Rp (fst x) (fst x') /\ Rl (snd x) (snd x').

  Ltac rl1 :=
    lazymatch goal with
    | |- BRl (cmpop _ _ _) _ => apply BR_cmpop
    | |- BRl (cmpop_s _ _ _) _ => apply BR_cmpop_s
    | |- BRl (bbinop _ _ _) _ => apply BR_bbinop
    | |- Rl (ladd _ _) _ => apply R_binop
    | |- Rl (lsub _ _) _ => apply R_binop
    | |- Rl (lmul _ _) _ => apply R_binop
    | |- Rl (ldiv _ _) _ => apply R_binop
    | |- Rl (labs _) _ => apply R_mapop
    | |- Rl (mapop _ _) _ => apply R_mapop
    | |- Rl (binop_s _ _ _) _ => apply R_binop_s
    | |- Rl (rbinop_s _ _ _) _ => apply R_rbinop_s
    | |- Rl (pow2 _) _ => apply R_pow2
    | |- Rl (mul_b _ _) _ => apply R_mul_b
    | |- Rl (rmul_b _ _) _ => apply R_rmul_b
    | |- Rl (rolling _ _ _) _ => apply R_rolling1
    | |- Rl (rolling2 _ _ _ _) _ => apply R_rolling2
    | |- Rl (ewm_mean _ _ _) _ => apply R_ewm_mean1
    | |- Rl (stdop ser_cumsum _) _ => apply R_cumsum
    | |- Rl (stdop ser_replace0_ffill _) _ => apply R_repl0
    | |- Rl (shift _ 1) _ => apply (@R_shift V N n n' Hnn 1)
    | |- Rl (shift _ _) _ => apply R_shift
    | |- Rl (diff _ _) _ => apply R_diff
    | |- Rl (pct_change _ _) _ => apply R_pct
    | |- Rl (at_ago _ (Z.neg _)) _ => apply R_at_ago1
    | |- Rl (at_ago _ (- _)) _ => apply R_at_ago
    | |- Rl (filled _ _) _ => apply R_filled
    | |- Rl (lclip_lo _ _) _ => apply R_lclip_lo
    | |- Rl (lclip_hi _ _) _ => apply R_lclip_hi
    | |- Rl (lclip_lo_l _ _) _ => apply R_lclip_lo_l
    | |- Rl (lclip_hi_l _ _) _ => apply R_lclip_hi_l
    | |- Rl (lmask _ _ _) _ => apply R_lmask
    | |- Rl (lfillna _ _) _ => apply R_lfillna
    | |- Rl (period_ _ (Z.pos _) false _) _ => apply R_period
    end.
  Ltac rl := repeat first [ assumption | rl1 | lia ].
  Ltac okr := first [ apply Rr_ok | apply Rr_raise ].
  Ltac bnd H a a' Ha := eapply Rr_bind; [ apply H; rl | intros a a' Ha ].

  (** ** Averages *)
  Lemma R_sma p a a' : 1 <= p -> Rl a a' -> Rl (sma p a) (sma p a').
  Proof. intros. unfold sma. rl. Qed.

  Lemma Rma_ema sd po : (po = 0)%Z -> Rma (fun p i0 => ema_full p sd po i0).
  Proof.
    intros Hpo p a a' Hp Ha y Hy. unfold ema_full in *.
    eapply R_ewm_span; eauto.
  Qed.
  Lemma Rma_smma sd : Rma (fun p i0 => smma_seed p sd i0).
  Proof. intros p a a' Hp Ha y Hy. unfold smma_seed in *. eapply R_ewm_com; eauto. Qed.

  Lemma R_gdema ma p vf a a' : Rma ma -> 1 <= p -> Rl a a' -> Rr Rl (gdema ma p vf a) (gdema ma p vf a').
  Proof.
    intros Hma Hp Ha. unfold gdema. bnd Hma x x' Hx. bnd Hma z z' Hz. apply Rr_ok. rl.
  Qed.

  Lemma R_kama_sc p pvol fast slow a a' :
    1 <= p -> Rl a a' -> Rl (kama_sc p pvol fast slow a) (kama_sc p pvol fast slow a').
  Proof. intros. unfold kama_sc, kama_er, sumn. rl. Qed.
  Lemma kama_sc_mp p pvol fast slow (a : line) :
    (1 <= lmp a)%Z -> 1 <= p ->
    lmp (kama_sc p pvol fast slow a) = (lmp a + Z.max (Z.of_nat p) (Z.of_nat pvol + Z.of_nat p - 1))%Z.
  Proof.
    intros Ha Hp. unfold kama_sc, pow2, kama_er, sumn, labs, mapop, ldiv, diff.
    cbn [binop_s binop stdop rolling kwop_p lmp clone]. 
    repeat match goal with |- context [(?x =? 0)%Z] => destruct (Z.eqb_spec x 0) end; try lia.
  Qed.

  Lemma R_avg a : Rma (avg_fun a).
  Proof.
    induction a; intros p l l' Hp Hl; cbn [avg_fun];
      unfold sma_, sma, ewma, wma, sumn, max_ind, min_ind, maxindex, minindex, var, stddev, mad,
        linearreg_slope, linearreg_angle, linearreg_intercept, linearreg, tsf, linreg_mb, mathrad,
        to_radians, midpoint, midprice, max_ind, min_ind, mom, roc, rocp, rocr, rocr100, rocbase;
      cbn [fst snd]; cbv zeta; try (apply Rr_ok; rl; fail).
    - now apply Rma_ema.
    - now apply Rma_smma.
    - unfold dema. bnd IHa x x' Hx. bnd IHa z z' Hz. apply Rr_ok. rl.
    - unfold tema. bnd IHa x x' Hx. bnd IHa z z' Hz. bnd IHa w w' Hw. apply Rr_ok. rl.
    - unfold trima. apply Rr_ok. destruct (Nat.odd p) eqn:E.
      + assert (1 <= Nat.div (p + 1) 2) by (apply (Nat.div_le_lower_bound (p+1) 2 1); lia).
        apply R_sma; auto. now apply R_sma.
      + assert (p <> 1) by (intros ->; discriminate).
        assert (1 <= Nat.div p 2) by (apply (Nat.div_le_lower_bound p 2 1); lia).
        apply R_sma; [lia|]. now apply R_sma.
    - unfold trix. bnd IHa x x' Hx. bnd IHa z z' Hz. bnd IHa w w' Hw. apply Rr_ok. rl.
    - now apply R_gdema.
    - unfold t3. assert (E : Rma ema) by (intros q b b' Hq Hb; now apply Rma_ema).
      bnd E e1 e1' H1. bnd E e2 e2' H2. bnd E e3 e3' H3. bnd E e4 e4' H4. bnd E e5 e5' H5. bnd E e6 e6' H6.
      apply Rr_ok. rl.
    - unfold t3_gd. eapply Rr_bind; [apply R_gdema; eauto|intros x x' Hx].
      eapply Rr_bind; [apply R_gdema; eauto|intros z z' Hz]. now apply R_gdema.
    - intros y Hy. unfold kama in *.
      destruct (@R_ewm_dyn V N n n' Hnn (Z.of_nat p) _ _ sd l l' y
                  (@R_kama_sc p pvol fast slow l l' Hp Hl) Hl) as (y' & E & HR & _); auto; try lia.
      + rewrite kama_sc_mp by (auto; apply (Rl_mp1 Hl)).
        pose proof (Rl_mp1 Hl). destruct (Z.eqb_spec (Z.of_nat p) 0); lia.
      + eauto.
    - intros y Hy. eapply R_smacc; eauto. discriminate.
  Qed.

  (** ** Everything built from operators and averages *)
  Lemma R_macd_from fast slow masig ps a a' :
    (forall b b', Rl b b' -> Rr Rl (fast b) (fast b')) -> (forall b b', Rl b b' -> Rr Rl (slow b) (slow b')) ->
    Rma masig -> 1 <= ps -> Rl a a' ->
    Rr Rt (macd_from fast slow masig ps a) (macd_from fast slow masig ps a').
  Proof.
    intros Hf Hs Hm Hp Ha. unfold macd_from. bnd Hf x x' Hx. bnd Hs z z' Hz. cbv zeta.
    bnd Hm s s' Hss. apply Rr_ok. split; [split|]; cbn [fst snd]; rl.
  Qed.

  Lemma R_posc fast ma pf ps a a' :
    Rma ma -> 1 <= pf -> 1 <= ps -> Rl a a' -> Rr Rp (posc fast ma pf ps a) (posc fast ma pf ps a').
  Proof.
    intros Hm Hf Hs Ha. unfold posc. bnd Hm x x' Hx. bnd Hm z z' Hz. apply Rr_ok.
    destruct fast; split; auto.
  Qed.

  Lemma R_ppo_from fast ma masig pf ps psig a a' :
    Rma ma -> Rma masig -> 1 <= pf -> 1 <= ps -> 1 <= psig -> Rl a a' ->
    Rr Rt (ppo_from fast ma masig pf ps psig a) (ppo_from fast ma masig pf ps psig a').
  Proof.
    intros Hm Hg Hf Hs Hp Ha. unfold ppo_from.
    eapply Rr_bind; [apply R_posc; auto|intros m m' [H1 H2]]. cbv zeta.
    bnd Hg s s' Hss. apply Rr_ok. split; [split|]; cbn [fst snd]; rl.
  Qed.

  Lemma R_idiff s a a' b b' : Rl a a' -> Rl b b' -> Rl (cross_idiff s a b) (cross_idiff s a' b').
  Proof. intros. unfold cross_idiff. destruct s; rl. Qed.

  Lemma R_truelow lb l l' c c' : Rl l l' -> Rl c c' -> Rl (truelow lb l c) (truelow lb l' c').
  Proof. intros. unfold truelow. rl. Qed.
  Lemma R_truerange lb h h' l l' c c' :
    Rl h h' -> Rl l l' -> Rl c c' -> Rl (truerange lb h l c) (truerange lb h' l' c').
  Proof. intros. unfold truerange. rl. Qed.
  Lemma R_pdm1 lb h h' l l' : Rl h h' -> Rl l l' -> Rl (pdm1 lb h l) (pdm1 lb h' l').
  Proof. intros. unfold pdm1, upmove, downmove. rl. Qed.
  Lemma R_mdm1 lb h h' l l' : Rl h h' -> Rl l l' -> Rl (mdm1 lb h l) (mdm1 lb h' l').
  Proof. intros. unfold mdm1, upmove, downmove. rl. Qed.

  Ltac zcases := repeat match goal with |- context [(?x =? 0)%Z] => destruct (Z.eqb_spec x 0) end; try lia.
  Lemma pdm1_mp lb (h l : line) : (1 <= lmp h)%Z -> (1 <= lmp l)%Z -> (Z.of_nat lb + 1 <= lmp (pdm1 lb h l))%Z.
  Proof.
    intros Hh Hl. unfold pdm1, upmove, downmove, mul_b, lclip_lo, cmpop, lsub, binop, diff, at_ago.
    destruct (Z.eqb_spec (- Z.of_nat lb) 0); unfold shift, filled;
      cbn [kwop_p lmp clone bclone bmp]; zcases.
  Qed.
  Lemma mdm1_mp lb (h l : line) : (1 <= lmp h)%Z -> (1 <= lmp l)%Z -> (Z.of_nat lb + 1 <= lmp (mdm1 lb h l))%Z.
  Proof.
    intros Hh Hl. unfold mdm1, upmove, downmove, mul_b, lclip_lo, cmpop, lsub, binop, diff, at_ago.
    destruct (Z.eqb_spec (- Z.of_nat lb) 0); unfold shift, filled;
      cbn [kwop_p lmp clone bclone bmp]; zcases.
  Qed.
  Lemma truerange_mp lb (h l c : line) :
    (1 <= lmp h)%Z -> (1 <= lmp l)%Z -> (1 <= lmp c)%Z -> (Z.of_nat lb + 1 <= lmp (truerange lb h l c))%Z.
  Proof.
    intros Hh Hl Hc. unfold truerange, lclip_lo_l, lclip_hi_l, stdop2, lsub, binop, at_ago.
    destruct (Z.eqb_spec (- Z.of_nat lb) 0); unfold shift, filled;
      cbn [kwop_p lmp clone]; zcases.
  Qed.

  (** a smoother that may need some look-back in its input *)
  Definition Rsm (sm : line -> res line) (lb : nat) : Prop :=
    forall a a', Rl a a' -> (Z.of_nat lb + 1 <= lmp a)%Z -> Rr Rl (sm a) (sm a').
  Lemma R_dm_smoother alt pe ma p lb :
    Rma ma -> dm_ok alt pe p lb -> Rsm (dm_smoother alt pe ma p) lb.
  Proof.
    intros Hma [Hp Hlb] a a' Ha Hm. unfold dm_smoother. destruct alt; [now apply Hma|].
    intros y Hy. eapply R_smacc; eauto. intros ->. specialize (Hlb eq_refl eq_refl). lia.
  Qed.

  Section DM.
    Variables (sm : line -> res line) (lb : nat).
    Hypothesis Hsm : Rsm sm lb.
    Variables h h' l l' c c' : line.
    Hypotheses (Hh : Rl h h') (Hl : Rl l l') (Hc : Rl c c').

    Lemma R_plus_dm : Rr Rl (plus_dm sm lb h l) (plus_dm sm lb h' l').
    Proof.
      unfold plus_dm. apply Hsm; [now apply R_pdm1|].
      apply pdm1_mp; [apply (Rl_mp1 Hh)|apply (Rl_mp1 Hl)].
    Qed.
    Lemma R_minus_dm : Rr Rl (minus_dm sm lb h l) (minus_dm sm lb h' l').
    Proof.
      unfold minus_dm. apply Hsm; [now apply R_mdm1|].
      apply mdm1_mp; [apply (Rl_mp1 Hh)|apply (Rl_mp1 Hl)].
    Qed.
    Lemma R_dm : Rr Rp (dm sm lb h l) (dm sm lb h' l').
    Proof.
      unfold dm. eapply Rr_bind; [apply R_plus_dm|intros x x' Hx].
      eapply Rr_bind; [apply R_minus_dm|intros z z' Hz]. apply Rr_ok. now split.
    Qed.
    Lemma R_di_range : Rr Rl (di_range sm lb h l c) (di_range sm lb h' l' c').
    Proof.
      unfold di_range. eapply Rr_bind.
      - apply Hsm; [now apply R_truerange|].
        apply truerange_mp; [apply (Rl_mp1 Hh)|apply (Rl_mp1 Hl)|apply (Rl_mp1 Hc)].
      - intros x x' Hx. apply Rr_ok. rewrite (Rl_mp Hx). apply R_mp; auto. pose proof (Rl_mp1 Hx). lia.
    Qed.
    Lemma R_di : Rr Rp (di sm lb h l c) (di sm lb h' l' c').
    Proof.
      unfold di. eapply Rr_bind; [apply R_dm|intros x x' [H1 H2]].
      eapply Rr_bind; [apply R_di_range|intros z z' Hz]. apply Rr_ok. split; cbn [fst snd]; rl.
    Qed.
    Lemma R_plus_di : Rr Rl (plus_di sm lb h l c) (plus_di sm lb h' l' c').
    Proof.
      unfold plus_di. eapply Rr_bind; [apply R_plus_dm|intros x x' Hx].
      eapply Rr_bind; [apply R_di_range|intros z z' Hz]. apply Rr_ok. rl.
    Qed.
    Lemma R_minus_di : Rr Rl (minus_di sm lb h l c) (minus_di sm lb h' l' c').
    Proof.
      unfold minus_di. eapply Rr_bind; [apply R_minus_dm|intros x x' Hx].
      eapply Rr_bind; [apply R_di_range|intros z z' Hz]. apply Rr_ok. rl.
    Qed.
    Lemma R_dx : Rr Rl (dx sm lb h l c) (dx sm lb h' l' c').
    Proof.
      unfold dx. eapply Rr_bind; [apply R_di|intros x x' [H1 H2]]. apply Rr_ok. rl.
    Qed.
    Lemma R_adx ma p : Rma ma -> 1 <= p -> Rr Rl (adx ma p sm lb h l c) (adx ma p sm lb h' l' c').
    Proof.
      intros Hma Hp. unfold adx. eapply Rr_bind; [apply R_dx|intros x x' Hx]. now apply Hma.
    Qed.
    Lemma R_adxr talib pr ma p :
      Rma ma -> 1 <= p -> Rr Rl (adxr talib pr ma p sm lb h l c) (adxr talib pr ma p sm lb h' l' c').
    Proof.
      intros Hma Hp. unfold adxr. cbv zeta. eapply Rr_bind; [now apply R_adx|intros x x' Hx].
      apply Rr_ok. rl. destruct (Nat.eqb_spec pr 0), talib; lia.
    Qed.
  End DM.

  Lemma R_updays lb a a' : Rl a a' -> Rl (updays lb a) (updays lb a').
  Proof. intros. unfold updays. rl. Qed.
  Lemma R_downdays lb a a' : Rl a a' -> Rl (downdays lb a) (downdays lb a').
  Proof. intros. unfold downdays. rl. Qed.
  Lemma R_strength a a' : Rl a a' -> Rl (strength a) (strength a').
  Proof. intros. unfold strength. rl. Qed.
  Lemma R_rsi ma p lb a a' : Rma ma -> 1 <= p -> Rl a a' -> Rr Rl (rsi ma p lb a) (rsi ma p lb a').
  Proof.
    intros Hma Hp Ha. unfold rsi. eapply Rr_bind; [apply Hma; auto; now apply R_updays|intros x x' Hx].
    eapply Rr_bind; [apply Hma; auto; now apply R_downdays|intros z z' Hz].
    apply Rr_ok. apply R_strength. rl.
  Qed.
  Lemma R_stoch_k p h h' l l' c c' :
    1 <= p -> Rl h h' -> Rl l l' -> Rl c c' -> Rl (stoch_k p h l c) (stoch_k p h' l' c').
  Proof. intros. unfold stoch_k, max_ind, min_ind. rl. Qed.
  Lemma R_stochf ma p pf h h' l l' c c' :
    Rma ma -> 1 <= p -> 1 <= pf -> Rl h h' -> Rl l l' -> Rl c c' ->
    Rr Rp (stochf ma p pf h l c) (stochf ma p pf h' l' c').
  Proof.
    intros Hma Hp Hpf Hh Hl Hc. unfold stochf. cbv zeta.
    eapply Rr_bind; [apply Hma; auto; now apply R_stoch_k|intros x x' Hx].
    apply Rr_ok. split; cbn [fst snd]; auto. now apply R_stoch_k.
  Qed.
  Lemma R_stochrsi p ph scale a a' :
    1 <= p -> Rl a a' -> Rr Rl (stochrsi p ph scale a) (stochrsi p ph scale a').
  Proof.
    intros Hp Ha. unfold stochrsi. cbv zeta.
    eapply Rr_bind; [apply R_rsi; eauto|intros x x' Hx].
    - intros q b b' Hq Hb. now apply Rma_smma.
    - apply Rr_ok. unfold max_ind, min_ind. destruct (Nat.eqb_spec ph 0); rl.
  Qed.
  Lemma R_ad h h' l l' c c' v v' :
    Rl h h' -> Rl l l' -> Rl c c' -> Rl v v' -> Rl (ad h l c v) (ad h' l' c' v').
  Proof. intros. unfold ad. rl. Qed.

  Lemma diff_mp p (a : line) : (1 <= lmp a)%Z -> lmp (diff a p) = (lmp a + p)%Z.
  Proof. intro H. unfold diff. cbn [kwop_p lmp clone]. zcases. Qed.

  Lemma R_obv talib period c c' v v' :
    (talib = true -> 1 <= period) -> Rl c c' -> Rl v v' -> Rl (obv talib period c v) (obv talib period c' v').
  Proof.
    intros Hp Hc Hv. unfold obv. destruct talib; rl.
    pose proof (Rl_mp1 Hc). specialize (Hp eq_refl).
    apply R_period_back; rl. rewrite diff_mp by lia. lia.
  Qed.

  (** ** Parabolic SAR *)
  Lemma sar_loop_ext AF AX st h l h' l' :
    length h = length l -> length h' = length l' ->
    length (sar_loop AF AX st h l) = length h /\
    prefix (sar_loop AF AX st h l) (sar_loop AF AX st (h ++ h') (l ++ l')).
  Proof.
    revert st l; induction h as [|x h IH]; intros st [|y l] Hl Hl'; try discriminate.
    - split; auto. apply prefix_nil.
    - cbn [app sar_loop]. destruct (sar_step AF AX st x y) as [st' v].
      destruct (IH st' l) as [L P]; auto. split; [simpl; now rewrite L|now apply prefix_cons].
  Qed.
  Lemma sarx_loop_ext P st h l h' l' :
    length h = length l -> length h' = length l' ->
    length (sarx_loop P st h l) = length h /\
    prefix (sarx_loop P st h l) (sarx_loop P st (h ++ h') (l ++ l')).
  Proof.
    revert st l; induction h as [|x h IH]; intros st [|y l] Hl Hl'; try discriminate.
    - split; auto. apply prefix_nil.
    - cbn [app sarx_loop]. destruct (sarx_step P st x y) as [st' v].
      destruct (IH st' l) as [L Q]; auto. split; [simpl; now rewrite L|now apply prefix_cons].
  Qed.

  Lemma sar_causal AF AX :
    Fcausal (fun h args => match args with l :: _ => sarize AF AX h l | [] => Raise TypeError end).
  Proof.
    intros s ss s' ss' r m m' Hs Hs' Hm Hss Hss' [u Hu] P2 Hr.
    destruct P2 as [|l l' ls ls' [w Hw] P2]; [discriminate|].
    inversion Hss; subst. inversion Hss'; subst.
    destruct s as [|h1 [|h2 s]]; [discriminate|destruct l; discriminate|].
    destruct l as [|l1 [|l2 l]]; try discriminate.
    cbn [app sarize tl] in *. rewrite ?app_length in *. 
    destruct (if start_trend h1 l1 h2 l2 then (h2, l1) else (l2, h1)) as [ep sr].
    injection Hr as <-.
    destruct (@sar_loop_ext AF AX (mkSar (start_trend h1 l1 h2 l2) ep sr AF h2 l2) (h2 :: s) (l2 :: l) u w)
      as [L1 P1]; simpl in *; rewrite ?app_length in *; try lia.
    destruct (@sar_loop_ext AF AX (mkSar (start_trend h1 l1 h2 l2) ep sr AF h2 l2) (h2 :: s ++ u) (l2 :: l ++ w) [] [])
      as [L2 _]; simpl; rewrite ?app_length; try lia.
    split; [now rewrite L1|]. eexists. split; [reflexivity|]. simpl in *. rewrite ?app_length in *.
    split; [lia|]. now apply prefix_cons.
  Qed.
  Lemma sarx_causal sv P :
    Fcausal (fun h args => match args with l :: _ => sarxize sv P h l | [] => Raise TypeError end).
  Proof.
    intros s ss s' ss' r m m' Hs Hs' Hm Hss Hss' [u Hu] P2 Hr.
    destruct P2 as [|l l' ls ls' [w Hw] P2]; [discriminate|].
    inversion Hss; subst. inversion Hss'; subst.
    destruct s as [|h1 [|h2 s]]; [discriminate|destruct l; discriminate|].
    destruct l as [|l1 [|l2 l]]; try discriminate.
    cbn [app sarxize tl] in *. rewrite ?app_length in *. 
    match type of Hr with (let '(_, _) := ?e in _) = _ => destruct e as [[tr ep] sr] end.
    injection Hr as <-.
    destruct (@sarx_loop_ext P (mkSarx tr ep sr (AFL P) (AFS P) h2 l2) (h2 :: s) (l2 :: l) u w)
      as [L1 P1]; simpl in *; rewrite ?app_length in *; try lia.
    destruct (@sarx_loop_ext P (mkSarx tr ep sr (AFL P) (AFS P) h2 l2) (h2 :: s ++ u) (l2 :: l ++ w) [] [])
      as [L2 _]; simpl; rewrite ?app_length; try lia.
    split; [now rewrite L1|]. eexists. split; [reflexivity|]. simpl in *. rewrite ?app_length in *.
    split; [lia|]. now apply prefix_cons.
  Qed.

  Lemma R_sar af ax h h' l l' : Rl h h' -> Rl l l' -> Rr Rl (sar af ax h l) (sar af ax h' l').
  Proof.
    intros Hh Hl. unfold sar. eapply Rr_bind with (P := Rl).
    - intros y Hy. destruct (R_apply Hnn (@sar_causal af ax) Hh (Forall2_cons _ _ Hl (Forall2_nil _)) Hy)
        as (y' & E & HR & _). eauto.
    - intros x x' Hx. apply Rr_ok. rl.
  Qed.
  Lemma R_sarext sv P h h' l l' : Rl h h' -> Rl l l' -> Rr Rl (sarext sv P h l) (sarext sv P h' l').
  Proof.
    intros Hh Hl. unfold sarext. eapply Rr_bind with (P := Rl).
    - intros y Hy. destruct (R_apply Hnn (@sarx_causal sv P) Hh (Forall2_cons _ _ Hl (Forall2_nil _)) Hy)
        as (y' & E & HR & _). eauto.
    - intros x x' Hx. apply Rr_ok. rl.
  Qed.

  (** ** Hilbert transform *)
  Definition Rin (i i' : ht_in V) : Prop :=
    match i, i' with
    | HLine a, HLine a' => Rl a a'
    | HHighLow h l, HHighLow h' l' => Rl h h' /\ Rl l l'
    | _, _ => False
    end.
  Lemma R_p0 i i' : Rin i i' -> Rl (ht_p0 i) (ht_p0 i').
  Proof. destruct i, i'; cbn [Rin ht_p0]; intros H; try contradiction; auto. destruct H. rl. Qed.
  Lemma R_p0smooth a a' : Rl a a' -> Rl (ht_p0smooth a) (ht_p0smooth a').
  Proof. intro H. unfold ht_p0smooth. rl. Qed.

  Lemma causal_buffered k (L : list V -> list V) :
    causal L -> causal (fun s => buffered k s (L (skipn k s))).
  Proof.
    intros [H1 H2]. unfold buffered. split.
    - intro l. rewrite app_length, repeat_length, H1, skipn_length. lia.
    - intros l t. rewrite app_length. rewrite <- !plc_form. apply plc_prefix.
      + rewrite H1, skipn_length. lia.
      + lia.
      + intro Hk. rewrite skipn_prefix by lia. apply H2.
  Qed.
  Lemma dcp_scan st s : dcp_loop st s = scan (fun st p => let st' := ht_step st p in (st', h_sp st')) st s.
  Proof. revert st; induction s as [|x s IH]; intro st; simpl; rewrite ?IH; auto. Qed.
  Lemma phasor_scan st s :
    phasor_loop st s = scan (fun st p => let st' := ht_step st p in (st', (x6 (h_i1 st'), x6 (h_q1 st')))) st s.
  Proof. revert st; induction s as [|x s IH]; intro st; simpl; rewrite ?IH; auto. Qed.
  Lemma causal_dcperiodize : causal dcperiodize.
  Proof.
    unfold dcperiodize. apply (@causal_buffered 6 (dcp_loop ht0)).
    pose proof (causal_scan (fun st p => let st' := ht_step (V:=V) st p in (st', h_sp st')) ht0) as [H1 H2].
    split; intros; rewrite !dcp_scan; auto.
  Qed.
  Lemma causal_phasor (f : V * V -> V) : causal (fun s => buffered 6 s (map f (phasor_loop ht0 (skipn 6 s)))).
  Proof.
    apply (@causal_buffered 6 (fun s => map f (phasor_loop ht0 s))).
    pose proof (causal_scan (fun st p => let st' := ht_step (V:=V) st p in
                   (st', (x6 (h_i1 st'), x6 (h_q1 st')))) ht0) as HC.
    destruct (causal_comp (F := map f) (causal_map f) HC) as [H1 H2].
    split; intros; rewrite !phasor_scan; auto.
  Qed.
  Lemma Fcausal_of G : causal G -> Fcausal (fun s (_ : list (list V)) => Ok (G s)).
  Proof.
    intros [H1 H2] s ss s' ss' r m m' Hs Hs' Hm Hss Hss' [u ->] P2 [= <-].
    split; [now rewrite H1|]. eexists. split; [reflexivity|]. split; [now rewrite H1|]. apply H2.
  Qed.
  Lemma phasorize_causal : FcausalM (fun price (_ : list (list V)) => Ok (phasorize price)).
  Proof.
    intros s ss s' ss' r m m' Hs Hs' Hm Hss Hss' [u ->] P2 [= <-].
    eexists. split; [reflexivity|]. unfold phasorize. cbv zeta.
    destruct (causal_phasor fst) as [A1 A2]. destruct (causal_phasor snd) as [B1 B2].
    repeat constructor; try (rewrite A1; assumption); try (rewrite B1; assumption); auto.
  Qed.

  Lemma R_dcperiod i i' : Rin i i' -> Rr Rl (ht_dcperiod i) (ht_dcperiod i').
  Proof.
    intro Hi. unfold ht_dcperiod. cbv zeta. pose proof (R_p0smooth (R_p0 i i' Hi)) as Hp.
    eapply Rr_bind with (P := Rl).
    - intros y Hy.
      destruct (R_apply Hnn (Fcausal_of causal_dcperiodize) Hp
                  (Forall2_cons _ _ (R_filled Hnn v0 Hp) (Forall2_nil _)) Hy) as (y' & E & HR & _). eauto.
    - intros x x' Hx. apply Rr_ok. rl.
  Qed.
  Lemma R_two (y y' : list line) (G : line -> line -> res (line * line)) G' e :
    Forall2 Rl y y' -> (forall a b a' b', y = [a; b] -> Rl a a' -> Rl b b' -> Rr Rp (G a b) (G' a' b')) ->
    Rr Rp (match y with [a; b] => G a b | _ => Raise e end)
          (match y' with [a; b] => G' a b | _ => Raise e end).
  Proof.
    intros H HG. destruct H as [|a a' y y' Ha [|b b' z z' Hb [|]]]; try apply Rr_raise. now apply HG.
  Qed.
  Lemma R_phasor i i' : Rin i i' -> Rr Rp (ht_phasor i) (ht_phasor i').
  Proof.
    intro Hi. unfold ht_phasor. cbv zeta. pose proof (R_p0smooth (R_p0 i i' Hi)) as Hp.
    eapply Rr_bind with (P := Forall2 Rl).
    - intros y Hy.
      destruct (R_applymulti Hnn phasorize_causal Hp
                  (Forall2_cons _ _ (R_filled Hnn v0 Hp) (Forall2_cons _ _ (R_filled Hnn v0 Hp) (Forall2_nil _))) Hy)
        as (y' & E & HR & _). eauto.
    - intros x x' Hx. apply R_two; auto. intros a b a' b' _ Ha Hb. apply Rr_ok. split; cbn [fst snd]; rl.
  Qed.

  Lemma mapop_mp f (a : line) : (1 <= lmp a)%Z -> lmp (mapop f a) = lmp a.
  Proof. intro H. unfold mapop, stdop. rewrite clone_pos by lia. reflexivity. Qed.
  Lemma binop_mp op (a b : line) : (1 <= lmp a)%Z -> lmp (binop op a b) = Z.max (lmp a) (lmp b).
  Proof. intro H. unfold binop. rewrite clone_pos by lia. reflexivity. Qed.
  Lemma binop_s_mp op (a : line) c : (1 <= lmp a)%Z -> lmp (binop_s op a c) = lmp a.
  Proof. intro H. unfold binop_s. rewrite clone_pos by lia. cbn [lmp]. lia. Qed.
  Lemma rbinop_s_mp op (a : line) c : (1 <= lmp a)%Z -> lmp (rbinop_s op c a) = lmp a.
  Proof. intro H. unfold rbinop_s. rewrite clone_pos by lia. cbn [lmp]. lia. Qed.
  Lemma at_ago_mp (a : line) p : (1 <= lmp a)%Z -> (0 <= p)%Z -> lmp (at_ago a (- p)) = (lmp a + p)%Z.
  Proof.
    intros H Hp. unfold at_ago. destruct (Z.eqb_spec (- p) 0); unfold filled, shift, kwop_p; cbn [lmp]; [lia|].
    rewrite clone_pos by lia. cbn [lmp]. lia.
  Qed.
  Lemma lmask_mp (a : line) c v : (1 <= lmp a)%Z -> lmp (lmask a c v) = Z.max (lmp a) (bmp c).
  Proof. intro H. unfold lmask. rewrite clone_pos by lia. cbn [lmp]. lia. Qed.
  Lemma cmpop_s_mp op (a : line) c : (1 <= lmp a)%Z -> bmp (cmpop_s op a c) = lmp a.
  Proof. intro H. unfold cmpop_s. rewrite bclone_pos by lia. cbn [bmp]. lia. Qed.
  Lemma lclip_lo_mp (a : line) t : (1 <= lmp a)%Z -> lmp (lclip_lo a t) = lmp a.
  Proof. intro H. unfold lclip_lo. rewrite clone_pos by lia. cbn [lmp]. lia. Qed.
  Lemma period_mp (a : line) p v : lmp (period_ a p false v) = (lmp a + p)%Z.
  Proof. unfold period_. rewrite Z.sub_0_r. destruct (Z.eqb_spec p 0); cbn [lmp]; lia. Qed.

  Lemma mama_phase_mp (i1 q1 : line) c f v w :
    (1 <= lmp i1)%Z -> (1 <= lmp q1)%Z ->
    lmp (rbinop_s vmul RAD2DEG (lfillna (mathrad f false
           (ldiv (lmask (period_ q1 6 false None) (cmpop_s veqb i1 c) v) i1)) w)) =
    Z.max (lmp q1 + 6) (lmp i1).
  Proof.
    intros H1 H2.
    assert (E1 : lmp (lmask (period_ q1 6 false None) (cmpop_s veqb i1 c) v) = Z.max (lmp q1 + 6) (lmp i1)).
    { rewrite lmask_mp; rewrite period_mp; [|lia]. rewrite cmpop_s_mp; lia. }
    assert (E2 : lmp (ldiv (lmask (period_ q1 6 false None) (cmpop_s veqb i1 c) v) i1) =
                 Z.max (lmp q1 + 6) (lmp i1)).
    { unfold ldiv. rewrite binop_mp; rewrite E1; lia. }
    unfold lfillna, mathrad, to_radians.
    assert (E3 : forall g, lmp (mapop g (ldiv (lmask (period_ q1 6 false None) (cmpop_s veqb i1 c) v) i1)) =
                 Z.max (lmp q1 + 6) (lmp i1)).
    { intro g. rewrite mapop_mp; rewrite E2; lia. }
    rewrite rbinop_s_mp; rewrite mapop_mp; rewrite E3; lia.
  Qed.
  Lemma R_mama_phase i1 i1' q1 q1' : Rl i1 i1' -> Rl q1 q1' -> Rl (mama_phase i1 q1) (mama_phase i1' q1').
  Proof.
    intros Hi Hq. pose proof (Rl_mp1 Hi). pose proof (Rl_mp1 Hq). unfold mama_phase. cbv zeta.
    apply R_period_back; auto.
    - rewrite mama_phase_mp; lia.
    - unfold mathrad, to_radians. rl.
  Qed.
  Lemma R_mama_alpha fl sl ph ph' : Rl ph ph' -> Rl (mama_alpha fl sl ph) (mama_alpha fl sl ph').
  Proof. intro H. unfold mama_alpha. rl. Qed.
  Lemma mama_alpha_mp fl sl (ph : line) :
    (1 <= lmp ph)%Z -> lmp (mama_alpha fl sl ph) = (lmp ph + 1)%Z.
  Proof.
    intro H. unfold mama_alpha. change (-1)%Z with (- (1))%Z.
    assert (E : lmp (lsub (at_ago ph (- (1))) ph) = (lmp ph + 1)%Z).
    { unfold lsub. rewrite binop_mp; rewrite at_ago_mp; lia. }
    rewrite lclip_lo_mp; rewrite rbinop_s_mp; rewrite lclip_lo_mp; rewrite ?E; lia.
  Qed.

  Lemma R_mama fl sl i i' : Rin i i' -> Rr Rp (mama fl sl i) (mama fl sl i').
  Proof.
    intro Hi. unfold mama. cbv zeta. pose proof (R_p0 i i' Hi) as H0. pose proof (R_p0smooth H0) as Hp.
    eapply Rr_bind with (P := Forall2 Rl).
    - intros y Hy.
      destruct (R_applymulti Hnn phasorize_causal Hp
                  (Forall2_cons _ _ (R_filled Hnn v0 Hp) (Forall2_cons _ _ (R_filled Hnn v0 Hp) (Forall2_nil _))) Hy)
        as (y' & E & HR & _). eauto.
    - intros x x' Hx. apply R_two; auto. intros i1 q1 i1' q1' _ Hi1 Hq1.
      pose proof (Rl_mp1 Hi1) as M1. pose proof (Rl_mp1 Hq1) as M2. pose proof (Rl_mp1 H0) as M0.
      pose proof (R_mama_alpha fl sl (R_mama_phase Hi1 Hq1)) as Hal.
      set (al := mama_alpha fl sl (mama_phase i1 q1)) in *.
      set (al' := mama_alpha fl sl (mama_phase i1' q1')) in *.
      assert (Mal : (lmp al = Z.max (lmp q1 + 6) (lmp i1))%Z).
      { unfold al. rewrite mama_alpha_mp; unfold mama_phase; cbv zeta; rewrite period_mp, mama_phase_mp; lia. }
      eapply Rr_bind with (P := fun m m' => Rl m m' /\ lmp m = Z.max (lmp (ht_p0 i)) (lmp al)).
      + intros y Hy.
        destruct (@R_ewm_dyn V N n n' Hnn 1 al al' SEED_ZERO _ _ y Hal H0) as (y' & E & HR & Hm); auto; try lia.
        { cbn [Z.eqb]. lia. }
        exists y'. repeat split; auto; try apply HR. rewrite Hm. lia.
      + intros m m' [Hm Em].
        assert (Hal2 : Rl (binop_s vmul al (vofQ (QArith_base.Qmake 1 2))) (binop_s vmul al' (vofQ (QArith_base.Qmake 1 2)))) by rl.
        eapply Rr_bind with (P := Rl).
        * intros y Hy.
          destruct (@R_ewm_dyn V N n n' Hnn 0 _ _ SEED_ZERO _ _ y Hal2 Hm) as (y' & E & HR & _); auto; try lia.
          { cbn [Z.eqb]. rewrite binop_s_mp by lia. lia. }
          eauto.
        * intros f f' Hf. apply Rr_ok. split; cbn [fst snd]; rl.
  Qed.
End R2.
