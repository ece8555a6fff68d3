(** Minimum periods and warm-up, indicator by indicator. *)
From Coq Require Import ZArith List Bool Lia Arith.
From Coq Require QArith.
From Verif Require Import Num Series Line Spec LineFacts ScanFacts Expr CausalFacts WarmFacts
  IndMA IndBasic IndStat IndRange IndOsc IndVol Apply IndSar IndHT IndMama Catalog CatalogSpec
  CatalogR CatalogR2 CatalogW.
Import ListNotations.
Set Implicit Arguments.
Arguments skipn : simpl never.
Arguments firstn : simpl never.

(** whatever is returned satisfies [P] *)
Definition Post {A} (P : A -> Prop) (r : res A) : Prop := forall y, r = Ok y -> P y.
Lemma Post_ok {A} (P : A -> Prop) a : P a -> Post P (Ok a).
Proof. now intros H y [= <-]. Qed.
Lemma Post_raise {A} (P : A -> Prop) e : Post P (Raise e).
Proof. intros y H. discriminate. Qed.
Lemma Post_bind {A B} (P : A -> Prop) (Q : B -> Prop) r f :
  Post P r -> (forall a, P a -> Post Q (f a)) -> Post Q (bind r f).
Proof. intros Hr Hf y Hy. apply bind_ok in Hy. destruct Hy as (a & Ha & Hy). exact (Hf _ (Hr _ Ha) _ Hy). Qed.

Section W2.
  Context {V : Type} {N : Num V} {T : NumT V}.
  Hypothesis HN : nan_laws N.
  Variable n : nat.
  Notation line := (line V).
  Notation W := (@W V N n).
  Notation BW := (@BW n).

  Ltac wl1 :=
    lazymatch goal with
    | |- BW _ (cmpop _ _ _) => eapply BW_cmpop
    | |- BW _ (cmpop_s _ _ _) => eapply BW_cmpop_s
    | |- BW _ (bbinop _ _ _) => eapply BW_bbinop
    | |- W _ _ (ladd _ _) => eapply W_binop
    | |- W _ _ (lsub _ _) => eapply W_binop
    | |- W _ _ (lmul _ _) => eapply W_binop
    | |- W _ _ (ldiv _ _) => eapply W_binop
    | |- W _ _ (labs _) => eapply W_mapop
    | |- W _ _ (mapop _ _) => eapply W_mapop
    | |- W _ _ (binop_s _ _ _) => eapply W_binop_s
    | |- W _ _ (rbinop_s _ _ _) => eapply W_rbinop_s
    | |- W _ _ (pow2 _) => eapply W_pow2
    | |- W _ _ (mul_b _ _) => eapply W_mul_b
    | |- W _ _ (rmul_b _ _) => eapply W_rmul_b
    | |- W _ _ (rolling _ _ _) => eapply W_rolling1
    | |- W _ _ (rolling2 _ _ _ _) => eapply W_rolling2
    | |- W _ _ (raw (fillna0 (lser (rolling_count _ _ _)))) => eapply W_rolling_count_raw
    | |- W _ _ (ewm_mean _ _ _) => eapply W_ewm_mean1
    | |- W _ _ (stdop ser_cumsum _) => eapply W_cumsum
    | |- W _ _ (stdop ser_replace0_ffill _) => eapply W_repl0
    | |- W _ _ (shift _ 1) => eapply (@W_shift V N n 1)
    | |- W _ _ (shift _ _) => eapply W_shift
    | |- W _ _ (diff _ _) => eapply W_diff
    | |- W _ _ (pct_change _ _) => eapply W_pct
    | |- W _ _ (at_ago _ (Z.neg _)) => eapply W_at_ago1
    | |- W _ _ (at_ago _ (- _)) => eapply W_at_ago
    | |- W _ _ (filled _ _) => eapply W_filled
    | |- W _ _ (lclip_lo _ _) => eapply W_lclip_lo
    | |- W _ _ (lclip_hi _ _) => eapply W_lclip_hi
    | |- W _ _ (lclip_lo_l _ _) => eapply W_lclip_lo_l
    | |- W _ _ (lclip_hi_l _ _) => eapply W_lclip_hi_l
    | |- W _ _ (lmask _ _ _) => eapply W_lmask
    | |- W _ _ (lfillna _ _) => eapply W_lfillna
    | |- W _ _ (period_ _ (Z.pos _) false None) => eapply W_period_none
    | |- W _ _ (period_ _ (Z.pos _) false (Some vnan)) => eapply W_period_nan
    end.
  Ltac wl := repeat first [ exact HN | eassumption | wl1 | lia ].
  Ltac w1s := repeat match goal with
    | H : W ?m _ _ |- _ =>
        lazymatch goal with _ : (1 <= m)%Z |- _ => fail | _ => pose proof (W_mp1 H) end end.
  (** close [W m b term] up to arithmetic *)
  Ltac zmax := repeat match goal with
    | |- context [Z.max ?a ?b] =>
        lazymatch a with context [Z.max _ _] => fail | _ => idtac end;
        lazymatch b with context [Z.max _ _] => fail | _ => idtac end;
        destruct (Z.max_spec a b) as [[? ->]|[? ->]] end; lia.
  Ltac zl := first [lia | zmax].
  Ltac wk := w1s; eapply W_to; [wl|try zl|try (intros; reflexivity); auto].

  Definition Wma (ma : ma_fun V) (f : nat -> Z -> Z) (fl : bool) : Prop :=
    forall p l m b, 1 <= p -> W m b l -> Post (W (f p m) fl) (ma p l).
  Ltac bnd H a Ha := eapply Post_bind; [ eapply H; eauto | intros a Ha ].

  Lemma Wma_ema sd : Wma (fun p i0 => ema_full p sd 0 i0) (fun p m => m + (Z.of_nat p - 1))%Z true.
  Proof. intros p a m b Hp Ha y Hy. unfold ema_full in *. eapply W_ewm_span; eauto. Qed.
  Lemma Wma_smma sd : Wma (fun p i0 => smma_seed p sd i0) (fun p m => m + (Z.of_nat p - 1))%Z true.
  Proof. intros p a m b Hp Ha y Hy. unfold smma_seed in *. eapply W_ewm_com; eauto. Qed.
  Lemma W_sma p m b l : 1 <= p -> W m b l -> W (m + (Z.of_nat p - 1)) true (sma p l).
  Proof. intros. unfold sma. wk. Qed.

  Lemma W_gdema ma f fl p vf m b l :
    Wma ma f fl -> 1 <= p -> W m b l -> Post (W (Z.max (f p m) (f p (f p m))) true) (gdema ma p vf l).
  Proof. intros Hma Hp Hl. unfold gdema. bnd Hma x Hx. bnd Hma z Hz. apply Post_ok. wk. Qed.

  Lemma W_kama_sc p pvol fast slow m b l :
    1 <= p -> W m b l ->
    W (m + Z.max (Z.of_nat p) (Z.of_nat pvol + Z.of_nat p - 1)) true (kama_sc p pvol fast slow l).
  Proof. intros. unfold kama_sc, kama_er, sumn. cbv zeta. wk. Qed.

  Lemma W_avg a : Wma (avg_fun a) (avg_mp a) (plain_avg a).
  Proof.
    induction a; intros p l m b Hp Hl; cbn [avg_fun avg_mp plain_avg];
      unfold sma_, sma, ewma, wma, sumn, max_ind, min_ind, maxindex, minindex, var, stddev, mad,
        linearreg_slope, linearreg_angle, linearreg_intercept, linearreg, tsf, linreg_mb, mathrad,
        to_radians, midpoint, midprice, mom, roc, rocp, rocr, rocr100, rocbase;
      unfold max_ind, min_ind;
      cbn [fst snd]; cbv zeta; try (apply Post_ok; wk; fail).
    - eapply Wma_ema; eauto.
    - eapply Wma_smma; eauto.
    - unfold dema. bnd IHa x Hx. bnd IHa z Hz. apply Post_ok. wk.
    - unfold tema. bnd IHa x Hx. bnd IHa z Hz. bnd IHa w Hw. apply Post_ok. wk.
    - unfold trima. apply Post_ok. destruct (Nat.odd p) eqn:E.
      + apply Nat.odd_spec in E. destruct E as [k ->].
        replace (Nat.div (2 * k + 1 + 1) 2) with (S k) by (apply (Nat.div_unique _ 2 (S k) 0); lia).
        eapply W_to; [eapply W_sma; [lia|]; eapply W_sma; [lia|eassumption]|lia|auto].
      + assert (Ev : Nat.even p = true) by (rewrite <- Nat.negb_odd, E; reflexivity).
        apply Nat.even_spec in Ev. destruct Ev as [k ->].
        replace (Nat.div (2 * k) 2) with k by (apply (Nat.div_unique _ 2 k 0); lia).
        eapply W_to; [eapply W_sma; [lia|]; eapply W_sma; [lia|eassumption]|lia|auto].
    - unfold trix. bnd IHa x Hx. bnd IHa z Hz. bnd IHa w Hw. apply Post_ok. wk.
    - eapply W_gdema; eauto.
    - unfold t3.
      assert (E : Wma ema (fun p m => m + (Z.of_nat p - 1))%Z true)
        by (intros q b0 m0 fl Hq Hb; eapply Wma_ema; eauto).
      bnd E e1 H1. bnd E e2 H2. bnd E e3 H3. bnd E e4 H4. bnd E e5 H5. bnd E e6 H6.
      apply Post_ok. wk.
    - unfold t3_gd. eapply Post_bind; [eapply W_gdema; eauto|intros x Hx].
      eapply Post_bind; [eapply W_gdema; eauto|intros z Hz]. eapply W_gdema; eauto.
    - intros y Hy. unfold kama in *. pose proof (W_mp1 Hl).
      eapply W_to; [eapply W_ewm_dyn; [eapply W_kama_sc|..]; eauto; try lia| |auto].
      + destruct (Z.eqb_spec (Z.of_nat p) 0); lia.
      + lia.
    - intros y Hy. eapply W_to; [eapply (@W_smacc V N n p false)|..]; eauto; [discriminate|cbn; lia].
  Qed.

  Definition Wp m1 f1 m2 f2 (x : line * line) : Prop := W m1 f1 (fst x) /\ W m2 f2 (snd x).
  Definition Wt m1 f1 m2 f2 m3 f3 (x : line * line * line) : Prop :=
    Wp m1 f1 m2 f2 (fst x) /\ W m3 f3 (snd x).

  Lemma W_macd_from fast slow masig g fl ps l mf bf ms bs :
    Post (W mf bf) (fast l) -> Post (W ms bs) (slow l) -> Wma masig g fl -> 1 <= ps ->
    let d := Z.max mf ms in
    Post (Wt d true (g ps d) fl (Z.max d (g ps d)) true) (macd_from fast slow masig ps l).
  Proof.
    intros Hf Hs Hg Hp d. unfold macd_from.
    eapply Post_bind; [exact Hf|intros x Hx]. eapply Post_bind; [exact Hs|intros z Hz]. cbv zeta.
    assert (Hd : W d true (lsub x z)) by wk.
    bnd Hg s Hs'. apply Post_ok. split; [split|]; cbn [fst snd]; auto. wk.
  Qed.
  Lemma W_posc (fast : bool) ma f fl pf ps m b l :
    Wma ma f fl -> 1 <= pf -> 1 <= ps -> W m b l ->
    Post (fun x => if fast then Wp (f ps m) fl (f pf m) fl x else Wp (f pf m) fl (f ps m) fl x)
      (posc fast ma pf ps l).
  Proof.
    intros Hm Hf Hs Ha. unfold posc. bnd Hm x Hx. bnd Hm z Hz. apply Post_ok. destruct fast; split; auto.
  Qed.
  Lemma W_ppo_from fast ma masig f fl g gl pf ps psig m b l :
    Wma ma f fl -> Wma masig g gl -> 1 <= pf -> 1 <= ps -> 1 <= psig -> W m b l ->
    let d := Z.max (f pf m) (f ps m) in
    Post (Wt d true (g psig d) gl (Z.max d (g psig d)) true) (ppo_from fast ma masig pf ps psig l).
  Proof.
    intros Hm Hg Hf Hs Hp Ha d. unfold ppo_from.
    eapply Post_bind; [eapply W_posc; eauto|]. intros x Hx. cbv zeta.
    assert (Hd : W d true (rbinop_s vmul (vofZ 100) (binop_s vsub (ldiv (fst x) (snd x)) (vofZ 1)))).
    { destruct fast, Hx; wk. }
    bnd Hg s Hs'. apply Post_ok. split; [split|]; cbn [fst snd]; auto. wk.
  Qed.

  Lemma W_idiff s a b m m' f f' : W m f a -> W m' f' b -> W (Z.max m m' + 1) true (cross_idiff s a b).
  Proof. intros. unfold cross_idiff. cbv zeta. destruct s; wk. Qed.

  Lemma W_truelow lb l c ml mc bl bc :
    W ml bl l -> W mc bc c -> W (Z.max (mc + Z.of_nat lb) ml) true (truelow lb l c).
  Proof. intros. unfold truelow. wk. Qed.
  Lemma W_truerange lb h l c mh ml mc bh bl bc :
    W mh bh h -> W ml bl l -> W mc bc c -> W (tr_mp lb mh ml mc) true (truerange lb h l c).
  Proof. intros. unfold truerange, tr_mp. cbv zeta. wk. Qed.
  Lemma W_pdm1 lb h l mh ml bh bl :
    W mh bh h -> W ml bl l -> W (Z.max mh ml + Z.of_nat lb) true (pdm1 lb h l).
  Proof. intros. unfold pdm1, upmove, downmove. cbv zeta. wk. Qed.
  Lemma W_mdm1 lb h l mh ml bh bl :
    W mh bh h -> W ml bl l -> W (Z.max mh ml + Z.of_nat lb) true (mdm1 lb h l).
  Proof. intros. unfold mdm1, upmove, downmove. cbv zeta. wk. Qed.

  Definition Wsm (sm : line -> res line) (lb : nat) (f : Z -> Z) (fl : bool) : Prop :=
    forall a m b, W m b a -> (Z.of_nat lb + 1 <= m)%Z -> Post (W (f m) fl) (sm a).
  Lemma W_dm_smoother alt pe ma p lb :
    dm_ok alt pe p lb ->
    Wsm (dm_smoother alt pe (avg_fun ma) p) lb (dm_mp alt pe ma p) (if alt then plain_avg ma else true).
  Proof.
    intros [Hp Hlb] a m b Ha Hm. unfold dm_smoother, dm_mp. destruct alt; [eapply W_avg; eauto|].
    intros y Hy. eapply W_to; [eapply (@W_smacc V N n p pe)|..]; eauto.
    intros ->. specialize (Hlb eq_refl eq_refl). lia.
  Qed.

  Section DM.
    Variables (sm : line -> res line) (lb : nat) (f : Z -> Z) (fl : bool).
    Hypothesis Hsm : Wsm sm lb f fl.
    Variables (h l c : line) (mh ml mc : Z) (bh bl bc : bool).
    Hypotheses (Hh : W mh bh h) (Hl : W ml bl l) (Hc : W mc bc c).
    Let d := f (Z.max mh ml + Z.of_nat lb).
    Let r := Z.max d (f (tr_mp lb mh ml mc) + 1).

    Lemma W_plus_dm : Post (W d fl) (plus_dm sm lb h l).
    Proof. unfold plus_dm. w1s. eapply Hsm; [eapply W_pdm1; eauto|lia]. Qed.
    Lemma W_minus_dm : Post (W d fl) (minus_dm sm lb h l).
    Proof. unfold minus_dm. w1s. eapply Hsm; [eapply W_mdm1; eauto|lia]. Qed.
    Lemma W_dm : Post (Wp d fl d fl) (dm sm lb h l).
    Proof.
      unfold dm. eapply Post_bind; [apply W_plus_dm|intros x Hx].
      eapply Post_bind; [apply W_minus_dm|intros z Hz]. apply Post_ok. now split.
    Qed.
    Lemma W_di_range : Post (W (f (tr_mp lb mh ml mc) + 1) false) (di_range sm lb h l c).
    Proof.
      unfold di_range. eapply Post_bind.
      - w1s. eapply Hsm; [eapply W_truerange; eauto|unfold tr_mp; lia].
      - intros x (X1 & X2 & X3 & _). apply Post_ok. rewrite X1.
        split; [reflexivity|split; [lia|split; [auto|discriminate]]].
    Qed.
    Lemma W_di : Post (Wp r true r true) (di sm lb h l c).
    Proof.
      unfold di. eapply Post_bind; [apply W_dm|intros x [H1 H2]].
      eapply Post_bind; [apply W_di_range|intros z Hz]. apply Post_ok.
      split; cbn [fst snd]; subst r; wk.
    Qed.
    Lemma W_plus_di : Post (W r true) (plus_di sm lb h l c).
    Proof.
      unfold plus_di. eapply Post_bind; [apply W_plus_dm|intros x Hx].
      eapply Post_bind; [apply W_di_range|intros z Hz]. apply Post_ok. subst r; wk.
    Qed.
    Lemma W_minus_di : Post (W r true) (minus_di sm lb h l c).
    Proof.
      unfold minus_di. eapply Post_bind; [apply W_minus_dm|intros x Hx].
      eapply Post_bind; [apply W_di_range|intros z Hz]. apply Post_ok. subst r; wk.
    Qed.
    Lemma W_dx : Post (W r true) (dx sm lb h l c).
    Proof.
      unfold dx. eapply Post_bind with (P := Wp r true r true); [apply W_di|]. intros x [H1 H2].
      w1s. apply Post_ok. apply W_to with (m := Z.max (Z.max r r) (Z.max r r)) (b := true); [wl| |auto].
      clear -r. clearbody r. lia.
    Qed.
    Lemma W_adx ma g gl p : Wma ma g gl -> 1 <= p -> Post (W (g p r) gl) (adx ma p sm lb h l c).
    Proof. intros Hma Hp. unfold adx. eapply Post_bind; [apply W_dx|intros x Hx]. eapply Hma; eauto. Qed.
    Lemma W_adxr (talib : bool) pr ma g gl p :
      Wma ma g gl -> 1 <= p ->
      Post (W (g p r + (Z.of_nat (if Nat.eqb pr 0 then p else pr) - (if talib then 1 else 0))) true)
        (adxr talib pr ma p sm lb h l c).
    Proof.
      intros Hma Hp. unfold adxr. cbv zeta. eapply Post_bind; [eapply W_adx; eauto|intros x Hx].
      assert (0 <= Z.of_nat (if Nat.eqb pr 0 then p else pr) - (if talib then 1 else 0))%Z as Hk.
      { destruct (Nat.eqb_spec pr 0), talib; lia. }
      revert Hk Hx. generalize (Z.of_nat (if Nat.eqb pr 0 then p else pr) - (if talib then 1 else 0))%Z as k.
      generalize (g p r) as q. clear. intros q k Hk Hx. apply Post_ok.
      eapply W_to; [eapply W_binop_s, W_binop; [exact Hx|eapply W_at_ago; eauto]|lia|auto].
    Qed.
  End DM.

  Lemma W_updays lb m b l : W m b l -> W (m + Z.of_nat lb) true (updays lb l).
  Proof. intros. unfold updays. wk. Qed.
  Lemma W_downdays lb m b l : W m b l -> W (m + Z.of_nat lb) true (downdays lb l).
  Proof. intros. unfold downdays. wk. Qed.
  Lemma W_strength m b l : W m b l -> W m true (strength l).
  Proof. intros. unfold strength. wk. Qed.
  Lemma W_rsi ma f fl p lb m b l :
    Wma ma f fl -> 1 <= p -> W m b l -> Post (W (f p (m + Z.of_nat lb))%Z true) (rsi ma p lb l).
  Proof.
    intros Hma Hp Ha. unfold rsi. eapply Post_bind; [eapply Hma; [auto|eapply W_updays; eauto]|intros x Hx].
    eapply Post_bind; [eapply Hma; [auto|eapply W_downdays; eauto]|intros z Hz].
    apply Post_ok. eapply W_strength with (b := true). wk.
  Qed.
  Lemma W_stoch_k p h l c mh ml mc bh bl bc :
    1 <= p -> W mh bh h -> W ml bl l -> W mc bc c -> W (stoch_mp p mh ml mc) true (stoch_k p h l c).
  Proof. intros. unfold stoch_k, max_ind, min_ind, stoch_mp. cbv zeta. wk. Qed.
  Lemma W_stochf ma f fl p pf h l c mh ml mc bh bl bc :
    Wma ma f fl -> 1 <= p -> 1 <= pf -> W mh bh h -> W ml bl l -> W mc bc c ->
    Post (Wp (stoch_mp p mh ml mc) true (f pf (stoch_mp p mh ml mc)) fl) (stochf ma p pf h l c).
  Proof.
    intros Hma Hp Hpf Hh Hl Hc. unfold stochf. cbv zeta.
    pose proof (W_stoch_k Hp Hh Hl Hc) as Hk. bnd Hma x Hx. apply Post_ok. now split.
  Qed.
  Lemma W_stochrsi p ph scale m b l :
    1 <= p -> W m b l ->
    Post (W (m + Z.of_nat p + (Z.of_nat (if Nat.eqb ph 0 then p else ph) - 1)) true) (stochrsi p ph scale l).
  Proof.
    intros Hp Ha. unfold stochrsi. cbv zeta.
    eapply Post_bind; [eapply (@W_rsi smma _ true p 1)|]; eauto.
    - intros q b0 m0 fl Hq Hb. eapply Wma_smma; eauto.
    - intros x Hx. cbn beta in Hx. apply Post_ok. unfold max_ind, min_ind.
      assert (1 <= (if Nat.eqb ph 0 then p else ph)) as Hq by (destruct (Nat.eqb_spec ph 0); lia).
      revert Hq. generalize (if Nat.eqb ph 0 then p else ph) as q. intros q Hq. pose proof (W_mp1 Ha).
      eapply W_to; [eapply W_binop_s, W_binop; eapply W_binop;
                    first [exact Hx|eapply W_rolling1; [exact Hq|exact Hx]]|lia|auto].
  Qed.
  Lemma W_ad h l c v mh ml mc mv bh bl bc bv :
    W mh bh h -> W ml bl l -> W mc bc c -> W mv bv v ->
    W (Z.max (Z.max (Z.max mh ml) mc) mv) true (ad h l c v).
  Proof. intros. unfold ad. cbv zeta. wk. Qed.
  Lemma W_obv (talib : bool) period c v mc mv bc bv :
    (talib = true -> 1 <= period) -> W mc bc c -> W mv bv v ->
    W (Z.max mv (mc + Z.of_nat period - (if talib then 1 else 0))) true (obv talib period c v).
  Proof.
    intros Hp Hc Hv. unfold obv. cbv zeta. destruct talib; [|wk].
    specialize (Hp eq_refl). w1s.
    assert (W (mc + Z.of_nat period - 1) true (period_ (diff c (Z.of_nat period)) (-1) false (Some v1))).
    { eapply W_period_back; [lia|wl]. }
    wk.
  Qed.

  (** parabolic SAR: the first calculated value is missing *)
  Lemma W_sar_gen F h l mh ml bh bl :
    Flen F -> (forall s ss r, F s ss = Ok r -> nth_error r 0 = Some vnan) -> W mh bh h -> W ml bl l ->
    Post (W (Z.max mh ml + 1) true) (s <- apply_ F h [l] ;; Ok (period_ s 1 false None)).
  Proof.
    intros HF H0 Hh Hl. w1s.
    assert (Hm : max_mp h [l] = Z.max mh ml).
    { unfold max_mp. cbn [fold_left]. now rewrite (W_mp Hh), (W_mp Hl). }
    eapply Post_bind with
      (P := fun y => W (Z.max mh ml) true y /\ nth_error (lser y) (Z.to_nat (Z.max mh ml - 1)) = Some vnan \/
                     W (Z.max mh ml) true y /\ n <= Z.to_nat (Z.max mh ml - 1)).
    - intros y Hy. destruct (@W_apply V N n F h [l] y (Z.max mh ml)) as (HW & r & Hr & Es); auto; try lia.
      { apply Hh. } { constructor; auto. apply Hl. }
      set (k := Z.to_nat (Z.max mh ml - 1)) in *.
      destruct (Nat.lt_ge_cases k n) as [Hk|Hk]; [left|right]; split; auto.
      rewrite Es, nth_plc by auto. destruct (Nat.ltb_spec k k); [lia|].
      replace (k - Nat.min k n) with 0 by lia. eauto.
    - intros y Hy. apply Post_ok. unfold period_. cbn [Z.sub Z.add Z.opp Z.eqb].
      destruct Hy as [[HW Hn]|[HW Hn]]; pose proof HW as (X1 & X2 & X3 & X4);
        (split; [cbn [lmp]; lia|split; [lia|split; [auto|]]]); cbn [lser]; intros _ i Hi Hin.
      + destruct (Z.eq_dec (Z.of_nat i) (Z.max mh ml - 1)).
        * replace i with (Z.to_nat (Z.max mh ml - 1)) by lia. auto.
        * apply X4; auto. lia.
      + apply X4; auto. lia.
  Qed.
  Lemma sar_loop_length AF AX st h l : length h = length l -> length (sar_loop AF AX st h l) = length h.
  Proof. intro H. apply (@sar_loop_ext V N AF AX st h l [] []); auto. Qed.
  Lemma sarx_loop_length P st h l : length h = length l -> length (sarx_loop P st h l) = length h.
  Proof. intro H. apply (@sarx_loop_ext V N P st h l [] []); auto. Qed.
  Lemma W_sar af ax h l mh ml bh bl :
    W mh bh h -> W ml bl l -> Post (W (Z.max mh ml + 1) true) (sar af ax h l).
  Proof.
    apply W_sar_gen.
    - intros s ss r Hss Hr. destruct ss as [|l0 ss]; [discriminate|]. inversion Hss; subst.
      destruct s as [|h1 [|h2 s]]; [discriminate|destruct l0; discriminate|].
      destruct l0 as [|l1 [|l2 l0]]; try discriminate. cbn [sarize tl] in Hr.
      destruct (if start_trend h1 l1 h2 l2 then (h2, l1) else (l2, h1)) as [ep sr].
      injection Hr as <-. 
      pose proof (@sar_loop_length af ax (mkSar (start_trend h1 l1 h2 l2) ep sr af h2 l2) (h2 :: s) (l2 :: l0)) as E.
      simpl in *. lia.
    - intros s ss r Hr. destruct ss as [|l0 ss]; [discriminate|].
      destruct s as [|h1 [|h2 s]]; [discriminate|destruct l0; discriminate|].
      destruct l0 as [|l1 [|l2 l0]]; try discriminate. cbn [sarize tl] in Hr.
      destruct (if start_trend h1 l1 h2 l2 then (h2, l1) else (l2, h1)) as [ep sr].
      injection Hr as <-. reflexivity.
  Qed.
  Lemma W_sarext sv P h l mh ml bh bl :
    W mh bh h -> W ml bl l -> Post (W (Z.max mh ml + 1) true) (sarext sv P h l).
  Proof.
    apply W_sar_gen.
    - intros s ss r Hss Hr. destruct ss as [|l0 ss]; [discriminate|]. inversion Hss; subst.
      destruct s as [|h1 [|h2 s]]; [discriminate|destruct l0; discriminate|].
      destruct l0 as [|l1 [|l2 l0]]; try discriminate. cbn [sarxize tl] in Hr.
      match type of Hr with (let '(_, _) := ?e in _) = _ => destruct e as [[tr ep] sr] end.
      injection Hr as <-. 
      pose proof (@sarx_loop_length P (mkSarx tr ep sr (AFL P) (AFS P) h2 l2) (h2 :: s) (l2 :: l0)) as E.
      simpl in *. lia.
    - intros s ss r Hr. destruct ss as [|l0 ss]; [discriminate|].
      destruct s as [|h1 [|h2 s]]; [discriminate|destruct l0; discriminate|].
      destruct l0 as [|l1 [|l2 l0]]; try discriminate. cbn [sarxize tl] in Hr.
      match type of Hr with (let '(_, _) := ?e in _) = _ => destruct e as [[tr ep] sr] end.
      injection Hr as <-. reflexivity.
  Qed.

  (** Hilbert transform *)
  Definition Win (i : ht_in V) (m : Z) : Prop :=
    match i with
    | HLine a => exists b, W m b a
    | HHighLow h l => exists mh ml bh bl, W mh bh h /\ W ml bl l /\ m = Z.max mh ml
    end.
  Lemma W_p0 i m : Win i m -> exists b, W m b (ht_p0 i).
  Proof.
    destruct i; cbn [Win ht_p0]; auto. intros (mh & ml & bh & bl & H1 & H2 & ->). exists true. wk.
  Qed.
  Lemma W_p0smooth m b a : W m b a -> W (m + 6) false (ht_p0smooth a).
  Proof. intro H. unfold ht_p0smooth. wk. Qed.
  Lemma Flen_of G : causal G -> Flen (fun s (_ : list (list V)) => Ok (G s)).
  Proof. intros [H1 _] s ss r _ [= <-]. apply H1. Qed.
  Lemma max_mp_1 (a : line) c : max_mp a [filled a c] = lmp a.
  Proof. unfold max_mp, filled. cbn [fold_left lmp]. apply Z.max_id. Qed.
  Lemma max_mp_2 (a : line) c d : max_mp a [filled a c; filled a d] = lmp a.
  Proof. unfold max_mp, filled. cbn [fold_left lmp]. now rewrite !Z.max_id. Qed.

  Lemma len_filled (a : line) c : length (lser a) = n -> length (lser (filled a c)) = n.
  Proof. intro H. unfold filled, bars. cbn [lser]. now rewrite repeat_length. Qed.

  Lemma W_ht_apply F i m k (args : list line) :
    Flen F -> Win i m -> (0 <= k)%Z ->
    (forall b, W m b (ht_p0 i) -> W (m + 6) b (ht_p0smooth (ht_p0 i)) ->
       Forall (fun l : line => length (lser l) = n) args /\
       max_mp (ht_p0smooth (ht_p0 i)) args = (m + 6)%Z) ->
    Post (W (m + 6 + k) true)
      (d <- apply_ F (ht_p0smooth (ht_p0 i)) args ;; Ok (period_ d k false (Some vnan))).
  Proof.
    intros HF Hi Hk Ha. destruct (W_p0 i m Hi) as [b H0]. pose proof (W_p0smooth H0) as Hp. w1s.
    eapply Post_bind with (P := W (m + 6) true).
    - intros y Hy.
      assert (H0' : W m false (ht_p0 i)) by (eapply W_to; [exact H0|auto|discriminate]).
      destruct (Ha _ H0' Hp) as [A1 A2].
      destruct (@W_apply V N n F _ _ y (m + 6)%Z HF (proj1 (proj2 (proj2 Hp))) A1 A2) as [HW _]; auto; lia.
    - intros y Hy. apply Post_ok. eapply W_period_nan; eauto.
  Qed.
  Lemma args1 i m c a :
    forall b, W m b (ht_p0 i) -> W (m + 6) b a ->
      Forall (fun l : line => length (lser l) = n) [filled a c] /\ max_mp a [filled a c] = (m + 6)%Z.
  Proof.
    intros b _ (A1 & A2 & A3 & _). split; [constructor; auto using len_filled|].
    rewrite <- A1. apply max_mp_1.
  Qed.
  Lemma args2 i m c a :
    forall b, W m b (ht_p0 i) -> W (m + 6) b a ->
      Forall (fun l : line => length (lser l) = n) [ht_p0 i; filled a c] /\
      max_mp a [ht_p0 i; filled a c] = (m + 6)%Z.
  Proof.
    intros b (B1 & B2 & B3 & _) (A1 & A2 & A3 & _). split; [repeat constructor; auto using len_filled|].
    unfold max_mp, filled. cbn [fold_left lmp]. lia.
  Qed.
  Lemma W_dcperiod i m : Win i m -> Post (W (m + 32) true) (ht_dcperiod i).
  Proof.
    intro Hi. unfold ht_dcperiod. cbv zeta. replace (m + 32)%Z with (m + 6 + 26)%Z by lia.
    eapply W_ht_apply; [|exact Hi|lia|apply args1].
    apply Flen_of, (causal_dcperiodize (le_n n)).
  Qed.
  Lemma W_multi2 F i m :
    FlenM F -> Win i m ->
    Post (Forall (W (m + 6) true))
      (applymulti_ F (ht_p0smooth (ht_p0 i))
         [filled (ht_p0smooth (ht_p0 i)) v0; filled (ht_p0smooth (ht_p0 i)) v0]).
  Proof.
    intros HF Hi. destruct (W_p0 i m Hi) as [b H0]. pose proof (W_p0smooth H0) as Hp. w1s.
    intros y Hy. eapply (@W_applymulti V N n F); [exact HF|apply Hp| |lia|exact Hy].
    rewrite max_mp_2. apply Hp.
  Qed.
  Lemma Post_two {B} (y : list line) (G : line -> line -> res B) (P : line -> Prop) (Q : B -> Prop) e :
    Forall P y -> (forall a b, P a -> P b -> Post Q (G a b)) ->
    Post Q (match y with [a; b] => G a b | _ => Raise e end).
  Proof.
    intros H HG. destruct H as [|a y Ha [|b z Hb [|]]]; try apply Post_raise. now apply HG.
  Qed.
  Lemma phasorize_len : FlenM (fun price (_ : list (list V)) => Ok (phasorize price)).
  Proof.
    intros s ss r [= <-]. unfold phasorize. cbv zeta.
    repeat constructor; [destruct (causal_phasor (V:=V) (le_n n) fst) as [A _]|destruct (causal_phasor (V:=V) (le_n n) snd) as [A _]]; apply A.
  Qed.
  Lemma W_phasor i m : Win i m -> Post (Wp (m + 32) true (m + 32) true) (ht_phasor i).
  Proof.
    intro Hi. unfold ht_phasor. cbv zeta. eapply Post_bind; [eapply W_multi2; eauto; apply phasorize_len|].
    intros y Hy. eapply Post_two; eauto. intros a b Ha Hb. apply Post_ok.
    split; cbn [fst snd]; wk.
  Qed.
  Lemma W_mama fl sl i m : Win i m -> Post (Wp (m + 32) true (m + 32) true) (mama fl sl i).
  Proof.
    intro Hi. unfold mama. cbv zeta. destruct (W_p0 i m Hi) as [b0 H0].
    eapply Post_bind; [eapply W_multi2; eauto; apply phasorize_len|].
    intros y Hy. eapply Post_two; eauto. intros i1 q1 H1 H2. w1s.
    assert (Hph : W (m + 11) true (mama_phase i1 q1)).
    { unfold mama_phase, mathrad, to_radians. cbv zeta.
      match goal with |- W _ _ (period_ ?l _ _ _) => assert (HP : W (m + 12) true l) by wk end.
      replace (m + 11)%Z with (m + 12 - 1)%Z by lia. apply W_period_back; auto. lia. }
    assert (Hal : W (m + 12) true (mama_alpha fl sl (mama_phase i1 q1))).
    { unfold mama_alpha. cbv zeta. wk. }
    eapply Post_bind with (P := W (m + 12) true).
    { intros r Hr. eapply W_to; [eapply W_ewm_dyn; [exact Hal|exact H0|..]; eauto; cbn; lia|lia|auto]. }
    intros mm Hm. eapply Post_bind with (P := W (m + 12) true).
    { intros r Hr. eapply W_to; [eapply W_ewm_dyn; [eapply W_binop_s; exact Hal|exact Hm|..]; eauto; cbn; lia|lia|auto]. }
    intros f Hf. apply Post_ok. split; cbn [fst snd]; wk.
  Qed.

  (** the indicators that index with the measured cycle *)
  Lemma phase_loop_length price i st ph rest r : phase_loop price i st ph rest = Ok r -> length r = length rest.
  Proof.
    revert i st ph r; induction rest as [|p rest IH]; intros i st ph r Hr; cbn [phase_loop] in Hr.
    - now injection Hr as <-.
    - apply bind_ok in Hr. destruct Hr as (x & _ & Hr). apply bind_ok in Hr. destruct Hr as (r1 & Hr1 & Hr).
      injection Hr as <-. simpl. f_equal. eauto.
  Qed.
  Lemma trend_loop_length price i st a b c rest r : trend_loop price i st a b c rest = Ok r -> length r = length rest.
  Proof.
    revert i st a b c r; induction rest as [|p rest IH]; intros i st a b c r Hr; cbn [trend_loop] in Hr.
    - now injection Hr as <-.
    - apply bind_ok in Hr. destruct Hr as (x & _ & Hr). cbv zeta in Hr.
      apply bind_ok in Hr. destruct Hr as (r1 & Hr1 & Hr).
      injection Hr as <-. simpl. f_equal. eauto.
  Qed.
  Lemma tm_loop_length price price0 i st s rest r : tm_loop price price0 i st s rest = Ok r -> length r = length rest.
  Proof.
    revert i st s r; induction rest as [|p rest IH]; intros i st s r Hr; cbn [tm_loop] in Hr.
    - now injection Hr as <-.
    - apply bind_ok in Hr. destruct Hr as (x & _ & Hr). apply bind_ok in Hr. destruct Hr as (r1 & Hr1 & Hr).
      injection Hr as <-. simpl. f_equal. eauto.
  Qed.
  Lemma buffered_length k (s r : list V) : length r = length s - k -> length (buffered k s r) = length s.
  Proof. intro H. unfold buffered. rewrite app_length, repeat_length. lia. Qed.

  Lemma dcphasize_len s r : dcphasize s = Ok r -> length r = length s.
  Proof.
    unfold dcphasize. intro Hr. apply bind_ok in Hr. destruct Hr as (x & Hx & Hr).
    apply (f_equal (fun o => match o with Ok y => length y | Raise _ => 0 end)) in Hr. rewrite <- Hr.
    apply buffered_length. apply phase_loop_length in Hx. now rewrite Hx, skipn_length.
  Qed.
  Lemma trendlinize_len s s0 r : trendlinize s s0 = Ok r -> length r = length s.
  Proof.
    unfold trendlinize. intro Hr. apply bind_ok in Hr. destruct Hr as (x & Hx & Hr).
    apply (f_equal (fun o => match o with Ok y => length y | Raise _ => 0 end)) in Hr. rewrite <- Hr.
    apply buffered_length. apply trend_loop_length in Hx. now rewrite Hx, skipn_length.
  Qed.
  Lemma trendmodize_len s s0 r : trendmodize s s0 = Ok r -> length r = length s.
  Proof.
    unfold trendmodize. intro Hr. apply bind_ok in Hr. destruct Hr as (x & Hx & Hr).
    apply (f_equal (fun o => match o with Ok y => length y | Raise _ => 0 end)) in Hr. rewrite <- Hr.
    apply buffered_length. apply tm_loop_length in Hx. now rewrite Hx, skipn_length.
  Qed.

  (* the analysis of implicit arguments would evaluate the statements *)
  Unset Implicit Arguments.
  Lemma W_dcphase i m : Win i m -> Post (W (m + 63) true) (ht_dcphase i).
  Proof.
    intro Hi. unfold ht_dcphase. cbv zeta. replace (m + 63)%Z with (m + 6 + 57)%Z by lia.
    eapply W_ht_apply; [|exact Hi|lia|apply args1].
    intros s ss r _ Hr. exact (dcphasize_len _ Hr).
  Qed.
  Lemma W_trendline i m : Win i m -> Post (W (m + 63) true) (ht_trendline i).
  Proof.
    intro Hi. unfold ht_trendline. cbv zeta. replace (m + 63)%Z with (m + 6 + 57)%Z by lia.
    eapply W_ht_apply; [|exact Hi|lia|apply args2].
    intros s [|s0 ss] r _ Hr; [discriminate|]. exact (trendlinize_len _ _ Hr).
  Qed.
  Lemma W_trendmode i m : Win i m -> Post (W (m + 63) true) (ht_trendmode i).
  Proof.
    intro Hi. unfold ht_trendmode. cbv zeta. replace (m + 63)%Z with (m + 6 + 57)%Z by lia.
    eapply W_ht_apply; [|exact Hi|lia|apply args2].
    intros s [|s0 ss] r _ Hr; [discriminate|]. exact (trendmodize_len _ _ Hr).
  Qed.
  Lemma W_sine i m : Win i m -> Post (Wp (m + 63) true (m + 63) true) (ht_sine i).
  Proof.
    intro Hi. unfold ht_sine. cbv zeta. eapply Post_bind; [eapply W_multi2; eauto|].
    - intros s ss r Hr. unfold sinize in Hr. apply bind_ok in Hr. destruct Hr as (x & Hx & Hr).
      injection Hr as <-. apply phase_loop_length in Hx.
      repeat constructor; apply buffered_length; now rewrite map_length, Hx, skipn_length.
    - intros y Hy. eapply Post_two; eauto. intros a b Ha Hb. apply Post_ok.
      split; cbn [fst snd]; wk.
  Qed.
  Set Implicit Arguments.
End W2.
