(** Dropping old history, indicator by indicator. *)
From Coq Require Import ZArith List Bool Lia Arith.
From Verif Require Import Num Series Line Spec LineFacts ScanFacts Expr CausalFacts WarmFacts
  IndMA IndBasic IndStat IndRange IndOsc IndVol Apply IndSar IndHT IndMama Catalog CatalogSpec
  LocalSpec LocalFacts.
Import ListNotations.
Set Implicit Arguments.
Arguments skipn : simpl never.
Arguments firstn : simpl never.

Notation So := same_outcome (only parsing).
Lemma So_ok {A A'} (P : A -> A' -> Prop) a a' : P a a' -> So P (Ok a) (Ok a').
Proof. auto. Qed.
Lemma So_raise {A A'} (P : A -> A' -> Prop) e : So P (Raise e) (Raise e).
Proof. reflexivity. Qed.
Lemma So_bind {A A' B B'} (P : A -> A' -> Prop) (Q : B -> B' -> Prop) r r' f f' :
  So P r r' -> (forall a a', P a a' -> So Q (f a) (f' a')) -> So Q (bind r f) (bind r' f').
Proof. destruct r, r'; simpl; intros H Hf; try contradiction; auto. Qed.

Section R2.
  Context {V : Type} {N : Num V} {T : NumT V}.
  Variables k n : nat.
  Notation line := (line V).
  Notation Dl := (@Dl V k n).
  Notation BDl := (@BDl k n).

  Lemma Dl_mp l l' : Dl l l' -> lmp l' = lmp l. Proof. now intros (_ & H & _). Qed.

  Definition Dma (ma : ma_fun V) : Prop :=
    forall p a a', 1 <= p -> Dl a a' -> So Dl (ma p a) (ma p a').
  Definition Dp (x x' : line * line) : Prop := Dl (fst x) (fst x') /\ Dl (snd x) (snd x').
  Definition Dt (x x' : line * line * line) : Prop := Dp (fst x) (fst x') /\ Dl (snd x) (snd x').

  Ltac rl1 :=
    lazymatch goal with
    | |- BDl (cmpop _ _ _) _ => apply BD_cmpop
    | |- BDl (cmpop_s _ _ _) _ => apply BD_cmpop_s
    | |- BDl (bbinop _ _ _) _ => apply BD_bbinop
    | |- Dl (ladd _ _) _ => apply D_binop
    | |- Dl (lsub _ _) _ => apply D_binop
    | |- Dl (lmul _ _) _ => apply D_binop
    | |- Dl (ldiv _ _) _ => apply D_binop
    | |- Dl (labs _) _ => apply D_mapop
    | |- Dl (mapop _ _) _ => apply D_mapop
    | |- Dl (binop_s _ _ _) _ => apply D_binop_s
    | |- Dl (rbinop_s _ _ _) _ => apply D_rbinop_s
    | |- Dl (pow2 _) _ => apply D_pow2
    | |- Dl (mul_b _ _) _ => apply D_mul_b
    | |- Dl (rmul_b _ _) _ => apply D_rmul_b
    | |- Dl (rolling _ _ _) _ => apply D_rolling
    | |- Dl (shift _ 1) _ => apply (@D_shift V N k n 1)
    | |- Dl (shift _ _) _ => apply D_shift
    | |- Dl (diff _ _) _ => apply D_diff
    | |- Dl (at_ago _ (Z.neg _)) _ => apply D_at_ago1
    | |- Dl (at_ago _ (- _)) _ => apply D_at_ago
    | |- Dl (filled _ _) _ => apply D_filled
    | |- Dl (lclip_lo _ _) _ => apply D_lclip_lo
    | |- Dl (lclip_hi _ _) _ => apply D_lclip_hi
    | |- Dl (lclip_lo_l _ _) _ => apply D_lclip_lo_l
    | |- Dl (lclip_hi_l _ _) _ => apply D_lclip_hi_l
    end.
  Ltac rl := repeat first [ assumption | rl1 | lia ].
  Ltac okr := first [ apply So_ok | apply So_raise ].
  Ltac bnd H a a' Ha := eapply So_bind; [ apply H; rl | intros a a' Ha ].

  (** ** Averages *)
  Lemma D_sma p a a' : 1 <= p -> Dl a a' -> Dl (sma p a) (sma p a').
  Proof. intros. unfold sma. rl. Qed.

  Lemma D_gdema ma p vf a a' : Dma ma -> 1 <= p -> Dl a a' -> So Dl (gdema ma p vf a) (gdema ma p vf a').
  Proof.
    intros Hma Hp Ha. unfold gdema. bnd Hma x x' Hx. bnd Hma z z' Hz. apply So_ok. rl.
  Qed.

  Lemma D_avg a : windowed_avg a = true -> Dma (avg_fun a).
  Proof.
    induction a; cbn [windowed_avg]; intros Hw; try discriminate; try specialize (IHa Hw);
      intros p l l' Hp Hl; cbn [avg_fun];
      unfold sma_, sma, ewma, wma, sumn, max_ind, min_ind, maxindex, minindex, var, stddev, mad,
        linearreg_slope, linearreg_angle, linearreg_intercept, linearreg, tsf, linreg_mb, mathrad,
        to_radians, midpoint, midprice, max_ind, min_ind, mom, roc, rocp, rocr, rocr100, rocbase;
      cbn [fst snd]; cbv zeta; try (apply So_ok; rl; fail).
    - unfold dema. bnd IHa x x' Hx. bnd IHa z z' Hz. apply So_ok. rl.
    - unfold tema. bnd IHa x x' Hx. bnd IHa z z' Hz. bnd IHa u u' Hu. apply So_ok. rl.
    - unfold trima. apply So_ok. destruct (Nat.odd p) eqn:E.
      + assert (1 <= Nat.div (p + 1) 2) by (apply (Nat.div_le_lower_bound (p+1) 2 1); lia).
        apply D_sma; auto. now apply D_sma.
      + assert (p <> 1) by (intros ->; discriminate).
        assert (1 <= Nat.div p 2) by (apply (Nat.div_le_lower_bound p 2 1); lia).
        apply D_sma; [lia|]. now apply D_sma.
    - unfold trix. bnd IHa x x' Hx. bnd IHa z z' Hz. bnd IHa u u' Hu. apply So_ok. rl.
    - now apply D_gdema.
    - unfold t3_gd. eapply So_bind; [apply D_gdema; eauto|intros x x' Hx].
      eapply So_bind; [apply D_gdema; eauto|intros z z' Hz]. now apply D_gdema.
  Qed.

  (** ** Everything built from operators and averages *)
  Lemma D_macd_from fast slow masig ps a a' :
    (forall b b', Dl b b' -> So Dl (fast b) (fast b')) -> (forall b b', Dl b b' -> So Dl (slow b) (slow b')) ->
    Dma masig -> 1 <= ps -> Dl a a' ->
    So Dt (macd_from fast slow masig ps a) (macd_from fast slow masig ps a').
  Proof.
    intros Hf Hs Hm Hp Ha. unfold macd_from. bnd Hf x x' Hx. bnd Hs z z' Hz. cbv zeta.
    bnd Hm s s' Hss. apply So_ok. split; [split|]; cbn [fst snd]; rl.
  Qed.

  Lemma D_posc fast ma pf ps a a' :
    Dma ma -> 1 <= pf -> 1 <= ps -> Dl a a' -> So Dp (posc fast ma pf ps a) (posc fast ma pf ps a').
  Proof.
    intros Hm Hf Hs Ha. unfold posc. bnd Hm x x' Hx. bnd Hm z z' Hz. apply So_ok.
    destruct fast; split; auto.
  Qed.

  Lemma D_ppo_from fast ma masig pf ps psig a a' :
    Dma ma -> Dma masig -> 1 <= pf -> 1 <= ps -> 1 <= psig -> Dl a a' ->
    So Dt (ppo_from fast ma masig pf ps psig a) (ppo_from fast ma masig pf ps psig a').
  Proof.
    intros Hm Hg Hf Hs Hp Ha. unfold ppo_from.
    eapply So_bind; [apply D_posc; auto|intros m m' [H1 H2]]. cbv zeta.
    bnd Hg s s' Hss. apply So_ok. split; [split|]; cbn [fst snd]; rl.
  Qed.

  Lemma D_idiff a a' b b' : Dl a a' -> Dl b b' -> Dl (cross_idiff true a b) (cross_idiff true a' b').
  Proof. intros. unfold cross_idiff. rl. Qed.

  Lemma D_truelow lb l l' c c' : Dl l l' -> Dl c c' -> Dl (truelow lb l c) (truelow lb l' c').
  Proof. intros. unfold truelow. rl. Qed.
  Lemma D_truerange lb h h' l l' c c' :
    Dl h h' -> Dl l l' -> Dl c c' -> Dl (truerange lb h l c) (truerange lb h' l' c').
  Proof. intros. unfold truerange. rl. Qed.
  Lemma D_pdm1 lb h h' l l' : Dl h h' -> Dl l l' -> Dl (pdm1 lb h l) (pdm1 lb h' l').
  Proof. intros. unfold pdm1, upmove, downmove. rl. Qed.
  Lemma D_mdm1 lb h h' l l' : Dl h h' -> Dl l l' -> Dl (mdm1 lb h l) (mdm1 lb h' l').
  Proof. intros. unfold mdm1, upmove, downmove. rl. Qed.

  Definition Dsm (sm : line -> res line) : Prop :=
    forall a a', Dl a a' -> So Dl (sm a) (sm a').
  Lemma D_dm_smoother pe ma p : Dma ma -> 1 <= p -> Dsm (dm_smoother true pe ma p).
  Proof. intros Hma Hp a a' Ha. unfold dm_smoother. now apply Hma. Qed.

  Section DM.
    Variables (sm : line -> res line) (lb : nat).
    Hypothesis Hsm : Dsm sm.
    Variables h h' l l' c c' : line.
    Hypotheses (Hh : Dl h h') (Hl : Dl l l') (Hc : Dl c c').

    Lemma D_plus_dm : So Dl (plus_dm sm lb h l) (plus_dm sm lb h' l').
    Proof.
      unfold plus_dm. apply Hsm. now apply D_pdm1.
    Qed.
    Lemma D_minus_dm : So Dl (minus_dm sm lb h l) (minus_dm sm lb h' l').
    Proof.
      unfold minus_dm. apply Hsm. now apply D_mdm1.
    Qed.
    Lemma D_dm : So Dp (dm sm lb h l) (dm sm lb h' l').
    Proof.
      unfold dm. eapply So_bind; [apply D_plus_dm|intros x x' Hx].
      eapply So_bind; [apply D_minus_dm|intros z z' Hz]. apply So_ok. now split.
    Qed.
    Lemma D_di_range : So Dl (di_range sm lb h l c) (di_range sm lb h' l' c').
    Proof.
      unfold di_range. eapply So_bind.
      - apply Hsm. now apply D_truerange.
      - intros x x' Hx. apply So_ok. rewrite (Dl_mp Hx). apply D_mp; auto. lia.
    Qed.
    Lemma D_di : So Dp (di sm lb h l c) (di sm lb h' l' c').
    Proof.
      unfold di. eapply So_bind; [apply D_dm|intros x x' [H1 H2]].
      eapply So_bind; [apply D_di_range|intros z z' Hz]. apply So_ok. split; cbn [fst snd]; rl.
    Qed.
    Lemma D_plus_di : So Dl (plus_di sm lb h l c) (plus_di sm lb h' l' c').
    Proof.
      unfold plus_di. eapply So_bind; [apply D_plus_dm|intros x x' Hx].
      eapply So_bind; [apply D_di_range|intros z z' Hz]. apply So_ok. rl.
    Qed.
    Lemma D_minus_di : So Dl (minus_di sm lb h l c) (minus_di sm lb h' l' c').
    Proof.
      unfold minus_di. eapply So_bind; [apply D_minus_dm|intros x x' Hx].
      eapply So_bind; [apply D_di_range|intros z z' Hz]. apply So_ok. rl.
    Qed.
    Lemma D_dx : So Dl (dx sm lb h l c) (dx sm lb h' l' c').
    Proof.
      unfold dx. eapply So_bind; [apply D_di|intros x x' [H1 H2]]. apply So_ok. rl.
    Qed.
    Lemma D_adx ma p : Dma ma -> 1 <= p -> So Dl (adx ma p sm lb h l c) (adx ma p sm lb h' l' c').
    Proof.
      intros Hma Hp. unfold adx. eapply So_bind; [apply D_dx|intros x x' Hx]. now apply Hma.
    Qed.
    Lemma D_adxr talib pr ma p :
      Dma ma -> 1 <= p -> So Dl (adxr talib pr ma p sm lb h l c) (adxr talib pr ma p sm lb h' l' c').
    Proof.
      intros Hma Hp. unfold adxr. cbv zeta. eapply So_bind; [now apply D_adx|intros x x' Hx].
      apply So_ok. rl. destruct (Nat.eqb_spec pr 0), talib; lia.
    Qed.
  End DM.

  Lemma D_updays lb a a' : Dl a a' -> Dl (updays lb a) (updays lb a').
  Proof. intros. unfold updays. rl. Qed.
  Lemma D_downdays lb a a' : Dl a a' -> Dl (downdays lb a) (downdays lb a').
  Proof. intros. unfold downdays. rl. Qed.
  Lemma D_strength a a' : Dl a a' -> Dl (strength a) (strength a').
  Proof. intros. unfold strength. rl. Qed.
  Lemma D_rsi ma p lb a a' : Dma ma -> 1 <= p -> Dl a a' -> So Dl (rsi ma p lb a) (rsi ma p lb a').
  Proof.
    intros Hma Hp Ha. unfold rsi. eapply So_bind; [apply Hma; auto; now apply D_updays|intros x x' Hx].
    eapply So_bind; [apply Hma; auto; now apply D_downdays|intros z z' Hz].
    apply So_ok. apply D_strength. rl.
  Qed.
  Lemma D_stoch_k p h h' l l' c c' :
    1 <= p -> Dl h h' -> Dl l l' -> Dl c c' -> Dl (stoch_k p h l c) (stoch_k p h' l' c').
  Proof. intros. unfold stoch_k, max_ind, min_ind. rl. Qed.
  Lemma D_stochf ma p pf h h' l l' c c' :
    Dma ma -> 1 <= p -> 1 <= pf -> Dl h h' -> Dl l l' -> Dl c c' ->
    So Dp (stochf ma p pf h l c) (stochf ma p pf h' l' c').
  Proof.
    intros Hma Hp Hpf Hh Hl Hc. unfold stochf. cbv zeta.
    eapply So_bind; [apply Hma; auto; now apply D_stoch_k|intros x x' Hx].
    apply So_ok. split; cbn [fst snd]; auto. now apply D_stoch_k.
  Qed.

  Notation Dls := (Forall2 Dl).
  Lemma So_in1 (f f' : line -> res (list line)) ins ins' :
    Dls ins ins' -> (forall a a', Dl a a' -> So Dls (f a) (f' a')) -> So Dls (in1 ins f) (in1 ins' f').
  Proof.
    intros H Hf. destruct H as [|a a' ? ? Ha [|]]; try apply So_raise. now apply Hf.
  Qed.
  Lemma So_in2 (f f' : line -> line -> res (list line)) ins ins' :
    Dls ins ins' -> (forall a a' b b', Dl a a' -> Dl b b' -> So Dls (f a b) (f' a' b')) ->
    So Dls (in2 ins f) (in2 ins' f').
  Proof.
    intros H Hf. destruct H as [|a a' ? ? Ha [|b b' ? ? Hb [|]]]; try apply So_raise. now apply Hf.
  Qed.
  Lemma So_in3 (f f' : line -> line -> line -> res (list line)) ins ins' :
    Dls ins ins' ->
    (forall a a' b b' c c', Dl a a' -> Dl b b' -> Dl c c' -> So Dls (f a b c) (f' a' b' c')) ->
    So Dls (in3 ins f) (in3 ins' f').
  Proof.
    intros H Hf. destruct H as [|a a' ? ? Ha [|b b' ? ? Hb [|c c' ? ? Hc [|]]]]; try apply So_raise. now apply Hf.
  Qed.
  Lemma So_in4 (f f' : line -> line -> line -> line -> res (list line)) ins ins' :
    Dls ins ins' ->
    (forall a a' b b' c c' d d', Dl a a' -> Dl b b' -> Dl c c' -> Dl d d' ->
       So Dls (f a b c d) (f' a' b' c' d')) ->
    So Dls (in4 ins f) (in4 ins' f').
  Proof.
    intros H Hf. destruct H as [|a a' ? ? Ha [|b b' ? ? Hb [|c c' ? ? Hc [|d d' ? ? Hd [|]]]]]; try apply So_raise.
    now apply Hf.
  Qed.
  Lemma So_o1 r r' : So Dl r r' -> So Dls (o1 r) (o1 r').
  Proof. intro H. eapply So_bind; [exact H|]. intros a a' Ha. apply So_ok. auto. Qed.
  Lemma So_o2 r r' : So Dp r r' -> So Dls (o2 r) (o2 r').
  Proof. intro H. eapply So_bind; [exact H|]. intros a a' [H1 H2]. apply So_ok. auto. Qed.
  Lemma So_o3 r r' : So Dt r r' -> So Dls (o3 r) (o3 r').
  Proof. intro H. eapply So_bind; [exact H|]. intros a a' [[H1 H2] H3]. apply So_ok. auto. Qed.
  Lemma So_one a a' : Dl a a' -> So Dls (Ok [a]) (Ok [a']).
  Proof. intro. apply So_ok. auto. Qed.

  Ltac rl2 :=
    lazymatch goal with
    | |- Dl (cross_idiff _ _ _) _ => apply D_idiff
    | |- Dl (strength _) _ => apply D_strength
    | |- Dl (truelow _ _ _) _ => apply D_truelow
    | |- Dl (truerange _ _ _ _) _ => apply D_truerange
    | |- _ => rl1
    end.
  Ltac rr := repeat first [ assumption | rl2 | lia ].
  Ltac one := apply So_one; rr.
  Ltac sm := apply D_dm_smoother; [now apply D_avg|lia].

  Lemma eval_D ins ins' :
    Dls ins ins' ->
    (forall e, windowed_expr e = true -> So Dl (eval ins e) (eval ins' e)) /\
    (forall b, windowed_bexpr b = true -> So BDl (beval ins b) (beval ins' b)).
  Proof.
    intro He. apply expr_bexpr_ind; intros; cbn [windowed_expr windowed_bexpr eval beval] in *;
      fold (@beval V N) in *; fold (@eval V N) in *; try discriminate;
      repeat match goal with H : _ && _ = true |- _ => apply andb_prop in H; destruct H end;
      repeat match goal with
             | IH : (?b = true -> So _ _ _), H : ?b = true |- _ => specialize (IH H)
             end;
      try (eapply So_bind; [eassumption|intros x x' Hx]);
      try (eapply So_bind; [eassumption|intros y y' Hy]).
    - assert (Hn : match nth_error ins v, nth_error ins' v with
                 | Some a, Some a' => Dl a a' | None, None => True | _, _ => False end).
      { revert v. clear -He. induction He as [|a a' e e' Ha He IH]; intros [|i]; simpl; auto. apply IH. }
      destruct (nth_error ins v), (nth_error ins' v); try contradiction; simpl; auto.
    - apply So_ok. now apply D_binop.
    - apply So_ok. now apply D_binop_s.
    - apply So_ok. now apply D_rbinop_s.
    - apply So_ok. now apply D_mapop.
    - apply So_ok. now apply D_lclip_lo_l.
    - apply So_ok. now apply D_lclip_hi_l.
    - apply So_ok. now apply D_shift.
    - apply So_ok. now apply D_diff.
    - apply So_ok. apply D_rolling; auto. lia.
    - apply So_ok. now apply D_mul_b.
    - apply So_ok. now apply D_rmul_b.
    - apply So_ok. now apply BD_cmpop.
    - apply So_ok. now apply BD_cmpop_s.
    - apply So_ok. now apply BD_bbinop.
  Qed.

  Lemma run_D x ins ins' :
    valid x -> windowed x = true -> Dls ins ins' -> So Dls (run x ins) (run x ins').
  Proof.
    intros Hv Hw Hi.
    destruct x; cbn [valid windowed run] in *; try discriminate;
      repeat match goal with H : _ && _ = true |- _ => apply andb_prop in H; destruct H end;
      repeat match goal with H : negb _ = true |- _ => apply negb_true_iff in H; subst end; subst;
      first [ apply So_in1; [exact Hi|]; intros l1 l1' Ha
            | apply So_in2; [exact Hi|]; intros l1 l1' l2 l2' Ha Hb
            | apply So_in3; [exact Hi|]; intros l1 l1' l2 l2' l3 l3' Ha Hb Hc
            | apply So_in4; [exact Hi|]; intros l1 l1' l2 l2' l3 l3' l4 l4' Ha Hb Hc Hd
            | idtac ];
      unfold avgprice, typprice, wclprice, medprice, mathrad, to_radians, mathapply, sqrt_ind, add_ind,
        div_ind, mult_ind, sub_ind, maxindex_abs, minindex_abs, midprice, max_ind, min_ind, crossup,
        crossdown, cross_up, cross_down, correl, beta, mfi, williamsr, aroonosc, aroon_up, aroon_dn,
        aroon_from, bop, sumn; unfold max_ind, min_ind, sumn, aroon_from;
      cbv zeta; try (destruct degrees; one; fail); try (one; fail).
    - apply So_o1. now apply eval_D.
    - apply So_o1. now apply D_avg.
    - apply So_o2, So_ok. split; unfold minmax, min_ind, max_ind; cbn [fst snd]; rr.
    - apply So_o2, So_ok. unfold minmaxindex, minindex, maxindex. split; cbn [fst snd]; rr.
    - apply So_o3. unfold macd. apply D_macd_from; try lia; try (apply D_avg; assumption); auto;
        intros e e' He; apply D_avg; auto; lia.
    - apply So_o1. unfold apo. destruct Hv.
      eapply So_bind with (P := Dp); [apply D_posc; auto; now apply D_avg|]. intros m m' [M1 M2]. apply So_ok. rr.
    - apply So_o3. destruct Hv as (? & ? & ?). apply D_ppo_from; auto; now apply D_avg.
    - apply So_o3. destruct Hv as (? & ? & ?). apply D_ppo_from; auto; now apply D_avg.
    - apply So_o1. apply So_raise.
    - apply So_o3. unfold bbands, stddev. eapply So_bind with (P := Dl); [apply D_avg; auto|]. intros m m' Hm.
      apply So_ok. split; [split|]; cbn [fst snd]; rr.
    - apply So_o1. unfold cci, mad. cbv zeta. eapply So_bind with (P := Dl); [apply D_avg; rr|]. intros m m' Hm.
      apply So_ok. rr.
    - apply So_o1. apply So_raise.
    - apply So_o1. unfold atr. apply D_avg; auto. rr.
    - apply So_o1. unfold natr, atr. eapply So_bind with (P := Dl); [apply D_avg; rr|]. intros m m' Hm. apply So_ok. rr.
    - destruct Hv. apply So_o1, D_plus_dm; auto. sm.
    - destruct Hv. apply So_o1, D_minus_dm; auto. sm.
    - destruct Hv. apply So_o2, D_dm; auto. sm.
    - destruct Hv. apply So_o1, D_plus_di; auto. sm.
    - destruct Hv. apply So_o1, D_minus_di; auto. sm.
    - destruct Hv. apply So_o2, D_di; auto. sm.
    - destruct Hv. apply So_o1, D_dx; auto. sm.
    - destruct Hv. apply So_o1, D_adx; auto; [sm|now apply D_avg].
    - destruct Hv. apply So_o1, D_adxr; auto; [sm|now apply D_avg].
    - apply So_o1, D_rsi; auto. now apply D_avg.
    - apply So_o1. unfold cmo. eapply So_bind with (P := Dl); [apply D_avg; auto; now apply D_updays|]. intros u u' Hu.
      eapply So_bind with (P := Dl); [apply D_avg; auto; now apply D_downdays|]. intros w w' Hw'. apply So_ok. rr.
    - destruct Hv. apply So_o2, D_stochf; auto. now apply D_avg.
    - destruct Hv as (? & ? & ?). apply So_o2. unfold stochastic.
      eapply So_bind with (P := Dp); [apply D_stochf; auto; now apply D_avg|]. intros f f' [F1 F2].
      eapply So_bind with (P := Dl); [apply D_avg; auto|]. intros w w' Hw'. apply So_ok. split; cbn [fst snd]; rr.
    - apply So_o2, So_ok. unfold aroon, aroon_up, aroon_dn, aroon_from. cbv zeta.
      split; cbn [fst snd]; rr.
    - apply So_o1. unfold ultosc, sumn. cbv zeta. destruct (veqb _ _); [apply So_raise|].
      destruct Hv as (? & ? & ?). apply So_ok. rr.
  Qed.

  Lemma pick_D env env' is :
    Dls env env' -> So Dls (pick env is) (pick env' is).
  Proof.
    intro He. induction is as [|i is IH]; cbn [pick]; [apply So_ok; constructor|].
    assert (Hn : match nth_error env i, nth_error env' i with
                 | Some a, Some a' => Dl a a' | None, None => True | _, _ => False end).
    { clear IH is. revert i. induction He as [|a a' e e' Ha He IH]; intros [|i]; simpl; auto. apply IH. }
    destruct (nth_error env i), (nth_error env' i); try contradiction; [|apply So_raise].
    eapply So_bind; [exact IH|]. intros r r' Hr. apply So_ok. now constructor.
  Qed.

  Lemma session_D steps env env' :
    Forall (fun s => valid (fst s) /\ windowed (fst s) = true) steps -> Dls env env' ->
    So Dls (session env steps) (session env' steps).
  Proof.
    intro Hs. revert env env'. induction Hs as [|[x is] steps [Hv Hc] Hs IH]; intros env env' He; cbn [session].
    - now apply So_ok.
    - eapply So_bind; [now apply pick_D|]. intros ins ins' Hi.
      eapply So_bind; [now apply run_D|]. intros o o' Ho. apply IH. now apply Forall2_app.
  Qed.
End R2.
