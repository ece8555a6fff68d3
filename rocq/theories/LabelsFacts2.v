(** Proofs about Labels.v, continued: directional movement, kama and mama on numbered bars. *)
From Coq Require Import ZArith QArith List Bool Lia.
From Verif Require Import Num Series Line Apply LineApi Strict IndMA IndBasic IndRange IndHT IndMama LineFacts CausalFacts CatalogR CatalogR2
  CatalogW CatalogW2 IndexedFacts Labels LabelsFacts.
Import ListNotations.
Local Open Scope Z_scope.

Section Facts.
  Context {V : Type} {N : Num V}.
  Notation line := (line V).
  Notation sized := (@sized V).

  Lemma binop_s_sized op n (a : line) c : sized n a -> sized n (binop_s op a c).
  Proof. intros [A A']. unfold bars in *. unfold binop_s. apply clone_sized; [lia|]. unfold bars. rewrite A. apply fill_length. now rewrite map_length, slice_length, A. Qed.
  Lemma mapop_sized f n (a : line) : sized n a -> sized n (mapop f a).
  Proof. intro A. unfold mapop. apply stdop_sized; [intro s; apply map_length|exact A]. Qed.
  Lemma rolling_sized w G n (a : line) : sized n a -> sized n (rolling w G a).
  Proof.
    intros [A A']. unfold bars in *. unfold rolling. cbv zeta. apply clone_sized; [lia|]. unfold bars. rewrite A. apply fill_length.
    unfold ser_rolling. rewrite map_length, seq_length, slice_length. now rewrite A.
  Qed.
  Lemma cmpop_len op n (a b : line) : sized n a -> sized n b -> length (bser (cmpop op a b)) = n /\ 1 <= bmp (cmpop op a b).
  Proof.
    intros [A A'] [B B']. unfold bars in *. unfold cmpop, bclone. cbn [bser bmp]. split.
    - unfold bars. rewrite set_from_length; rewrite repeat_length; [exact A|]. rewrite map2_len; rewrite !slice_length; rewrite ?A, ?B; reflexivity.
    - destruct (Z.eqb_spec (Z.max (lmp a) (lmp b)) 0); lia.
  Qed.
  Lemma mul_b_sized n (a : line) b : sized n a -> length (bser b) = n -> sized n (mul_b a b).
  Proof.
    intros [A A'] B. unfold bars in *. unfold mul_b. cbv zeta. apply clone_sized; [lia|]. unfold bars. rewrite A. apply fill_length.
    rewrite map2_len; rewrite !slice_length; rewrite ?A, ?B; reflexivity.
  Qed.
  Lemma pdm1_sized k n (h l : line) : sized n h -> sized n l -> sized n (pdm1 k h l) /\ sized n (mdm1 k h l).
  Proof.
    intros H L. assert (U : sized n (upmove k h)) by (apply diff_sized; [lia|auto]).
    assert (D : sized n (downmove k l)) by (apply binop_sized; [apply ago_sized; [lia|auto]|auto]).
    unfold pdm1, mdm1. cbv zeta. split; apply mul_b_sized; try (apply clip_lo_sized; auto); now apply cmpop_len.
  Qed.
  Lemma kama_sc_sized p q f s n (a : line) : sized n a -> sized n (kama_sc p q f s a).
  Proof.
    intro A. unfold kama_sc, pow2, kama_er, sumn, labs, ldiv. repeat apply binop_s_sized. apply mapop_sized, binop_sized; [apply diff_sized; [lia|auto]|].
    apply rolling_sized, mapop_sized, diff_sized; [lia|auto].
  Qed.
  Lemma refuses_dm sm k n (h l c : line) ma p r t : (forall a, sized n a -> sm a = Raise ValueError) -> sized n h -> sized n l -> sized n c ->
    plus_dm sm k h l = Raise ValueError /\ minus_dm sm k h l = Raise ValueError /\ dm sm k h l = Raise ValueError /\
    plus_di sm k h l c = Raise ValueError /\ minus_di sm k h l c = Raise ValueError /\ di sm k h l c = Raise ValueError /\
    dx sm k h l c = Raise ValueError /\ adx ma p sm k h l c = Raise ValueError /\ adxr t r ma p sm k h l c = Raise ValueError.
  Proof.
    intros R H L C. destruct (pdm1_sized k n h l H L) as [P M]. unfold adxr, adx, dx, di, plus_di, minus_di, dm, plus_dm, minus_dm.
    rewrite !R by assumption. repeat split; reflexivity.
  Qed.
  Lemma kama_sc_lmp p q f s (a : line) : 1 <= lmp a -> (1 <= p)%nat ->
    lmp (kama_sc p q f s a) = lmp a + Z.max (Z.of_nat p) (Z.of_nat q + Z.of_nat p - 1).
  Proof.
    intros Ha Hp. unfold kama_sc, pow2, kama_er, sumn, labs, mapop, ldiv, diff.
    cbn [binop_s binop stdop rolling kwop_p lmp clone].
    repeat match goal with |- context [(?x =? 0)%Z] => destruct (Z.eqb_spec x 0) end; try lia.
  Qed.
  Lemma kama_refuses p q f s sd n (a : line) : (1 <= n)%nat -> (1 <= p)%nat -> bars a = n -> lmp a = 1 -> seeded sd = true ->
    kama_any (default_index n) p q f s sd a =
      Raise (match sd with SEED_LAST => if Z.max (Z.of_nat p) (Z.of_nat q + Z.of_nat p - 1) - 1 <? Z.of_nat n then ValueError else KeyError | _ => ValueError end).
  Proof.
    intros Hn Hp B M S. assert (A : sized n a) by (split; [auto|lia]). pose proof (kama_sc_sized p q f s n a A) as [D D'].
    pose proof (kama_sc_lmp p q f s a ltac:(lia) ltac:(lia)) as E. rewrite M in E.
    unfold kama_any, dyn_any. rewrite dyn_refuses; auto; try lia. rewrite E.
    now replace (1 + Z.max (Z.of_nat p) (Z.of_nat q + Z.of_nat p - 1) - 2) with (Z.max (Z.of_nat p) (Z.of_nat q + Z.of_nat p - 1) - 1) by lia.
  Qed.
  Lemma dyn_mean_keeps al (s r : list V) : dyn_mean al s = Ok r -> length r = length s.
  Proof.
    unfold dyn_mean. rewrite <- (map_length prep s). destruct (map prep s) as [|x t]; [discriminate|].
    intro H. apply bind_ok in H. destruct H as (u & U & H). injection H as <-. cbn [length]. f_equal. revert x al u U.
    induction t as [|y t IH]; intros x [|b al] u U; cbn [dyn_from] in U; try (injection U as <-; reflexivity); [discriminate|].
    apply bind_ok in U. destruct U as (w & W & U). injection U as <-. cbn [length]. f_equal. eapply IH. exact W.
  Qed.
  Lemma fb0 (a : line) p q alp : (1 <= p)%nat -> alp <= Z.of_nat p -> q = Z.of_nat p -> first_bar a q 0 0 alp = lmp a + Z.of_nat p - 2.
  Proof.
    intros P A ->. unfold first_bar. cbv zeta. destruct (Z.eqb_spec 0 0); [|lia]. destruct (Z.eqb_spec (Z.of_nat p) 0); [lia|]. cbn [negb andb].
    destruct (Z.ltb_spec (Z.of_nat p) alp); lia.
  Qed.
  Lemma dates_same (p q : nat) (a : line) : 1 <= lmp a -> (1 <= p)%nat ->
    (forall sd, lmp a + Z.of_nat p - 2 < Z.of_nat (bars a) ->
       ema_any Dates sd 0 p a = ema_full p sd 0 a /\ smma_any Dates sd p a = smma_seed p sd a /\
       smacc_any Dates p false sd a = smacc p false sd a) /\
    (forall sd fast slow, lmp a = 1 -> Z.max (Z.of_nat p) (Z.of_nat q + Z.of_nat p - 1) <= Z.of_nat (bars a) ->
       kama_any Dates p q fast slow sd a = kama p q fast slow sd a).
  Proof.
    intros M P. split.
    - intros sd B. split; [|split].
      + unfold ema_any, ema_full, ewm_span. apply ewm_dates; try lia.
        * rewrite (fb0 a p); auto; lia.
        * intros s r [= <-]. apply ser_ewma_len.
      + unfold smma_any, smma_seed, ewm_com. apply ewm_dates; try lia.
        * rewrite (fb0 a p); auto; lia.
        * intros s r [= <-]. apply ser_ewma_len.
      + unfold smacc_any, smacc. apply ewm_dates; try lia.
        * rewrite (fb0 a p); auto; lia.
        * intros s r [= <-]. apply lfilter_len.
    - intros sd f s A B. unfold kama_any, dyn_any, kama, ewm_dyn. apply ewm_dates; try lia.
      + rewrite (kama_sc_lmp p q f s a M P), A. unfold first_bar. cbv zeta. destruct (Z.eqb_spec 0 0); [|lia].
        destruct (Z.eqb_spec (Z.of_nat p) 0); [lia|]. cbn [negb andb]. rewrite A.
        match goal with |- context [?x <? ?y] => destruct (Z.ltb_spec x y) end; lia.
      + apply dyn_mean_keeps.
  Qed.
End Facts.

Section FactsT.
  Context {V : Type} {N : Num V} {T : NumT V}.
  Notation line := (line V).
  Notation sized := (@sized V).

  Lemma period_sized n (a : line) p v : sized n a -> (0 < p \/ (p < 0 /\ 2 <= lmp a /\ p = -1)) -> sized n (period_ a p false v) /\ lmp (period_ a p false v) = lmp a + p.
  Proof.
    intros [A A'] P. unfold period_. rewrite Z.sub_0_r. destruct (Z.eqb_spec p 0); [lia|]. cbn [lmp]. split; [split|lia].
    - unfold bars in *. cbn [lser]. destruct v as [v|]; [|exact A]. cbv zeta.
      destruct (Z.ltb_spec (lmp a - 1 + p) (lmp a - 1)); rewrite set_slice_length; auto; unfold slice_lo;
        repeat match goal with |- context [?x <? 0] => destruct (Z.ltb_spec x 0) end; lia.
    - cbn [lmp]. lia.
  Qed.
  Lemma mask_sized n (a : line) b v : sized n a -> length (bser b) = n -> sized n (lmask a b v).
  Proof.
    intros [A A'] B. unfold bars in *. unfold lmask. cbv zeta. apply clone_sized; [lia|]. unfold bars. rewrite A. apply fill_length.
    rewrite map2_len; rewrite !slice_length; rewrite ?A, ?B; reflexivity.
  Qed.
  Lemma cmpop_s_len op n (a : line) c : sized n a -> length (bser (cmpop_s op a c)) = n.
  Proof.
    intros [A A']. unfold bars in *. unfold cmpop_s, bclone. cbn [bser]. unfold bars.
    rewrite set_from_length; rewrite repeat_length; [exact A|]. rewrite map_length, slice_length, A. reflexivity.
  Qed.
  Lemma phase_sized n (i1 q1 : line) : sized n i1 -> sized n q1 -> sized n (mama_phase i1 q1).
  Proof.
    intros [A A'] [B B']. unfold mama_phase. cbv zeta. destruct (period_sized n q1 6 None (conj B B') ltac:(lia)) as [Q Q'].
    apply period_sized.
    - apply rbinop_sized. unfold lfillna, mathrad, to_radians. apply mapop_sized, mapop_sized. unfold ldiv. apply binop_sized; [|now split].
      apply mask_sized; [exact Q|]. apply cmpop_s_len. now split.
    - right. split; [lia|]. split; [|reflexivity]. rewrite (mama_phase_mp (le_n 0)); lia.
  Qed.
  Lemma alpha_sized f s n (ph : line) : sized n ph -> sized n (mama_alpha f s ph).
  Proof.
    intro P. unfold mama_alpha. cbv zeta. apply clip_lo_sized, rbinop_sized, clip_lo_sized, binop_sized; [|exact P].
    change (-1) with (- (1)). apply ago_sized; [lia|exact P].
  Qed.
  Lemma p0_sized n i : match i with HLine a => sized n a | HHighLow h l => sized n h /\ sized n l end -> sized n (ht_p0 i).
  Proof. destruct i; cbn [ht_p0]; [auto|]. intros [H L]. apply binop_s_sized, binop_sized; auto. Qed.
  Lemma p0_mp i : match i with HLine a => lmp a = 1 | HHighLow h l => lmp h = 1 /\ lmp l = 1 end -> lmp (ht_p0 i) = 1.
  Proof. destruct i; cbn [ht_p0]; [auto|]. intros [H L]. unfold ladd, binop_s, binop, clone. cbn [lmp]. rewrite H, L. reflexivity. Qed.
  Lemma smooth_sized n (a : line) : sized n a -> sized n (ht_p0smooth a) .
  Proof.
    intro A. unfold ht_p0smooth. apply period_sized; [|lia]. apply binop_s_sized.
    change (-1) with (- (1)). change (-2) with (- (2)). change (-3) with (- (3)). unfold ladd.
    repeat first [apply binop_sized|apply rbinop_sized|apply ago_sized]; auto; lia.
  Qed.
  Lemma mama_refuses fl sl n i : (1 <= n)%nat ->
    match i with HLine a => bars a = n /\ lmp a = 1 | HHighLow h l => (bars h = n /\ lmp h = 1) /\ (bars l = n /\ lmp l = 1) end ->
    mama_any (default_index n) fl sl i = Raise ValueError.
  Proof.
    intros Hn I. unfold mama_any. cbv zeta. set (p0 := ht_p0 i).
    assert (S0 : sized n p0) by (apply p0_sized; destruct i; unfold LabelsFacts.sized; intuition lia).
    assert (M0 : lmp p0 = 1) by (apply p0_mp; destruct i; intuition lia). clearbody p0. clear I.
    assert (S1 : sized n (ht_p0smooth p0)) by now apply smooth_sized. set (sm := ht_p0smooth p0) in *. clearbody sm.
    unfold applymulti_. cbv zeta. cbn [bind map].
    assert (MM : max_mp sm [filled sm v0; filled sm v0] = lmp sm).
    { unfold max_mp. cbn [fold_left filled lmp]. lia. }
    rewrite MM. destruct S1 as [L1 L2]. set (F := phasorize (slice_from (lser sm) (lmp sm - 1))).
    assert (FL : Forall (fun x => length x = length (slice_from (lser sm) (lmp sm - 1))) F).
    { refine (@phasorize_len V N T 0%nat (slice_from (lser sm) (lmp sm - 1)) [] F _). reflexivity. }
    destruct F as [|x [|y [|z F]]]; cbn [map]; try reflexivity.
    inversion FL as [|? ? X FL' ]; subst. inversion FL' as [|? ? Y FL'']; subst.
    set (i1 := clone sm (set_from (nans (length (lser sm))) (lmp sm - 1) x) (lmp sm)).
    set (q1 := clone sm (set_from (nans (length (lser sm))) (lmp sm - 1) y) (lmp sm)).
    assert (SI : sized (bars sm) i1) by (apply clone_sized; [lia|]; apply fill_length; rewrite X; apply slice_length).
    assert (SQ : sized (bars sm) q1) by (apply clone_sized; [lia|]; apply fill_length; rewrite Y; apply slice_length).
    pose proof (phase_sized _ _ _ SI SQ) as SP. pose proof (alpha_sized fl sl _ _ SP) as SA.
    unfold dyn_any at 1. rewrite dyn_refuses; auto.
    - apply S0.
    - apply SA.
    - rewrite (mama_alpha_mp (le_n 0)); [|apply SP]. destruct SP. lia.
  Qed.
  Lemma smooth_mp (a : line) : lmp a = 1 -> lmp (ht_p0smooth a) = 7.
  Proof.
    intro M. unfold ht_p0smooth, period_, ladd, binop_s, rbinop_s, binop, mapop, at_ago, clone. cbn -[Z.add Z.max Z.sub]. rewrite M. reflexivity.
  Qed.
  (** dates and at least 12 bars: the model of IndMama.v *)
  Lemma mama_dates fl sl n i : (12 <= n)%nat ->
    match i with HLine a => bars a = n /\ lmp a = 1 | HHighLow h l => (bars h = n /\ lmp h = 1) /\ (bars l = n /\ lmp l = 1) end ->
    mama_any Dates fl sl i = mama fl sl i.
  Proof.
    intros Hn I. unfold mama_any, mama. cbv zeta. set (p0 := ht_p0 i).
    assert (S0 : sized n p0) by (apply p0_sized; destruct i; unfold LabelsFacts.sized; intuition lia).
    assert (M0 : lmp p0 = 1) by (apply p0_mp; destruct i; intuition lia). clearbody p0. clear I.
    pose proof (smooth_mp p0 M0) as SM.
    assert (S1 : sized n (ht_p0smooth p0)) by now apply smooth_sized. set (sm := ht_p0smooth p0) in *. clearbody sm.
    unfold applymulti_. cbv zeta. cbn [bind map].
    assert (MM : max_mp sm [filled sm v0; filled sm v0] = lmp sm).
    { unfold max_mp. cbn [fold_left filled lmp]. lia. }
    rewrite MM. destruct S1 as [L1 L2]. set (F := phasorize (slice_from (lser sm) (lmp sm - 1))).
    assert (FL : Forall (fun x => length x = length (slice_from (lser sm) (lmp sm - 1))) F).
    { refine (@phasorize_len V N T 0%nat (slice_from (lser sm) (lmp sm - 1)) [] F _). reflexivity. }
    destruct F as [|x [|y [|z F]]]; cbn [map]; try reflexivity.
    inversion FL as [|? ? X FL' ]; subst. inversion FL' as [|? ? Y FL'']; subst.
    set (i1 := clone sm (set_from (nans (length (lser sm))) (lmp sm - 1) x) (lmp sm)).
    set (q1 := clone sm (set_from (nans (length (lser sm))) (lmp sm - 1) y) (lmp sm)).
    assert (SI : sized (bars sm) i1) by (apply clone_sized; [lia|]; apply fill_length; rewrite X; apply slice_length).
    assert (SQ : sized (bars sm) q1) by (apply clone_sized; [lia|]; apply fill_length; rewrite Y; apply slice_length).
    pose proof (phase_sized _ _ _ SI SQ) as SP. pose proof (alpha_sized fl sl _ _ SP) as SA.
    assert (MA : lmp (mama_alpha fl sl (mama_phase i1 q1)) = 13).
    { rewrite (mama_alpha_mp (le_n 0)); [|apply SP]. unfold mama_phase. cbv zeta. rewrite (period_mp (le_n 0)), (mama_phase_mp (le_n 0)); try apply SI; try apply SQ.
      unfold i1, q1, clone. cbn [lmp]. rewrite SM. reflexivity. }
    set (al := mama_alpha fl sl (mama_phase i1 q1)) in *. clearbody al.
    assert (B0 : bars p0 = bars sm) by apply S0.
    assert (E1 : dyn_any Dates 1 al SEED_ZERO p0 = ewm_dyn 1 al SEED_ZERO p0).
    { unfold dyn_any, ewm_dyn. rewrite MA. apply ewm_dates0; try lia.
      - unfold first_bar. cbn. lia.
      - unfold first_bar. cbn. lia.
      - apply dyn_mean_keeps. }
    rewrite <- E1. destruct (dyn_any Dates 1 al SEED_ZERO p0) as [m|] eqn:Em; [|reflexivity]. cbn [bind].
    assert (SZ : bars m = bars sm /\ lmp m = 13).
    { unfold dyn_any in Em. rewrite MA in Em. apply ewm_sized0 in Em; [|lia|unfold first_bar; cbn; lia|unfold first_bar; cbn; lia].
      destruct Em as [A B]. split; [congruence|]. rewrite B, M0. reflexivity. }
    destruct SZ as [Bm Mm].
    assert (MH : lmp (binop_s vmul al (vofQ (1 # 2))) = 13) by (unfold binop_s, mapop, clone; cbn [lmp]; rewrite MA; reflexivity).
    set (ah := binop_s vmul al (vofQ (1 # 2))) in *. clearbody ah.
    assert (E2 : dyn_any Dates 0 ah SEED_ZERO m = ewm_dyn 0 ah SEED_ZERO m).
    { unfold dyn_any, ewm_dyn. rewrite MH. apply ewm_dates0; try lia.
      - unfold first_bar. cbn. lia.
      - unfold first_bar. cbn. lia.
      - apply dyn_mean_keeps. }
    now rewrite E2.
  Qed.
End FactsT.
