(** How far apart the averages and indicators of slightly different prices are. *)
From Coq Require Import ZArith QArith List Bool Reals Lia Lra.
From Verif Require Import Num Series Line LineFacts Spec RSpec RFacts StatSpec StatFacts IndMA IndBasic IndStat IndRange Catalog CatalogSpec
  BandSpec BandFacts BandFacts2.
Import ListNotations.
Local Open Scope R_scope.
Arguments skipn : simpl never.
Arguments firstn : simpl never.
Local Notation V := (ext R).
Implicit Types g h k : gap.
Local Notation lo g := (lr (off g)).

Lemma lo_add g h a a' b b' : lo g a a' -> lo h b b' -> lo (gadd g h) (ladd a b) (ladd a' b').
Proof. apply lr_binop; [reflexivity|]. intros. now apply off_add. Qed.
Lemma lo_sub g h a a' b b' : lo g a a' -> lo h b b' -> lo (gsub g h) (lsub a b) (lsub a' b').
Proof. apply lr_binop; [reflexivity|]. intros. now apply off_sub. Qed.
Lemma lo_scale c g a a' : lo g a a' -> lo (gscale c g) (rbinop_s vmul (Fin c) a) (rbinop_s vmul (Fin c) a').
Proof. apply lr_rbinop_s; [reflexivity|]. intros. now apply off_mul. Qed.
Lemma lo_div d g a a' : d <> 0 -> lo g a a' -> lo (gscale (/ d) g) (binop_s vdiv a (Fin d)) (binop_s vdiv a' (Fin d)).
Proof. intro D. apply lr_binop_s; [reflexivity|]. intros. now apply off_div. Qed.
Lemma lo_roll g h w G a a' : (forall l m, numbers (off g) l m -> length l = w -> off h (G (map (@Fin R) l)) (G (map (@Fin R) m))) ->
  lo g a a' -> lo h (rolling w G a) (rolling w G a').
Proof. apply lr_rolling; [apply off_decided|reflexivity]. Qed.
Lemma lo_sma g p a a' : lo g a a' -> lo g (sma p a) (sma p a').
Proof. apply lo_roll. intros. now apply off_win_mean. Qed.
Lemma lo_max g p a a' : lo g a a' -> lo g (max_ind p a) (max_ind p a').
Proof. apply lo_roll. intros. now apply off_win_max. Qed.
Lemma lo_min g p a a' : lo g a a' -> lo g (min_ind p a) (min_ind p a').
Proof. apply lo_roll. intros. now apply off_win_min. Qed.
Lemma lo_std g p a a' : lo g a a' -> lo (gspread g) (stddev p 0 a) (stddev p 0 a').
Proof. apply lo_roll. intros. now apply off_win_std. Qed.
Lemma lo_midprice g h p a a' b b' : lo g a a' -> lo h b b' -> lo (gscale (/ 2) (gadd g h)) (midprice p a b) (midprice p a' b').
Proof.
  intros A B. unfold midprice. rewrite vofZ_fin. apply lo_div; [lra|]. apply lo_add; [now apply lo_max|now apply lo_min].
Qed.
Lemma lo_midpoint g p a a' : lo g a a' -> lo g (midpoint p a) (midpoint p a').
Proof.
  intro A. unfold midpoint, midprice. rewrite vofZ_fin. apply (lr_binop_s (off (gadd g g))); [reflexivity| |].
  - intros x y X. apply off_over; [lra|]. eapply off_sub_gap; [| |exact X]; unfold gadd; cbn [fst snd]; lra.
  - apply lo_add; [now apply lo_max|now apply lo_min].
Qed.
Lemma wma_coef p : (1 <= p)%nat -> vdiv (vofZ 2) (vofZ (Z.of_nat p * (Z.of_nat p + 1))) = Fin (/ (INR p * (INR p + 1) / 2)) :> V.
Proof.
  intro H. pose proof (INR_pos H). rewrite !vofZ_fin, mult_IZR, plus_IZR, IZR_nat, vdiv_fin by nra. f_equal. field. nra.
Qed.
Lemma lo_wma g p a a' : (1 <= p)%nat -> lo g a a' -> lo g (wma p a) (wma p a').
Proof.
  intros Hp A. unfold wma. cbv zeta. rewrite wma_coef by exact Hp. pose proof (INR_pos Hp) as P.
  set (c := INR p * (INR p + 1) / 2). assert (C : 0 < c) by (unfold c; nra).
  apply (lr_rbinop_s (off (c * fst g, c * snd g))); [reflexivity| |].
  - intros x y X. assert (E : forall z : V, vmul (Fin (/ c)) z = vdiv z (Fin c)).
    { intro z. destruct z as [| | |r]; [reflexivity| | |].
      - change (vdiv PInf (Fin c)) with (if bneg c then NInf else PInf : V).
        change (vmul (Fin (/ c)) PInf) with (inf_signed (/ c) : V). unfold inf_signed, bpos, bneg, b0; cbn.
        pose proof (Rinv_0_lt_compat _ C). destruct (Rltb_spec 0 (/ c)); [|lra]. destruct (Rltb_spec c 0); [lra|reflexivity].
      - change (vdiv NInf (Fin c)) with (if bneg c then PInf else NInf : V).
        change (vmul (Fin (/ c)) NInf) with (inf_opp (/ c) : V). unfold inf_opp, bpos, bneg, b0; cbn.
        pose proof (Rinv_0_lt_compat _ C). destruct (Rltb_spec 0 (/ c)); [|lra]. destruct (Rltb_spec c 0); [lra|reflexivity].
      - rewrite vmul_fin, vdiv_fin by lra. f_equal. field. lra. }
    rewrite !E. now apply off_over.
  - revert A. apply lo_roll. intros. now apply off_wma.
Qed.
Lemma lo_ewma g p adj a a' : (1 <= p)%nat -> lo g a a' -> lo g (ewma p adj a) (ewma p adj a').
Proof.
  intros Hp A. pose proof (lr_bars _ _ _ A) as L. destruct A as [A1 A2]. unfold ewma, ewm_mean, clone. rewrite A1, L.
  split; [reflexivity|]. cbn [lser]. apply F2_place; [reflexivity|]. rewrite alpha_span_fin by exact Hp.
  apply off_ser_ewma; [|now apply F2_from]. pose proof (INR_pos Hp). assert (1 <= INR p) by (change 1 with (INR 1); now apply le_INR).
  split; [apply Rdiv_lt_0_compat; lra|]. apply Rmult_le_reg_r with (INR p + 1); [lra|]. unfold Rdiv. rewrite Rmult_assoc, Rinv_l by lra. lra.
Qed.
Definition seed_gap (sd : seed) g : option gap :=
  match sd with
  | SEED_AVG | SEED_LAST | SEED_NONE => Some g
  | SEED_ZERO | SEED_ZFILL => Some (ghull g (0, 0))
  | SEED_SUM => None
  end.
Lemma lo_ewm g h sd al a a' pval po pe alp : seed_gap sd g = Some h -> 0 < al <= 1 -> lo g a a' ->
  alike (lo h) (ewm_call a pval po pe alp sd (fun t => Ok (ser_ewma (Fin al) false t)))
               (ewm_call a' pval po pe alp sd (fun t => Ok (ser_ewma (Fin al) false t))).
Proof.
  intros S H A.
  assert (K : forall x y, off g x y -> off h x y).
  { intros x y X. destruct sd; cbn in S; try discriminate; injection S as <-; auto; now apply off_hull_l. }
  apply (lr_ewm (off g)); auto; [apply off_decided|reflexivity| | | |].
  - intros -> l m F. cbn in S. injection S as <-. now apply off_ser_mean.
  - intros ->. discriminate.
  - intros Z. rewrite v0_fin. assert (E : h = ghull g (0, 0)) by (destruct Z as [-> | ->]; cbn in S; congruence). rewrite E.
    apply off_hull_r. cbn. lra.
  - intros. now apply off_ser_ewma.
Qed.
Lemma lo_span g h p po sd a a' : (1 <= p)%nat -> seed_gap sd g = Some h -> lo g a a' -> alike (lo h) (ewm_span p po sd a) (ewm_span p po sd a').
Proof.
  intros Hp S A. unfold ewm_span. rewrite alpha_span_fin by exact Hp. apply (lo_ewm g); auto.
  assert (1 <= INR p) by (change 1 with (INR 1); now apply le_INR).
  split; [apply Rdiv_lt_0_compat; lra|]. apply Rmult_le_reg_r with (INR p + 1); [lra|]. unfold Rdiv. rewrite Rmult_assoc, Rinv_l by lra. lra.
Qed.
Lemma lo_com g h p sd a a' : (1 <= p)%nat -> seed_gap sd g = Some h -> lo g a a' -> alike (lo h) (ewm_com p sd a) (ewm_com p sd a').
Proof.
  intros Hp S A. unfold ewm_com. rewrite alpha_com_fin by exact Hp. apply (lo_ewm g); auto.
  assert (1 <= INR p) by (change 1 with (INR 1); now apply le_INR).
  split; [apply Rdiv_lt_0_compat; lra|]. apply Rmult_le_reg_r with (INR p); [lra|]. unfold Rdiv. rewrite Rmult_assoc, Rinv_l by lra. lra.
Qed.
Lemma lo_mom g p a a' : lo g a a' -> lo (gsub g g) (mom p a) (mom p a').
Proof. apply lr_kwop; [reflexivity|]. intros. now apply off_ser_diff. Qed.

(** ** averages *)
Lemma avg_gap_sound av : forall p g h a a', (1 <= p)%nat -> avg_gap av p g = Some h -> lo g a a' -> alike (lo h) (avg_fun av p a) (avg_fun av p a').
Proof.
  induction av; intros p g h a a' Hp E A; cbn [avg_gap] in E; cbn [avg_fun].
  - injection E as <-. now apply lo_sma.
  - injection E as <-. cbn [alike]. now apply lo_ewma.
  - apply (lo_span g); auto.
  - apply (lo_com g); auto.
  - injection E as <-. now apply lo_wma.
  - destruct (avg_gap av p g) as [h1|] eqn:E1; [|discriminate]. destruct (avg_gap av p h1) as [h2|] eqn:E2; [|discriminate]. injection E as <-.
    unfold dema. apply (alike_bind (lo h1)); [now apply (IHav p g)|]. intros x x' X. apply (alike_bind (lo h2)); [now apply (IHav p h1)|].
    intros y y' Y. cbn [alike]. rewrite vofZ_fin. apply lo_sub; auto. now apply lo_scale.
  - destruct (avg_gap av p g) as [h1|] eqn:E1; [|discriminate]. destruct (avg_gap av p h1) as [h2|] eqn:E2; [|discriminate].
    destruct (avg_gap av p h2) as [h3|] eqn:E3; [|discriminate]. injection E as <-.
    unfold tema. apply (alike_bind (lo h1)); [now apply (IHav p g)|]. intros x x' X. apply (alike_bind (lo h2)); [now apply (IHav p h1)|].
    intros y y' Y. apply (alike_bind (lo h3)); [now apply (IHav p h2)|]. intros z z' Z. cbn [alike]. rewrite vofZ_fin.
    apply lo_add; auto. apply lo_sub; now apply lo_scale.
  - injection E as <-. cbn [alike]. unfold trima. destruct (Nat.odd p); now apply lo_sma, lo_sma.
  - discriminate.
  - destruct vfactor as [| | |v]; try discriminate.
    destruct (avg_gap av p g) as [h1|] eqn:E1; [|discriminate]. destruct (avg_gap av p h1) as [h2|] eqn:E2; [|discriminate]. injection E as <-.
    unfold gdema. apply (alike_bind (lo h1)); [now apply (IHav p g)|]. intros x x' X. apply (alike_bind (lo h2)); [now apply (IHav p h1)|].
    intros y y' Y. cbn [alike]. rewrite v1_fin, vadd_fin. apply lo_sub; now apply lo_scale.
  - destruct vfactor as [| | |v]; try discriminate. unfold t3. cbv zeta.
    match type of E with Some ?x = Some h => assert (EH : h = x) by congruence; clear E; subst h end.
    rewrite v0_fin, v1_fin, !vofZ_fin, !vmul_fin, !vsub_fin, !vadd_fin.
    assert (EM : forall x x', lo g x x' -> alike (lo g) (ema p x) (ema p x')) by (intros; apply (lo_span g); auto).
    apply (alike_bind (lo g)); [now apply EM|]. intros e1 e1' X1. apply (alike_bind (lo g)); [now apply EM|]. intros e2 e2' X2.
    apply (alike_bind (lo g)); [now apply EM|]. intros e3 e3' X3. apply (alike_bind (lo g)); [now apply EM|]. intros e4 e4' X4.
    apply (alike_bind (lo g)); [now apply EM|]. intros e5 e5' X5. apply (alike_bind (lo g)); [now apply EM|]. intros e6 e6' X6.
    cbn [alike].
    replace (- v ^ 3) with (0 - v * v * v) by ring. replace (3 * v ^ 2 + 3 * v ^ 3) with (3 * (v * v) + 3 * (v * v * v)) by ring.
    replace (- 6 * v ^ 2 - 3 * v - 3 * v ^ 3) with (- 6 * (v * v) - 3 * v - 3 * (v * v * v)) by ring.
    replace (1 + 3 * v + v ^ 3 + 3 * v ^ 2) with (1 + 3 * v + v * v * v + 3 * (v * v)) by ring.
    repeat apply lo_add; now apply lo_scale.
  - discriminate.
  - discriminate.
  - injection E as <-. cbn [alike]. revert A. apply lo_roll. intros. now apply off_win_sum.
  - injection E as <-. now apply lo_max.
  - injection E as <-. now apply lo_min.
  - discriminate.
  - discriminate.
  - discriminate.
  - destruct ddof; [|discriminate]. injection E as <-. now apply lo_std.
  - injection E as <-. cbn [alike]. revert A. apply lo_roll. intros. now apply off_win_mad.
  - discriminate.
  - discriminate.
  - discriminate.
  - discriminate.
  - discriminate.
  - injection E as <-. now apply lo_midpoint.
  - injection E as <-. now apply lo_mom.
  - discriminate.
  - discriminate.
  - discriminate.
  - discriminate.
  - discriminate.
Qed.

(** ** indicators *)
Lemma lo_truelo lb l c a a' b b' : lo l a a' -> lo c b b' ->
  lo (ghull c l) (lclip_hi_l (at_ago b (- Z.of_nat lb)) a) (lclip_hi_l (at_ago b' (- Z.of_nat lb)) a').
Proof.
  intros A B. unfold lclip_hi_l. apply (lr_stdop2 (off c) (off l)); auto; [reflexivity| |now apply lr_at_ago].
  intros x x' y y' X Y. now apply off_clip_hi.
Qed.

Lemma lo_truehi lb h c a a' b b' : lo h a a' -> lo c b b' ->
  lo (ghull c h) (lclip_lo_l (at_ago b (- Z.of_nat lb)) a) (lclip_lo_l (at_ago b' (- Z.of_nat lb)) a').
Proof.
  intros A B. unfold lclip_lo_l. apply (lr_stdop2 (off c) (off h)); auto; [reflexivity| |now apply lr_at_ago].
  intros x x' y y' X Y. now apply off_clip_lo.
Qed.
Lemma lo_truerange lb h l c a a' b b' d d' : lo h a a' -> lo l b b' -> lo c d d' ->
  lo (gsub (ghull c h) (ghull c l)) (truerange lb a b d) (truerange lb a' b' d').
Proof. intros A B C. unfold truerange. apply lo_sub; [now apply lo_truehi|now apply lo_truelo]. Qed.
Lemma o1_band g r r' : alike (lo g) r r' -> alike (lines_off [g]) (o1 r) (o1 r').
Proof. intro H. apply (alike_bind (lo g)); [exact H|]. intros x y X. cbn. auto. Qed.
Lemma ok_band g a b : lo g a b -> alike (lines_off [g]) (Ok [a]) (Ok [b]).
Proof. cbn. auto. Qed.
Lemma o3_band g h k r r' : alike (fun p q => lo g (fst (fst p)) (fst (fst q)) /\ lo h (snd (fst p)) (snd (fst q)) /\ lo k (snd p) (snd q)) r r' ->
  alike (lines_off [g; h; k]) (o3 r) (o3 r').
Proof.
  intro H. eapply alike_bind; [exact H|]. intros x y (X & Y & Z). cbn [alike lines_off]. repeat split; try apply X; try apply Y; try apply Z.
Qed.
Lemma in1_band {A} (P : A -> A -> Prop) g f ins ins' : lines_off [g] ins ins' -> (forall a a', lo g a a' -> alike P (f a) (f a')) ->
  alike P (in1 ins f) (in1 ins' f).
Proof. intros H K. destruct ins as [|a [|? ?]], ins' as [|a' [|? ?]]; cbn in H |- *; try tauto. apply K. apply H. Qed.
Lemma in2_band {A} (P : A -> A -> Prop) g h f ins ins' : lines_off [g; h] ins ins' ->
  (forall a a' b b', lo g a a' -> lo h b b' -> alike P (f a b) (f a' b')) -> alike P (in2 ins f) (in2 ins' f).
Proof.
  intros H K. destruct ins as [|a [|b [|? ?]]], ins' as [|a' [|b' [|? ?]]]; cbn in H |- *; try tauto. apply K; apply H.
Qed.
Lemma in3_band {A} (P : A -> A -> Prop) g h k f ins ins' : lines_off [g; h; k] ins ins' ->
  (forall a a' b b' c c', lo g a a' -> lo h b b' -> lo k c c' -> alike P (f a b c) (f a' b' c')) -> alike P (in3 ins f) (in3 ins' f).
Proof.
  intros H K. destruct ins as [|a [|b [|c [|? ?]]]], ins' as [|a' [|b' [|c' [|? ?]]]]; cbn in H |- *; try tauto. apply K; apply H.
Qed.
Lemma in4_band {A} (P : A -> A -> Prop) g h k j f ins ins' : lines_off [g; h; k; j] ins ins' ->
  (forall a a' b b' c c' d d', lo g a a' -> lo h b b' -> lo k c c' -> lo j d d' -> alike P (f a b c d) (f a' b' c' d')) ->
  alike P (in4 ins f) (in4 ins' f).
Proof.
  intros H K. destruct ins as [|a [|b [|c [|d [|? ?]]]]], ins' as [|a' [|b' [|c' [|d' [|? ?]]]]]; cbn in H |- *; try tauto. apply K; apply H.
Qed.
Lemma lo_macd f s k (fast slow : line V -> res (line V)) (sig : ma_fun V) p a a' :
  alike (lo f) (fast a) (fast a') -> alike (lo s) (slow a) (slow a') ->
  (forall x x', lo (gsub f s) x x' -> alike (lo k) (sig p x) (sig p x')) ->
  alike (fun r q => lo (gsub f s) (fst (fst r)) (fst (fst q)) /\ lo k (snd (fst r)) (snd (fst q)) /\ lo (gsub (gsub f s) k) (snd r) (snd q))
    (macd_from fast slow sig p a) (macd_from fast slow sig p a').
Proof.
  intros F S G. unfold macd_from. apply (alike_bind (lo f)); [exact F|]. intros x x' X. apply (alike_bind (lo s)); [exact S|]. intros y y' Y.
  cbv zeta. pose proof (lo_sub _ _ _ _ _ _ X Y) as M. apply (alike_bind (lo k)); [now apply G|]. intros z z' Z. cbn [alike fst snd].
  split; [exact M|]. split; [exact Z|]. now apply lo_sub.
Qed.
Lemma bands_sound x gs hs ins ins' : bands x gs hs -> valid x -> lines_off gs ins ins' ->
  alike (lines_off hs) (run x ins) (run x ins').
Proof.
  intros B Hv H. destruct B; cbn [valid] in Hv; cbn [run].
  - apply (in1_band _ g); auto. intros. apply o1_band. now apply (avg_gap_sound a p g).
  - apply (in4_band _ g h l c); auto. intros. apply ok_band. apply lo_div; auto. repeat apply lo_add; auto.
  - apply (in3_band _ h l c); auto. intros. apply ok_band. apply lo_div; auto. repeat apply lo_add; auto.
  - apply (in3_band _ h l c); auto. intros. apply ok_band. apply lo_div; auto. repeat apply lo_add; auto.
    apply (lr_binop_s (off c)); auto; [reflexivity|]. intros. now apply off_mul_r.
  - apply (in2_band _ h l); auto. intros. apply ok_band. apply lo_div; auto. now apply lo_add.
  - apply (in2_band _ g h); auto. intros. apply ok_band. now apply lo_add.
  - apply (in2_band _ g h); auto. intros. apply ok_band. now apply lo_sub.
  - apply (in1_band _ g); auto. intros a a' A. cbn. split; [now apply lo_min|]. split; [now apply lo_max|exact I].
  - apply (in2_band _ h l); auto. intros. apply ok_band. now apply lo_midprice.
  - apply (in1_band _ g); auto. intros a a' A. apply o3_band. destruct Hv as (V1 & V2 & V3).
    apply lo_macd; [now apply (avg_gap_sound ma pf g)|now apply (avg_gap_sound ma ps g)|]. intros. now apply (avg_gap_sound masig psig (gsub f s)).
  - apply (in1_band _ g); auto. intros a a' A. apply o3_band. destruct Hv as (V1 & V2 & V3).
    apply lo_macd; [apply (lo_span g); auto|apply (lo_span g); auto; lia|]. intros. apply (lo_span (gsub g g)); auto.
  - apply (in1_band _ g); auto. intros a a' A. apply o1_band. destruct Hv as (V1 & V2). unfold apo.
    apply (alike_bind (fun r q => lo f (fst r) (fst q) /\ lo s (snd r) (snd q))).
    + unfold posc. apply (alike_bind (lo f)); [now apply (avg_gap_sound ma pf g)|]. intros x x' X.
      apply (alike_bind (lo s)); [now apply (avg_gap_sound ma ps g)|]. intros y y' Y. cbn. auto.
    + intros [x y] [x' y'] [X Y]. cbn. now apply lo_sub.
  - apply (in1_band _ g); auto. intros a a' A. apply o3_band. unfold bbands. apply (alike_bind (lo m)); [now apply (avg_gap_sound ma p g)|].
    intros x x' X. cbv zeta. cbn [alike fst snd]. pose proof (lo_scale d _ _ _ (lo_std g p _ _ A)) as S.
    split; [exact X|]. split; [now apply lo_add|now apply lo_sub].
  - apply (in2_band _ l c); auto. intros. apply ok_band. now apply lo_truelo.
  - apply (in3_band _ h l c); auto. intros. apply ok_band. now apply lo_truerange.
  - apply (in3_band _ h l c); auto. intros. apply o1_band. apply (avg_gap_sound ma p (gsub (ghull c h) (ghull c l))); auto. now apply lo_truerange.
Qed.

(** ** sessions *)
Lemma lines_nth gs : forall ls ls' i g, lines_off gs ls ls' -> nth_error gs i = Some g ->
  exists l l', nth_error ls i = Some l /\ nth_error ls' i = Some l' /\ lo g l l'.
Proof.
  induction gs as [|k gs IH]; intros [|l ls] [|l' ls'] [|i] g H E; cbn in H, E; try easy.
  - injection E as <-. exists l, l'. repeat split; try apply H.
  - cbn [nth_error]. apply (IH ls ls' i g); tauto.
Qed.
Lemma pick_band gs ls ls' is : forall hs, lines_off gs ls ls' -> chosen gs is = Some hs -> alike (lines_off hs) (pick ls is) (pick ls' is).
Proof.
  induction is as [|i is IH]; intros hs H E; cbn [chosen] in E.
  - injection E as <-. exact I.
  - destruct (nth_error gs i) as [g|] eqn:N; [|discriminate]. destruct (chosen gs is) as [s|]; [|discriminate]. injection E as <-.
    destruct (lines_nth _ _ _ _ _ H N) as (l & l' & E1 & E2 & L). cbn [pick]. rewrite E1, E2.
    apply (alike_bind (lines_off s)); [now apply IH|]. intros r r' R. cbn [alike lines_off]. auto.
Qed.
Lemma lines_app gs hs : forall ls ls' ms ms', lines_off gs ls ls' -> lines_off hs ms ms' -> lines_off (gs ++ hs) (ls ++ ms) (ls' ++ ms').
Proof. induction gs as [|g gs IH]; intros [|l ls] [|l' ls'] ms ms' H K; cbn in *; try tauto. split; [tauto|]. apply IH; tauto. Qed.
Lemma session_band gs steps rs : session_bands gs steps rs -> forall env env', Forall (fun s => valid (fst s)) steps -> lines_off gs env env' ->
  alike (lines_off rs) (session env steps) (session env' steps).
Proof.
  induction 1 as [gs|gs x is steps hs ks rs C B S IH]; intros env env' F H; cbn [session]; [exact H|].
  inversion F as [|? ? V1 V2]; subst. cbn [fst] in V1.
  apply (alike_bind (lines_off hs)); [now apply (pick_band gs)|]. intros i i' Hi.
  apply (alike_bind (lines_off ks)); [now apply (bands_sound x hs ks)|]. intros o o' O. apply IH; auto. now apply lines_app.
Qed.

(** ** a direction *)
Lemma follows_gap av p c : follows av = true -> 0 <= c -> exists d, 0 <= d /\ avg_gap av p (0, c) = Some (0, d).
Proof.
  intros H C. assert (HH : ghull (0, c) (0, 0) = (0, c)).
  { unfold ghull. cbn [fst snd]. rewrite Rmin_left, Rmax_left by lra. reflexivity. }
  destruct av; try discriminate; cbn [follows avg_gap] in *; try (exists c; split; [exact C|reflexivity]).
  - destruct sd; try discriminate; exists c; rewrite ?HH; auto.
  - destruct sd; try discriminate; exists c; rewrite ?HH; auto.
  - exists (INR p * c). pose proof (pos_INR p). split; [now apply Rmult_le_pos|]. unfold gscale. cbn [fst snd].
    rewrite Rmult_0_r, Rmin_left, Rmax_right; auto; now apply Rmult_le_pos.
Qed.
Lemma not_below_off l l' : Forall2 not_below l l' -> exists c, 0 <= c /\ Forall2 (off (0, c)) l l'.
Proof.
  induction 1 as [|x y l l' X F (c & C & IH)]; [exists 0; split; [lra|constructor]|].
  destruct x as [| | |a], y as [| | |b]; cbn in X; try easy; try (exists c; split; [exact C|]; constructor; [reflexivity|exact IH]).
  exists (Rmax c (b - a)). split; [eapply Rle_trans; [exact C|apply Rmax_l]|]. constructor.
  - unfold off. cbn [fst snd]. split; [lra|apply Rmax_r].
  - revert IH. apply F2_imp. intros u v. apply off_sub_gap; cbn [fst snd]; [lra|apply Rmax_l].
Qed.
Lemma off_not_below d x y : off (0, d) x y -> not_below x y.
Proof. destruct x, y; cbn; auto. lra. Qed.
Lemma avg_follows av p a a' : follows av = true -> (1 <= p)%nat -> line_not_below a a' ->
  alike line_not_below (avg_fun av p a) (avg_fun av p a').
Proof.
  intros H Hp [A1 A2]. destruct (not_below_off _ _ A2) as (c & C & F). destruct (follows_gap av p c H C) as (d & D & E).
  apply (alike_imp (lo (0, d))).
  - intros x x' [X1 X2]. split; [exact X1|]. revert X2. apply F2_imp, off_not_below.
  - apply (avg_gap_sound av p (0, c)); auto. now split.
Qed.

(** ** one number *)
Lemma gscale_sym c e : 0 <= e -> gscale c (- e, e) = (- (Rabs c * e), Rabs c * e).
Proof.
  intro E. unfold gscale. cbn [fst snd]. unfold Rabs. destruct (Rcase_abs c).
  - rewrite Rmin_right, Rmax_left by nra. f_equal; ring.
  - rewrite Rmin_left, Rmax_right by nra. f_equal; ring.
Qed.
Lemma gap_eq (a b c d : R) : a = c -> b = d -> (a, b) = (c, d). Proof. now intros -> ->. Qed.
Lemma hull_sym e : 0 <= e -> ghull (- e, e) (0, 0) = (- e, e).
Proof. intro E. unfold ghull. cbn [fst snd]. rewrite Rmin_left, Rmax_left by lra. reflexivity. Qed.
Lemma factor_gap av : forall p f e, 0 <= e -> factor av p = Some f -> 0 <= f /\ avg_gap av p (- e, e) = Some (- (f * e), f * e).
Proof.
  assert (ONE : forall e, Some (- e, e) = Some (- (1 * e), 1 * e)) by (intro e; now rewrite Rmult_1_l).
  assert (SP : forall e, gspread (- e, e) = (- (2 * e), 2 * e)) by (intro e; unfold gspread; cbn [fst snd]; apply gap_eq; ring).
  induction av; intros p f e He E; cbn [factor] in E; cbn [avg_gap]; try discriminate;
    try (injection E as <-; split; [lra|apply ONE]).
  - destruct sd; try discriminate; injection E as <-; (split; [lra|]); rewrite ?hull_sym by exact He; apply ONE.
  - destruct sd; try discriminate; injection E as <-; (split; [lra|]); rewrite ?hull_sym by exact He; apply ONE.
  - destruct (factor av p) as [f1|] eqn:F; [|discriminate]. assert (EH : f = 2 * f1 + f1 ^ 2) by congruence. clear E.
    destruct (IHav p f1 e He F) as [P ->]. assert (He1 : 0 <= f1 * e) by now apply Rmult_le_pos.
    destruct (IHav p f1 _ He1 F) as [_ ->]. subst f. split; [nra|]. f_equal. rewrite gscale_sym by exact He1.
    rewrite Rabs_pos_eq by lra. unfold gsub. cbn [fst snd]. apply gap_eq; ring.
  - destruct (factor av p) as [f1|] eqn:F; [|discriminate]. assert (EH : f = 3 * f1 + 3 * f1 ^ 2 + f1 ^ 3) by congruence. clear E.
    destruct (IHav p f1 e He F) as [P ->]. assert (He1 : 0 <= f1 * e) by now apply Rmult_le_pos.
    destruct (IHav p f1 _ He1 F) as [_ ->]. assert (He2 : 0 <= f1 * (f1 * e)) by now apply Rmult_le_pos.
    destruct (IHav p f1 _ He2 F) as [_ ->]. subst f. split.
    + assert (0 <= f1 ^ 2) by now apply pow_le. assert (0 <= f1 ^ 3) by now apply pow_le. lra.
    + f_equal. rewrite !gscale_sym by assumption. rewrite Rabs_pos_eq by lra. unfold gsub, gadd. cbn [fst snd]. apply gap_eq; ring.
  - destruct vfactor as [| | |v]; try discriminate.
    destruct (factor av p) as [f1|] eqn:F; [|discriminate]. assert (EH : f = Rabs (1 + v) * f1 + Rabs v * f1 ^ 2) by congruence. clear E.
    destruct (IHav p f1 e He F) as [P ->]. assert (He1 : 0 <= f1 * e) by now apply Rmult_le_pos.
    destruct (IHav p f1 _ He1 F) as [_ ->]. assert (He2 : 0 <= f1 * (f1 * e)) by now apply Rmult_le_pos. subst f. split.
    + pose proof (Rabs_pos (1 + v)). pose proof (Rabs_pos v). assert (0 <= f1 ^ 2) by now apply pow_le.
      apply Rplus_le_le_0_compat; now apply Rmult_le_pos.
    + f_equal. rewrite !gscale_sym by assumption. unfold gsub. cbn [fst snd]. apply gap_eq; ring.
  - destruct vfactor as [| | |v]; try discriminate.
    match type of E with Some ?x = Some f => assert (EH : f = x) by congruence; clear E; subst f end.
    split; [repeat apply Rplus_le_le_0_compat; apply Rabs_pos|]. f_equal. rewrite !gscale_sym by assumption.
    replace (- 6 * v ^ 2 - 3 * v - 3 * v ^ 3) with (- (6 * v ^ 2 + 3 * v + 3 * v ^ 3)) by ring. rewrite (Rabs_Ropp (v ^ 3)), (Rabs_Ropp (6 * v ^ 2 + 3 * v + 3 * v ^ 3)).
    unfold gadd. cbn [fst snd]. apply gap_eq; ring.
  - injection E as <-. split; [apply pos_INR|]. f_equal. rewrite gscale_sym by exact He. now rewrite (Rabs_pos_eq (INR p)) by apply pos_INR.
  - destruct ddof; [|discriminate]. injection E as <-. split; [lra|]. now rewrite SP.
  - injection E as <-. split; [lra|]. now rewrite SP.
  - injection E as <-. split; [lra|]. f_equal. unfold gsub. cbn [fst snd]. apply gap_eq; ring.
Qed.
Lemma factor_sound av p f e a a' : factor av p = Some f -> 0 <= e -> (1 <= p)%nat -> line_close e a a' ->
  alike (line_close (f * e)) (avg_fun av p a) (avg_fun av p a').
Proof.
  intros F E Hp A. destruct (factor_gap av p f e E F) as [_ G]. now apply (avg_gap_sound av p (- e, e)).
Qed.
