(** The measured cycle of the Hilbert transform indicators in double precision. *)
From Coq Require Import ZArith QArith List Bool Reals Lia Lra.
From Flocq Require Import Core IEEE754.BinarySingleNaN.
From Verif Require Import Num Series Line LineFacts Float64 FloatSpec FloatFacts FloatLine IndSar Apply IndHT.
Import ListNotations.
Local Open Scope R_scope.
Arguments skipn : simpl never.
Arguments firstn : simpl never.

Local Notation F50 := (vofZ 50 : float).
Lemma val50 : finite F50 /\ val F50 = 50. Proof. apply fofZ_exact. vm_compute. discriminate. Qed.
Lemma val6 : finite (vofZ 6 : float) /\ val (vofZ 6 : float) = 6. Proof. apply fofZ_exact. vm_compute. discriminate. Qed.

(** a product with a factor in [0, 1] whose product with 50 is known *)
Lemma part_in (c h x : float) :
  is_finite c = true -> vleb v0 c = true -> vleb c (vofZ 1) = true -> is_finite h = true -> veqb (vmul c F50) h = true ->
  nan_or_within 0 50 x -> nan_or_within 0 (val h) (vmul c x).
Proof.
  intros Fc C0 C1 Fh E [M|[Fx [X0 X1]]].
  - left. destruct x; try discriminate. now destruct c.
  - right. destruct val50 as [F5 V5]. destruct val1 as [F1 V1].
    apply leb_iff in C0; [|reflexivity|exact Fc]. apply leb_iff in C1; [|exact Fc|exact F1]. change (val v0) with 0 in C0. rewrite V1 in C1.
    destruct (@mul_in (vofZ 0) F50 c F50 Fc F5) as (A1 & A2 & _); [rewrite val0, V5; nra|].
    destruct (@mul_in (vofZ 0) F50 c x Fc Fx) as (B1 & B2 & B3 & _); [rewrite val0, V5; nra|].
    split; [exact B2|]. rewrite val0 in B3. split; [exact B3|].
    apply eqb_iff in E; [|exact A2|exact Fh]. rewrite <- E, A1, B1, V5. apply rn_le. nra.
Qed.
Lemma mix_in (a b : Q) (x y : float) (h k : float) :
  let ca := vofQ a : float in let cb := vofQ b : float in
  is_finite ca = true -> vleb v0 ca = true -> vleb ca (vofZ 1) = true -> is_finite h = true -> veqb (vmul ca F50) h = true ->
  is_finite cb = true -> vleb v0 cb = true -> vleb cb (vofZ 1) = true -> is_finite k = true -> veqb (vmul cb F50) k = true ->
  val h + val k = 50 ->
  nan_or_within 0 50 x -> nan_or_within 0 50 y -> nan_or_within 0 50 (mix a x b y).
Proof.
  intros ca cb A1 A2 A3 A4 A5 B1 B2 B3 B4 B5 S X Y. unfold mix.
  pose proof (part_in ca h x A1 A2 A3 A4 A5 X) as P. pose proof (part_in cb k y B1 B2 B3 B4 B5 Y) as Q. fold ca cb.
  destruct P as [M|[P1 P2]]; [|destruct Q as [M|[Q1 Q2]]].
  - left. destruct (vmul ca x); try discriminate. now destruct (vmul cb y).
  - left. destruct (vmul cb y); try discriminate. now destruct (vmul ca x) as [[]|[]| |].
  - right. destruct val50 as [F5 V5]. destruct (@add_in (vofZ 0) F50 _ _ P1 Q1) as (_ & C2 & C3); [rewrite val0, V5; lra|].
    rewrite val0, V5 in C3. split; [exact C2|exact C3].
Qed.
Lemma mix_period x y : nan_or_within 0 50 x -> nan_or_within 0 50 y -> nan_or_within 0 50 (mix (2 # 10) x (8 # 10) y : float).
Proof.
  intros X Y. apply (mix_in _ _ x y (vofZ 10) (vofZ 40)); try (vm_compute; reflexivity); [|exact X|exact Y].
  rewrite (proj2 (fofZ_exact 10 ltac:(vm_compute; discriminate))), (proj2 (fofZ_exact 40 ltac:(vm_compute; discriminate))). lra.
Qed.
Lemma val_16 : val (vofQ (165 # 10) : float) = 16.5.
Proof.
  assert (F : B2SF (vofQ (165 # 10) : float) = SpecFloat.S754_finite false 4644337115725824 (-48)) by (vm_compute; reflexivity).
  unfold val. rewrite <- SF2R_B2SF, F. cbn [SF2R]. unfold F2R. cbn [Fnum Fexp cond_Zopp].
  change (bpow radix2 (-48)) with (/ IZR 281474976710656). lra.
Qed.
Lemma val_33 : val (vofQ (335 # 10) : float) = 33.5.
Proof.
  assert (F : B2SF (vofQ (335 # 10) : float) = SpecFloat.S754_finite false 4714705859903488 (-47)) by (vm_compute; reflexivity).
  unfold val. rewrite <- SF2R_B2SF, F. cbn [SF2R]. unfold F2R. cbn [Fnum Fexp cond_Zopp].
  change (bpow radix2 (-47)) with (/ IZR 140737488355328). lra.
Qed.
Lemma mix_smooth x y : nan_or_within 0 50 x -> nan_or_within 0 50 y -> nan_or_within 0 50 (mix (33 # 100) x (67 # 100) y : float).
Proof.
  intros X Y. apply (mix_in _ _ x y (vofQ (165 # 10)) (vofQ (335 # 10))); try (vm_compute; reflexivity); [|exact X|exact Y].
  rewrite val_16, val_33. lra.
Qed.

Lemma clamp_in (x : float) : nan_or_within 6 50 (pymin (pymax x (vofZ 6)) (vofZ 50)).
Proof.
  destruct val50 as [F5 V5]. destruct val6 as [F6 V6]. unfold pymin, pymax.
  assert (C : is_nan x = true \/ x = B754_infinity false \/ x = B754_infinity true \/ finite x).
  { destruct x as [s|[]| |]; unfold finite; auto. }
  destruct C as [C|[C|[C|C]]].
  - left. destruct x; try discriminate. reflexivity.
  - right. subst x. replace (vltb _ (vofZ 6)) with false by (vm_compute; reflexivity).
    replace (vltb _ _) with true by (vm_compute; reflexivity). split; [exact F5|]. rewrite V5. lra.
  - right. subst x. replace (vltb _ (vofZ 6)) with true by (vm_compute; reflexivity).
    replace (vltb _ _) with false by (vm_compute; reflexivity). split; [exact F6|]. rewrite V6. lra.
  - right. destruct (vltb x (vofZ 6)) eqn:E.
    + replace (vltb (vofZ 50) (vofZ 6 : float)) with false by (vm_compute; reflexivity). split; [exact F6|]. rewrite V6. lra.
    + apply ltb_false in E; [|exact C|exact F6]. rewrite V6 in E. destruct (vltb (vofZ 50) x) eqn:E2.
      * split; [exact F5|]. rewrite V5. lra.
      * apply ltb_false in E2; [|exact F5|exact C]. rewrite V5 in E2. split; [exact C|lra].
Qed.

Lemma limit_in (x p : float) : nan_or_within 0 50 (limit_period x p).
Proof.
  unfold limit_period. set (y := pymax (pymin x _) _). destruct (clamp_in y) as [M|[A B]]; [now left|right]. split; [exact A|lra].
Qed.

Section HT.
  Context {T : NumT float}.
  Definition st_ok (s : htst float) : Prop := nan_or_within 0 50 (h_period s) /\ nan_or_within 0 50 (h_sp s).
  Lemma zero_in : nan_or_within 0 50 (v0 : float).
  Proof. right. split; [reflexivity|]. change (val v0) with 0. lra. Qed.
  Lemma ht0_ok : st_ok ht0.
  Proof. split; exact zero_in. Qed.
  Lemma step_ok s p : st_ok s -> st_ok (ht_step s p).
  Proof.
    intros [P S]. unfold ht_step. cbv zeta. set (re := mix _ (vadd (vmul _ _) _) _ _). set (im := mix _ (vsub (vmul _ _) _) _ _).
    split; cbn [h_period h_sp]; [|apply mix_smooth; [|exact S]]; (apply mix_period; [apply limit_in|exact P]).
  Qed.

  Lemma trunc_le (v : float) m : finite v -> 0 <= val v < IZR m ->
    (0 <= Btrunc v < m)%Z /\ IZR (Btrunc v) <= val v < IZR (Btrunc v) + 1.
  Proof.
    intros F [A B]. pose proof (Btrunc_correct prec emax _ v) as E. fold (val v) in E.
    unfold round, F2R, scaled_mantissa, cexp, FIX_exp in E. cbn [Fnum Fexp Z.opp bpow] in E. rewrite !Rmult_1_r in E. apply eq_IZR in E.
    rewrite E. rewrite Ztrunc_floor by exact A. pose proof (Zfloor_lb (val v)). pose proof (Zfloor_ub (val v)).
    split; [|lra]. split.
    - apply Zfloor_lub. exact A.
    - apply lt_IZR. lra.
  Qed.
  Lemma int_ok (sp : float) : nan_or_within 0 50 sp ->
    (missing sp /\ pyint (vadd sp (vofQ (5 # 10))) = Raise ValueError) \/
    (within 0 50 sp /\ exists d, pyint (vadd sp (vofQ (5 # 10))) = Ok d /\ (0 <= d <= 50)%Z /\
       IZR d <= val (vadd sp (vofQ (5 # 10))) < IZR d + 1).
  Proof.
    intros [M|W].
    - left. split; [exact M|]. now destruct sp.
    - right. split; [exact W|]. destruct W as [F [A B]].
      assert (H : finite (vofQ (5 # 10) : float) /\ val (vofQ (5 # 10) : float) = 0.5).
      { split; [vm_compute; reflexivity|].
        assert (G : B2SF (vofQ (5 # 10) : float) = SpecFloat.S754_finite false 4503599627370496 (-53)) by (vm_compute; reflexivity).
        unfold val. rewrite <- SF2R_B2SF, G. cbn [SF2R]. unfold F2R. cbn [Fnum Fexp cond_Zopp].
        change (bpow radix2 (-53)) with (/ IZR 9007199254740992). lra. }
      destruct H as [H1 H2].
      assert (H : val (vofQ (505 # 10) : float) = 50.5).
      { assert (G : B2SF (vofQ (505 # 10) : float) = SpecFloat.S754_finite false 7107243161944064 (-47)) by (vm_compute; reflexivity).
        unfold val. rewrite <- SF2R_B2SF, G. cbn [SF2R]. unfold F2R. cbn [Fnum Fexp cond_Zopp].
        change (bpow radix2 (-47)) with (/ IZR 140737488355328). lra. }
      destruct (@add_in (vofZ 0) (vofQ (505 # 10)) sp (vofQ (5 # 10)) F H1) as (_ & C & D); [rewrite val0, H, H2; lra|].
      rewrite val0, H in D. destruct (trunc_le _ 51 C) as [I1 I2]; [lra|]. exists (Btrunc (vadd sp (vofQ (5 # 10)))).
      split; [|split; [lia|exact I2]]. unfold pyint. cbn [vtrunc NumF]. unfold ftrunc.
      change (Bplus mode_NE sp (fofQ (5 # 10))) with (vadd sp (vofQ (5 # 10))).
      destruct (vadd sp (vofQ (5 # 10))); try discriminate; reflexivity.
  Qed.
  Lemma dcp_ok l : forall s, st_ok s -> Forall (nan_or_within 0 50) (dcp_loop s l).
  Proof.
    induction l as [|p l IH]; intros s S; [constructor|]. cbn [dcp_loop]. constructor; [apply step_ok, S|]. apply IH. now apply step_ok.
  Qed.

  (** ** look-ups in the history *)
  Lemma getitem_ok {A} (l : list A) (i : nat) k : (31 <= i < length l)%nat -> (k <= 49)%nat ->
    exists a, getitem l (Z.of_nat i - Z.of_nat k) = Ok a.
  Proof.
    intros Hi Hk. unfold getitem. destruct (Z.of_nat i - Z.of_nat k <? 0)%Z eqn:E.
    - apply Z.ltb_lt in E. destruct (_ <? 0)%Z eqn:E2; [apply Z.ltb_lt in E2; lia|].
      destruct (nth_error l _) as [a|] eqn:N; [now exists a|]. apply nth_error_None in N. lia.
    - apply Z.ltb_ge in E. destruct (_ <? 0)%Z eqn:E2; [apply Z.ltb_lt in E2; lia|].
      destruct (nth_error l _) as [a|] eqn:N; [now exists a|]. apply nth_error_None in N. lia.
  Qed.
  Lemma dft_ok pr i dc ks : (31 <= i < length pr)%nat -> Forall (fun k => (k <= 49)%nat) ks ->
    forall re im, exists q, dft_from pr (Z.of_nat i) dc ks re im = Ok q.
  Proof.
    intros Hi H. induction H as [|k ks Hk H IH]; intros re im; [eexists; reflexivity|]. cbn [dft_from].
    destruct (getitem_ok pr i k Hi Hk) as [a ->]. cbn [bind]. apply IH.
  Qed.
  Lemma phase_at_ok pr i sp ph : (31 <= i < length pr)%nat -> nan_or_within 0 50 sp ->
    (exists q, phase_at pr i sp ph = Ok q) \/ phase_at pr i sp ph = Raise ValueError.
  Proof.
    intros Hi H. unfold phase_at. destruct (int_ok sp H) as [[_ ->]|(_ & d & -> & D & _)]; [now right|]. cbn [bind]. left.
    unfold dft. destruct (dft_ok pr i d (seq 0 (Z.to_nat d)) Hi) with (re := v0 : float) (im := v0 : float) as [q ->].
    - apply Forall_forall. intros k Hk. apply in_seq in Hk. lia.
    - cbn [bind]. eexists. reflexivity.
  Qed.
  Definition ok_or_value {A} (r : res A) : Prop := (exists a, r = Ok a) \/ r = Raise ValueError.
  Lemma bind_ov {A B} (r : res A) (f : A -> res B) :
    ok_or_value r -> (forall a, r = Ok a -> ok_or_value (f a)) -> ok_or_value (bind r f).
  Proof. intros [[a E]|E] H; rewrite E; cbn [bind]; [now apply H|now right]. Qed.
  Lemma ok_ov {A} (a : A) : ok_or_value (Ok a). Proof. left. now exists a. Qed.
  Lemma phase_loop_ok pr rest : forall i s ph, (31 <= i)%nat -> (i + length rest <= length pr)%nat -> st_ok s ->
    ok_or_value (phase_loop pr i s ph rest).
  Proof.
    induction rest as [|p rest IH]; intros i s ph Hi L S; cbn [phase_loop]; [apply ok_ov|]. cbn [length] in L.
    pose proof (step_ok s p S) as S'. apply bind_ov; [apply phase_at_ok; [lia|apply S']|]. intros a _.
    apply bind_ov; [apply IH; [lia|lia|exact S']|]. intros r _. apply ok_ov.
  Qed.
  Lemma trend_loop_ok pr rest : forall i s a b c, st_ok s -> ok_or_value (trend_loop pr i s a b c rest).
  Proof.
    induction rest as [|p rest IH]; intros i s a b c S; cbn [trend_loop]; [apply ok_ov|].
    pose proof (step_ok s p S) as S'. apply bind_ov.
    - destruct (int_ok _ (proj2 S')) as [[_ ->]|(_ & d & -> & _)]; [now right|apply ok_ov].
    - intros d _. apply bind_ov; [now apply IH|]. intros r _. apply ok_ov.
  Qed.
  Lemma tm_loop_ok pr pr0 rest : forall i s m, (31 <= i)%nat -> (i + length rest <= length pr)%nat -> st_ok s ->
    ok_or_value (tm_loop pr pr0 i s m rest).
  Proof.
    induction rest as [|p rest IH]; intros i s m Hi L S; cbn [tm_loop]; [apply ok_ov|]. cbn [length] in L.
    pose proof (step_ok s p S) as S'. apply bind_ov.
    - unfold tm_step. apply bind_ov; [apply phase_at_ok; [lia|apply S']|]. intros ph _. apply bind_ov.
      + destruct (int_ok _ (proj2 S')) as [[_ ->]|(_ & d & -> & _)]; [now right|apply ok_ov].
      + intros d _. destruct (mode_at _ _ _ _ _ _ _ _ _ _). apply ok_ov.
    - intros a _. apply bind_ov; [apply IH; [lia|lia|exact S']|]. intros r _. apply ok_ov.
  Qed.
  Lemma zeroed_length n (l : list float) : length (zeroed n l) = length l.
  Proof. unfold zeroed. apply set_slice_length. change 0%Z with (Z.of_nat 0). rewrite !slice_lo_nat. lia. Qed.
  Lemma phases_ok l : ok_or_value (phase_loop (zeroed 31 l) 31 ht0 v0 (skipn 31 l)).
  Proof.
    destruct (Nat.le_gt_cases (length l) 31) as [H|H].
    - rewrite skipn_all2 by exact H. apply ok_ov.
    - apply phase_loop_ok; [lia| |exact ht0_ok]. rewrite zeroed_length, skipn_length. lia.
  Qed.
  Lemma ov_dcphase inp : ok_or_value (ht_dcphase inp).
  Proof.
    unfold ht_dcphase, apply_. apply bind_ov; [apply bind_ov|]; try (intros; apply ok_ov). unfold dcphasize.
    apply bind_ov; [apply phases_ok|]. intros; apply ok_ov.
  Qed.
  Lemma ov_sine inp : ok_or_value (ht_sine inp).
  Proof.
    unfold ht_sine, applymulti_. apply bind_ov; [apply bind_ov|].
    - unfold sinize. apply bind_ov; [apply phases_ok|]. intros; apply ok_ov.
    - intros; apply ok_ov.
    - intros ls _. destruct ls as [|a [|b [|]]]; first [apply ok_ov|now right].
  Qed.
  Lemma ov_trendline inp : ok_or_value (ht_trendline inp).
  Proof.
    unfold ht_trendline, apply_. apply bind_ov; [apply bind_ov|]; try (intros; apply ok_ov). cbn [map]. unfold trendlinize.
    apply bind_ov; [apply trend_loop_ok; exact ht0_ok|]. intros; apply ok_ov.
  Qed.
  Lemma ov_trendmode inp : ok_or_value (ht_trendmode inp).
  Proof.
    unfold ht_trendmode, apply_. apply bind_ov; [apply bind_ov|]; try (intros; apply ok_ov). cbn [map]. unfold trendmodize.
    set (l := slice_from _ _). apply bind_ov; [|intros; apply ok_ov].
    destruct (Nat.le_gt_cases (length l) 31) as [H|H].
    - rewrite skipn_all2 by exact H. apply ok_ov.
    - apply tm_loop_ok; [lia| |exact ht0_ok]. rewrite zeroed_length, skipn_length. lia.
  Qed.

  (** ** whole lines *)
  Lemma Forall_set_slice {A} (Q : A -> Prop) l i j v : Forall Q l -> Q v -> Forall Q (set_slice l i j v).
  Proof.
    intros H Hv. unfold set_slice. apply Forall_app. split; [now apply Forall_firstn|]. apply Forall_app.
    split; [now apply Forall_repeat|now apply Forall_skipn].
  Qed.
  Lemma every_period (Q : float -> Prop) (a : line float) n r v : every Q a -> Q v -> every Q (period_ a n r (Some v)).
  Proof.
    intros H Hv. unfold every, period_. destruct (_ =? 0)%Z; [exact H|]. cbn [lser]. destruct (_ <? _)%Z; now apply Forall_set_slice.
  Qed.
  Lemma Forall_buffered (Q : float -> Prop) n l r : Q v0 -> Forall Q r -> Forall Q (buffered n l r).
  Proof. intros H Hr. unfold buffered. apply Forall_app. split; [now apply Forall_repeat|exact Hr]. Qed.
  Lemma every_apply (Q : float -> Prop) G (a y : line float) args :
    Q vnan -> (forall l ls r, G l ls = Ok r -> Forall Q r) -> apply_ G a args = Ok y -> every Q y.
  Proof.
    intros Hn H E. unfold apply_ in E. destruct (G _ _) as [r|] eqn:R; [|discriminate]. cbn [bind] in E. injection E as <-.
    unfold every, clone. cbn [lser]. apply Forall_set_from; [now apply every_nans|]. exact (H _ _ _ R).
  Qed.
  Lemma dcperiod_float inp : exists y, ht_dcperiod inp = Ok y /\ every (nan_or_within 0 50) y.
  Proof.
    assert (N : nan_or_within 0 50 (vnan : float)) by now left.
    unfold ht_dcperiod. destruct (apply_ _ _ _) as [d|] eqn:E; [|discriminate E]. cbn [bind]. eexists. split; [reflexivity|].
    apply every_period; [|exact N]. refine (every_apply _ _ _ _ _ N _ E). intros l ls r R. injection R as <-.
    unfold dcperiodize. apply Forall_buffered; [exact zero_in|]. apply dcp_ok. exact ht0_ok.
  Qed.
  Definition flag (x : float) : Prop := missing x \/ x = v0 \/ x = v1.
  Lemma tm_flags pr pr0 rest : forall i s m r, tm_loop pr pr0 i s m rest = Ok r -> Forall flag r.
  Proof.
    induction rest as [|p rest IH]; intros i s m r E; cbn [tm_loop] in E; [injection E as <-; constructor|].
    destruct (tm_step _ _ _ _ _ _) as [[m' f]|] eqn:S; [|discriminate]. cbn [bind fst snd] in E.
    destruct (tm_loop _ _ _ _ _ _) as [q|] eqn:L; [|discriminate]. cbn [bind] in E. injection E as <-.
    constructor; [|exact (IH _ _ _ _ L)]. unfold tm_step in S. destruct (phase_at _ _ _ _); [|discriminate]. cbn [bind] in S.
    destruct (pyint _); [|discriminate]. cbn [bind] in S. unfold mode_at in S.
    repeat match type of S with context [if ?c then _ else _] => destruct c end; injection S as <- <-; right; auto.
  Qed.
  Lemma trendmode_float inp y : ht_trendmode inp = Ok y -> every flag y.
  Proof.
    assert (N : flag vnan) by now left.
    unfold ht_trendmode. destruct (apply_ _ _ _) as [d|] eqn:E; [|discriminate]. cbn [bind]. intro H. injection H as <-.
    apply every_period; [|exact N]. refine (every_apply _ _ _ _ _ N _ E). intros l ls r R. destruct ls as [|q ls]; [discriminate|].
    unfold trendmodize in R. destruct (tm_loop _ _ _ _ _ _) as [x|] eqn:L; [|discriminate]. cbn [bind] in R. injection R as <-.
    apply Forall_buffered; [right; now left|]. exact (tm_flags _ _ _ _ _ _ _ L).
  Qed.
  Lemma bars_used l : Forall (fun sp =>
      (missing sp /\ pyint (vadd sp (vofQ (5 # 10))) = Raise ValueError) \/
      (within 0 50 sp /\ exists d, pyint (vadd sp (vofQ (5 # 10))) = Ok d /\ (0 <= d <= 50)%Z /\
         IZR d <= val (vadd sp (vofQ (5 # 10))) < IZR d + 1)) (dcp_loop ht0 l).
  Proof. eapply Forall_impl; [|exact (dcp_ok l ht0 ht0_ok)]. intros sp H. now apply int_ok. Qed.
End HT.
