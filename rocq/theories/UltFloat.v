(** The ultimate oscillator in float64. *)
From Coq Require Import ZArith Reals List Bool Lia Lra Psatz.
From Flocq Require Import Core IEEE754.BinarySingleNaN.
From Verif Require Import Num Series Line Spec LineFacts OpFacts ScanFacts RLineFacts RFacts RangeFacts IndMA IndBasic IndRange IndOsc Float64 FloatSpec FloatFacts
  FloatAvg PropFloatFacts FilterFloat EmaFloat Running RunSpec RunFacts RunMean RunUlt DirFloat DirFloat2.
Import ListNotations.
Set Implicit Arguments.
Local Open Scope R_scope.

Lemma ultosc_run_exact p1 p2 p3 f1 f2 f3 (h l c : line (ext R)) : (1 <= p1)%nat -> (1 <= p2)%nat -> (1 <= p3)%nat ->
  ultosc_run p1 p2 p3 f1 f2 f3 h l c = ultosc p1 p2 p3 f1 f2 f3 h l c.
Proof. intros. unfold ultosc_run, ultosc. now rewrite !sumn_run_exact by assumption. Qed.

(** ** Bar by bar *)
Lemma ratio_under m (x t : float) : under m x t -> nan_or_within 0 1 (vdiv x t).
Proof.
  intros (Fx & Ft & L & _). destruct (Rle_lt_or_eq_dec 0 (val t) ltac:(lra)) as [P|P].
  - right. destruct val1 as [F1 V1]. destruct (@div_in (vofZ 0) (vofZ 1) x t Fx ltac:(lra)) as (_ & F & V).
    + rewrite val0. rewrite V1. split.
      * apply Rmult_le_reg_r with (val t); [exact P|]. unfold Rdiv. rewrite Rmult_assoc, Rinv_l by lra. lra.
      * apply Rmult_le_reg_r with (val t); [exact P|]. unfold Rdiv. rewrite Rmult_assoc, Rinv_l by lra. lra.
    + split; [exact F|]. rewrite val0 in V. rewrite V1 in V. exact V.
  - left. apply zero_div_zero; auto; lra.
Qed.
Lemma miss_mul (w x : float) : missing x -> missing (vmul w x).
Proof. destruct x; try discriminate. intros _. destruct w; reflexivity. Qed.
Lemma miss_add (x y : float) : missing x \/ missing y -> missing (vadd x y).
Proof. destruct x, y; intros [H|H]; try discriminate H; reflexivity. Qed.
Lemma weighted (w x : float) : within 0 B900 w -> nan_or_within 0 1 x -> missing (vmul w x) \/ under B900 (vmul w x) w.
Proof.
  intros [Fw Vw] [M|[Fx Vx]]; [left; now apply miss_mul|right].
  destruct (@mul_in (vofZ 0) w w x Fw Fx) as (_ & F & V); [rewrite val0; split; nra|]. rewrite val0 in V.
  repeat split; auto; lra.
Qed.
Lemma three (w1 w2 w3 x1 x2 x3 : float) : within 0 B900 w1 -> within 0 B900 w2 -> within 0 B900 w3 ->
  nan_or_within 0 1 x1 -> nan_or_within 0 1 x2 -> nan_or_within 0 1 x3 ->
  nan_or_within 0 (val (vadd (vadd w1 w2) w3)) (vadd (vadd (vmul w1 x1) (vmul w2 x2)) (vmul w3 x3)).
Proof.
  intros W1 W2 W3 X1 X2 X3. destruct (weighted W1 X1) as [M|U1]; [left; apply miss_add; left; apply miss_add; now left|].
  destruct (weighted W2 X2) as [M|U2]; [left; apply miss_add; left; apply miss_add; now right|].
  destruct (weighted W3 X3) as [M|U3]; [left; apply miss_add; now right|]. right.
  assert (F901 : fmt (bpow radix2 901)) by (rewrite <- (Rmult_1_l (bpow radix2 901)); apply (fmt_scaled 1); [reflexivity|lia]).
  assert (F902 : fmt (bpow radix2 902)) by (rewrite <- (Rmult_1_l (bpow radix2 902)); apply (fmt_scaled 1); [reflexivity|lia]).
  assert (D1 : bpow radix2 901 = 2 * B900) by (change 901%Z with (1 + 900)%Z; rewrite bpow_plus; reflexivity).
  assert (D2 : bpow radix2 902 = 2 * bpow radix2 901) by (change 902%Z with (1 + 901)%Z; rewrite bpow_plus; reflexivity).
  pose proof (bpow_ge_0 radix2 900). pose proof (bpow_le radix2 902 1000 ltac:(lia)).
  assert (U12 := under_add U1 U2 (C := bpow radix2 901) ltac:(lra) F901 ltac:(lra)).
  destruct (under_add U12 U3 (C := bpow radix2 902) ltac:(lra) F902 ltac:(lra)) as (F & _ & L & _). split; [exact F|exact L].
Qed.

(** ** The lines *)
Section Ult.
  Variables (h l c : line float) (n k : nat) (xh xl xc : nat -> float).
  Hypothesis Hh : feeds h n k xh.
  Hypothesis Hl : feeds l n k xl.
  Hypothesis Hc : feeds c n k xc.
  Hypothesis Ht : forall i, (k <= i < n)%nat -> tame (xh i) /\ tame (xl i) /\ tame (xc i).
  Hypothesis Hbar : forall i, (k <= i < n)%nat -> val (xl i) <= val (xc i) <= val (xh i).
  Let bp i : float := vsub (xc i) (clip_hi (xl i) (xc (i - 1)%nat)).
  Let tr i : float := vsub (clip_lo (xh i) (xc (i - 1)%nat)) (clip_hi (xl i) (xc (i - 1)%nat)).
  Lemma bp_del : delivers (lsub c (truelow 1 l c)) n (k + 1) bp.
  Proof.
    unfold truelow, lclip_hi_l. pose proof (delivers_feeds (at_ago_delivers Hc (le_n 1))) as D1.
    eapply del_ext; [| |apply binop_delivers; [exact Hc|apply delivers_feeds; eapply stdop2_delivers; try eassumption; cbv zeta; apply map2_map_seq]]; [lia|].
    reflexivity.
  Qed.
  Lemma tr_del' : delivers (truerange 1 h l c) n (k + 1) tr.
  Proof.
    unfold truerange, lclip_lo_l, lclip_hi_l. pose proof (delivers_feeds (at_ago_delivers Hc (le_n 1))) as D1.
    eapply del_ext; [| |apply binop_delivers; apply delivers_feeds; eapply stdop2_delivers; try eassumption; cbv zeta; apply map2_map_seq]; [lia|].
    reflexivity.
  Qed.
  Lemma bar_under i : (k + 1 <= i < n)%nat -> under B900 (bp i) (tr i).
  Proof.
    intro Hi. destruct (Ht (i := i)) as (Th & Tl & Tc); [lia|]. destruct (Ht (i := (i - 1)%nat)) as (_ & _ & Tc1); [lia|].
    pose proof (Hbar (i := i) ltac:(lia)) as B.
    destruct (clip_lo_val (proj1 Th) (proj1 Tc1)) as [_ E1]. destruct (clip_hi_val (proj1 Tl) (proj1 Tc1)) as [_ E2].
    pose proof (Rmax_l (val (xh i)) (val (xc (i - 1)%nat))). pose proof (Rmin_l (val (xl i)) (val (xc (i - 1)%nat))).
    unfold bp, tr. destruct (tame_sub Tc (tame_clip_hi Tl Tc1)) as (F1 & R1 & _).
    destruct (tame_sub (tame_clip_lo Th Tc1) (tame_clip_hi Tl Tc1)) as (F2 & R2 & V2).
    split; [exact F1|]. split; [exact F2|]. split; [|lra]. rewrite R1, R2. split; [apply rn_nonneg|apply rn_le]; rewrite ?E1, E2; lra.
  Qed.
  Lemma av_del p : (1 <= p)%nat -> (Z.of_nat p <= 2 ^ 40)%Z ->
    exists f, delivers (ldiv (sumn p (lsub c (truelow 1 l c))) (sumn p (truerange 1 h l c))) n (k + p) f /\
      forall i, (k + p <= i < n)%nat -> nan_or_within 0 1 (f i).
  Proof.
    intros Hp H40. pose proof tr_del' as Dt.
    pose proof (rolling_delivers win_sum Hp (delivers_feeds bp_del)) as S1. pose proof (rolling_delivers win_sum Hp (delivers_feeds Dt)) as S2.
    pose proof (binop_delivers vdiv (delivers_feeds S1) (delivers_feeds S2)) as D.
    eexists. split; [eapply del_ext; [| |exact D]; [lia|reflexivity]|]. intros i Hi. cbv beta.
    assert (U : Forall2 (under B900) (win bp i p) (win tr i p)).
    { unfold win. assert (G : forall j, In j (seq (S i - p) p) -> under B900 (bp j) (tr j)) by (intros j Hj; apply in_seq in Hj; apply bar_under; lia).
      revert G. generalize (seq (S i - p) p) as js. induction js as [|j js IH]; intro G; cbn [map]; constructor; [apply G; now left|]. apply IH. intros. apply G. now right. }
    assert (Lw : length (win bp i p) = p) by (unfold win; now rewrite map_length, seq_length).
    assert (F1 : Forall finite (win bp i p)) by (clear -U; induction U as [|x t xs ts [F _] _ IH]; constructor; auto).
    assert (F2 : Forall finite (win tr i p)) by (clear -U; induction U as [|x t xs ts (_ & F & _) _ IH]; constructor; auto).
    change (fun i => vsub (clip_lo (xh i) (xc (i - 1)%nat)) (clip_hi (xl i) (xc (i - 1)%nat))) with tr.
    rewrite (guard_finite win_sum F1), (guard_finite win_sum F2). unfold win_sum. eapply ratio_under. apply vsum_under; [exact U|]. now rewrite Lw.
  Qed.
  Lemma ultosc_in p1 p2 p3 (f1 f2 f3 : float) : (1 <= p1)%nat -> (1 <= p2)%nat -> (1 <= p3)%nat ->
    (Z.of_nat p1 <= 2 ^ 40)%Z -> (Z.of_nat p2 <= 2 ^ 40)%Z -> (Z.of_nat p3 <= 2 ^ 40)%Z ->
    let total : float := vadd (vadd f1 f2) f3 in
    let w f : float := vmul f (vdiv (vofZ 100) total) in
    veqb total v0 = false -> within 0 B900 (w f1) -> within 0 B900 (w f2) -> within 0 B900 (w f3) ->
    exists y g, ultosc p1 p2 p3 f1 f2 f3 h l c = Ok y /\ delivers y n (k + Nat.max (Nat.max p1 p2) p3) g /\
      forall i, (k + Nat.max (Nat.max p1 p2) p3 <= i < n)%nat -> nan_or_within 0 (val (vadd (vadd (w f1) (w f2)) (w f3))) (g i).
  Proof.
    intros H1 H2 H3 Z1 Z2 Z3 total w Tz W1 W2 W3. unfold ultosc. cbv zeta. fold total. rewrite Tz.
    destruct (av_del H1 Z1) as (a1 & D1 & A1). destruct (av_del H2 Z2) as (a2 & D2 & A2). destruct (av_del H3 Z3) as (a3 & D3 & A3).
    eexists _, _. split; [reflexivity|]. split.
    - eapply del_ext; [| |eapply binop_delivers; [eapply delivers_feeds, binop_delivers; eapply delivers_feeds, rbinop_s_delivers, delivers_feeds; [exact D1|exact D2]
        |eapply delivers_feeds, rbinop_s_delivers, delivers_feeds; exact D3]]; [lia|reflexivity].
    - intros i Hi. cbv beta. apply three; auto; [apply A1|apply A2|apply A3]; lia.
  Qed.
End Ult.

(** ** The default factors *)
Definition uo4 : float := vofZ 4.
Definition uo2 : float := vofZ 2.
Definition uo1 : float := vofZ 1.
Definition uow (f : float) : float := vmul f (vdiv (vofZ 100) (vadd (vadd uo4 uo2) uo1)).
Definition uo_top : float := vadd (vadd (uow uo4) (uow uo2)) (uow uo1).
Lemma uo_top_val : finite uo_top /\ val uo_top = 100 + bpow radix2 (-46).
Proof.
  assert (E : B2SF uo_top = SpecFloat.S754_finite false (100 * 2 ^ 46 + 1) (-46)) by (vm_compute; reflexivity).
  destruct (@val_SF uo_top false _ _ E) as [F V]. split; [exact F|]. rewrite V. unfold F2R. cbn [Fnum Fexp cond_Zopp].
  change (Z.pos (100 * 2 ^ 46 + 1)) with (100 * 2 ^ 46 + 1)%Z. rewrite plus_IZR, mult_IZR. change (IZR (2 ^ 46)) with (bpow radix2 46).
  rewrite Rmult_plus_distr_r, Rmult_assoc, <- bpow_plus. change (bpow radix2 (46 + -46)) with 1. lra.
Qed.
Lemma uow_check (w : float) : is_finite w && (vleb v0 w && vleb w (vofZ 100)) = true -> within 0 B900 w.
Proof.
  intro Q. apply andb_prop in Q. destruct Q as [F Q]. apply andb_prop in Q. destruct Q as [Q1 Q2].
  destruct (@fofZ_exact 100) as [F100 V100]; [cbn; lia|]. assert (F0 : finite (v0 : float)) by reflexivity.
  apply leb_iff in Q1; auto. apply leb_iff in Q2; auto. change (val v0) with 0 in Q1. rewrite V100 in Q2.
  pose proof (bpow_le radix2 7 900 ltac:(lia)) as L. change (bpow radix2 7) with 128 in L. split; [exact F|lra].
Qed.
Lemma uow_in : within 0 B900 (uow uo4) /\ within 0 B900 (uow uo2) /\ within 0 B900 (uow uo1) /\ veqb (vadd (vadd uo4 uo2) uo1) v0 = false.
Proof. split; [apply uow_check; vm_compute; reflexivity|]. split; [apply uow_check; vm_compute; reflexivity|]. split; [apply uow_check; vm_compute; reflexivity|vm_compute; reflexivity]. Qed.
Lemma ultosc_default (h l c : line float) n k xh xl xc p1 p2 p3 : feeds h n k xh -> feeds l n k xl -> feeds c n k xc ->
  (forall i, (k <= i < n)%nat -> tame (xh i) /\ tame (xl i) /\ tame (xc i) /\ val (xl i) <= val (xc i) <= val (xh i)) ->
  (1 <= p1)%nat -> (1 <= p2)%nat -> (1 <= p3)%nat ->
  (Z.of_nat p1 <= 2 ^ 40)%Z -> (Z.of_nat p2 <= 2 ^ 40)%Z -> (Z.of_nat p3 <= 2 ^ 40)%Z ->
  exists y g, ultosc p1 p2 p3 (vofZ 4) (vofZ 2) (vofZ 1) h l c = Ok y /\ delivers y n (k + Nat.max (Nat.max p1 p2) p3) g /\
    forall i, (k + Nat.max (Nat.max p1 p2) p3 <= i < n)%nat -> nan_or_within 0 (100 + bpow radix2 (-46)) (g i).
Proof.
  intros Hh Hl Hc Hi H1 H2 H3 Z1 Z2 Z3. destruct uow_in as (W1 & W2 & W3 & Tz). rewrite <- (proj2 uo_top_val).
  refine (@ultosc_in h l c n k xh xl xc Hh Hl Hc _ _ p1 p2 p3 uo4 uo2 uo1 H1 H2 H3 Z1 Z2 Z3 Tz W1 W2 W3); intros i I; apply Hi in I; tauto.
Qed.
(** every bar closes at its high, one higher than the bar before *)
Definition steps (n : nat) : line float := raw (map (fun i => vofZ (Z.of_nat i)) (seq 1 n)).
Lemma opt_sf (t : option float) w : option_map (B2SF (prec := prec) (emax := emax)) t = Some (B2SF w) -> t = Some w.
Proof. destruct t as [v|]; [|discriminate]. cbn [option_map]. intro E. f_equal. apply B2SF_inj. congruence. Qed.
Lemma ultosc_above : exists y, ultosc 7 14 28 (vofZ 4) (vofZ 2) (vofZ 1) (steps 29) (steps 29) (steps 29) = Ok y /\
  nth_error (lser y) 28 = Some uo_top.
Proof.
  assert (E : match ultosc 7 14 28 (vofZ 4) (vofZ 2) (vofZ 1) (steps 29) (steps 29) (steps 29) with Ok y => option_map B2SF (nth_error (lser y) 28) | Raise _ => None end
    = Some (B2SF uo_top)) by (vm_compute; reflexivity).
  destruct (ultosc _ _ _ _ _ _ _ _ _) as [y|]; [|discriminate E]. exists y. split; [reflexivity|].
  apply opt_sf. exact E.
Qed.
(** ** Running totals *)
Definition tenths (zs : list Z) : list float := map fdec zs.
Definition uh := tenths [32; 48; 28; 28; 23; 23; 23; 23]%Z.
Definition ul := tenths [10; 24; 14; 18; 23; 23; 23; 23]%Z.
Definition uc := tenths [14; 45; 26; 23; 23; 23; 23; 23]%Z.
Lemma ultosc_run_below : exists y v, ultosc_run 1 2 3 (vofZ 4) (vofZ 2) (vofZ 1) (raw uh) (raw ul) (raw uc) = Ok y /\
  nth_error (lser y) 7 = Some v /\ finite v /\ val v < -242.
Proof.
  set (t := match ultosc_run 1 2 3 (vofZ 4) (vofZ 2) (vofZ 1) (raw uh) (raw ul) (raw uc) with Ok y => nth_error (lser y) 7 | Raise _ => None end).
  assert (E : match t with Some v => is_finite v && vltb v (vofZ (-242)) | None => false end = true) by (vm_compute; reflexivity).
  unfold t in E. destruct (ultosc_run _ _ _ _ _ _ _ _ _) as [y|]; [|discriminate E]. destruct (nth_error (lser y) 7) as [v|] eqn:Ev; [|discriminate E].
  exists y, v. split; [reflexivity|]. split; [exact Ev|]. apply andb_prop in E. destruct E as [F Q]. split; [exact F|].
  destruct (@fofZ_exact (-242)) as [Fz Vz]; [cbn; lia|]. apply ltb_iff in Q; auto. rewrite Vz in Q. exact Q.
Qed.
