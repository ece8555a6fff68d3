(** The directional indicators and cmo in float64, second part: the lines. *)
From Coq Require Import ZArith Reals List Bool Lia Lra Psatz.
From Flocq Require Import Core IEEE754.BinarySingleNaN.
From Verif Require Import Num Series Line Spec LineFacts OpFacts ScanFacts RLineFacts RFacts RangeFacts IndMA IndBasic IndRange IndOsc Float64 FloatSpec FloatFacts
  FloatAvg PropFloatFacts FilterFloat EmaFloat RunSpec DirFloat.
Import ListNotations.
Set Implicit Arguments.
Local Open Scope R_scope.

Lemma notnan_keep (l : list float) : Forall finite l -> notnan l = l.
Proof.
  induction 1 as [|x l H _ IH]; [reflexivity|]. cbn [notnan filter]. rewrite (proj1 (finite_clean H)). cbn [negb]. f_equal. exact IH.
Qed.
Lemma map_finite (f : nat -> float) k w : (forall i, (k <= i < k + w)%nat -> finite (f i)) -> Forall finite (map f (seq k w)).
Proof. intro H. apply Forall_forall. intros x Hx. apply in_map_iff in Hx. destruct Hx as (i & <- & Hi). apply in_seq in Hi. apply H. lia. Qed.
Lemma map_under (f g : nat -> float) k w : (forall i, (k <= i < k + w)%nat -> under B900 (f i) (g i)) ->
  Forall2 (under B900) (map f (seq k w)) (map g (seq k w)).
Proof.
  revert k. induction w as [|w IH]; intros k H; [constructor|]. cbn [seq map]. constructor; [apply H; lia|]. apply IH. intros i Hi. apply H. lia.
Qed.

Definition dm_first (early : bool) (p k : nat) : nat := if early then (k + p - 2)%nat else (k + p - 1)%nat.
Definition dm_width (early : bool) (p : nat) : nat := if early then (p - 1)%nat else p.

Section Smacc.
  Variables (p n k : nat) (early : bool).
  Hypothesis Hp : (1 <= p)%nat.
  Hypothesis Hp40 : (Z.of_nat p <= 2 ^ 40)%Z.
  Hypothesis Hk : (1 <= k)%nat.
  Let q := dm_first early p k.
  Hypothesis Hq : (q < n)%nat.

  Lemma seed_sum (a : line float) f : delivers a n k f -> (forall i, (k <= i < n)%nat -> finite (f i)) ->
    ser_sum (slice (lser a) (Z.of_nat (S q) - Z.of_nat p) (Z.of_nat (S q))) = vsum (map f (seq k (dm_width early p))).
  Proof.
    intros [Ha Hnan] Ff. unfold q, dm_first, dm_width in *. destruct early.
    - replace (Z.of_nat (S (k + p - 2)) - Z.of_nat p)%Z with (Z.of_nat (k - 1)) by lia. rewrite slice_nat.
      replace (S (k + p - 2) - (k - 1))%nat with (S (p - 1)) by lia.
      assert (Hs : skipn (k - 1) (lser a) = vnan :: skipn k (lser a)).
      { assert (X := Hnan (k - 1)%nat ltac:(lia) ltac:(lia)). rewrite (skipn_cons _ _ X). do 2 f_equal. lia. }
      rewrite Hs, firstn_cons. rewrite (@feeds_skipn _ a n k f k Ha) by lia. rewrite firstn_map, firstn_seq.
      replace (Nat.min (p - 1) (n - k)) with (p - 1)%nat by lia.
      unfold ser_sum. change (notnan (vnan :: map f (seq k (p - 1)))) with (notnan (map f (seq k (p - 1)))).
      rewrite notnan_keep; [reflexivity|]. apply map_finite. intros i Hi. apply Ff. lia.
    - replace (Z.of_nat (S (k + p - 1)) - Z.of_nat p)%Z with (Z.of_nat k) by lia. rewrite slice_nat.
      replace (S (k + p - 1) - k)%nat with p by lia. rewrite (@feeds_skipn _ a n k f k Ha) by lia. rewrite firstn_map, firstn_seq.
      replace (Nat.min p (n - k)) with p by lia. unfold ser_sum.
      rewrite notnan_keep; [reflexivity|]. apply map_finite. intros i Hi. apply Ff. lia.
  Qed.
  Lemma smacc_float (a : line float) f : delivers a n k f -> (forall i, (k <= i < n)%nat -> finite (f i)) ->
    finite (vsum (map f (seq k (dm_width early p)))) ->
    exists y, smacc p early SEED_SUM a = Ok y /\
      delivers y n q (fun i => accf p (vsum (map f (seq k (dm_width early p)))) f q (i - q)).
  Proof.
    intros Da Ff Fs. pose proof (delivers_feeds Da) as Ha. unfold smacc.
    destruct (@ewm_call_ok _ _ a n k f (Z.of_nat p) 0 (if early then 1 else 0) 1 SEED_SUM
      (fun t => Ok (lfilter v1 (Some (vdiv (vofZ (Z.of_nat p - 1)) (vofZ (Z.of_nat p)))) t))
      (Z.of_nat p) q q
      (fun i => accf p (vsum (map f (seq k (dm_width early p)))) f q (i - q))) as (y & E & Hmp & Hs); auto.
    - simpl. destruct (Z.ltb_spec (Z.of_nat p) 1); [lia|]. now rewrite andb_false_r.
    - unfold q, dm_first. destruct early; lia.
    - unfold q, dm_first. destruct early; lia.
    - unfold q, dm_first. destruct early; lia.
    - unfold seed_of. rewrite (@seed_sum a f Da Ff). rewrite lfilter_acc; try assumption.
      + f_equal. replace (n - q)%nat with (S (n - S q)) by lia. reflexivity.
      + now apply finite_clean.
      + intros i Hi. apply finite_clean, Ff. unfold q, dm_first in *. destruct early; lia.
    - exists y. split; [exact E|]. eapply line_delivers_eq; eauto.
  Qed.
  (** of two lines, one under the other, the accumulations are so too *)
  Lemma smacc_under (a b : line float) f g : delivers a n k f -> delivers b n k g ->
    (forall i, (k <= i < n)%nat -> under B900 (f i) (g i)) ->
    exists y z F G, smacc p early SEED_SUM a = Ok y /\ smacc p early SEED_SUM b = Ok z /\
      delivers y n q F /\ delivers z n q G /\ (forall i, (q <= i < n)%nat -> under B1000 (F i) (G i)).
  Proof.
    intros Da Db H. assert (W : (k + dm_width early p <= n)%nat) by (unfold q, dm_first, dm_width in *; destruct early; lia).
    assert (S : under (bpow radix2 940) (vsum (map f (seq k (dm_width early p)))) (vsum (map g (seq k (dm_width early p))))).
    { pose proof (@map_under f g k (dm_width early p)) as M. specialize (M ltac:(intros i Hi; apply H; lia)).
      assert (L : (Z.of_nat (dm_width early p) <= 2 ^ 40)%Z) by (unfold dm_width; destruct early; lia).
      apply vsum_under in M; rewrite map_length, seq_length in *; [|exact L]. eapply under_weak; [|exact M]. now apply n940. }
    destruct (@smacc_float a f Da) as (y & Ey & Dy); [intros i Hi; apply (H i Hi)|apply S|].
    destruct (@smacc_float b g Db) as (z & Ez & Dz); [intros i Hi; apply (H i Hi)|apply S|].
    exists y, z. eexists _, _. split; [exact Ey|]. split; [exact Ez|]. split; [exact Dy|]. split; [exact Dz|].
    intros i Hi. cbv beta. eapply (@acc_under p Hp Hp40 _ _ f g q n S).
    - intros j Hj. apply H. unfold q, dm_first in *. destruct early; lia.
    - lia.
  Qed.
End Smacc.

(** ** The movements and the true range of one bar *)
Definition tame (x : float) : Prop := within (- bpow radix2 899) (bpow radix2 899) x.
Lemma double899 : bpow radix2 899 + bpow radix2 899 = B900.
Proof. change 900%Z with (1 + 899)%Z. rewrite bpow_plus. change (bpow radix2 1) with 2. lra. Qed.
Lemma tame_sub x y : tame x -> tame y -> finite (vsub x y) /\ val (vsub x y) = rn (val x - val y) /\ - B900 <= val (vsub x y) <= B900.
Proof.
  intros [Fx Vx] [Fy Vy]. destruct big1000 as (b & Fb & Vb). pose proof double899 as D.
  pose proof (bpow_le radix2 900 1000 ltac:(lia)) as L.
  destruct (@sub_in (opp b) b x y Fx Fy) as (E & F & V); [rewrite val_opp, Vb; lra|].
  repeat split; auto; rewrite E.
  - apply rn_ge; [apply generic_format_opp, fmt_900|lra].
  - apply rn_le_fmt; [apply fmt_900|lra].
Qed.
Lemma mul_bool (x : float) b : finite x -> finite (vmul x (vofbool b)) /\ val (vmul x (vofbool b)) = if b then val x else 0.
Proof.
  intro Fx. destruct val1 as [F1 V1]. assert (F0 : finite (v0 : float)) by reflexivity.
  assert (A : forall u : float, finite u -> u = vofZ 0 \/ u = vofZ 1 -> finite (vmul x u) /\ val (vmul x u) = rn (val x * val u)).
  { intros u Fu Hu. destruct (Rle_dec 0 (val x)) as [P|P].
    - destruct (@mul_in (vofZ 0) x x u Fx Fu) as (E & F & _); [|auto].
      destruct Hu as [->| ->]; rewrite ?V1, ?val0; lra.
    - destruct (@mul_in x (vofZ 0) x u Fx Fu) as (E & F & _); [|auto].
      destruct Hu as [->| ->]; rewrite ?V1, ?val0; lra. }
  destruct b; cbn [vofbool].
  - destruct (A v1 F1 (or_intror eq_refl)) as [F E]. split; [exact F|]. rewrite E. change (val v1) with (val (vofZ 1)). rewrite V1, Rmult_1_r. apply rn_fmt, fmt_val.
  - destruct (A v0 F0 (or_introl eq_refl)) as [F E]. split; [exact F|]. rewrite E. change (val v0) with 0. rewrite Rmult_0_r. apply rn_0.
Qed.
Lemma clip_lo_val t x : finite t -> finite x -> finite (clip_lo t x) /\ val (clip_lo t x) = Rmax (val t) (val x).
Proof.
  intros Ft Fx. unfold clip_lo. rewrite (proj1 (finite_clean Fx)). destruct (vleb t x) eqn:E.
  - apply leb_iff in E; auto. split; [exact Fx|]. now rewrite Rmax_right.
  - split; [exact Ft|]. rewrite Rmax_left; [reflexivity|]. destruct (Rle_dec (val t) (val x)) as [L|L]; [|lra].
    apply leb_iff in L; auto. congruence.
Qed.
Lemma clip_hi_val t x : finite t -> finite x -> finite (clip_hi t x) /\ val (clip_hi t x) = Rmin (val t) (val x).
Proof.
  intros Ft Fx. unfold clip_hi. rewrite (proj1 (finite_clean Fx)). destruct (vleb x t) eqn:E.
  - apply leb_iff in E; auto. split; [exact Fx|]. now rewrite Rmin_right.
  - split; [exact Ft|]. rewrite Rmin_left; [reflexivity|]. destruct (Rle_dec (val x) (val t)) as [L|L]; [|lra].
    apply leb_iff in L; auto. congruence.
Qed.
Lemma tame_clip_lo t x : tame t -> tame x -> tame (clip_lo t x).
Proof. intros [Ft Vt] [Fx Vx]. destruct (clip_lo_val Ft Fx) as [F E]. split; [exact F|]. rewrite E. unfold Rmax. destruct (Rle_dec _ _); lra. Qed.
Lemma tame_clip_hi t x : tame t -> tame x -> tame (clip_hi t x).
Proof. intros [Ft Vt] [Fx Vx]. destruct (clip_hi_val Ft Fx) as [F E]. split; [exact F|]. rewrite E. unfold Rmin. destruct (Rle_dec _ _); lra. Qed.
(** one price and its predecessor: whatever lies inside the true range before rounding does after *)
Lemma move_under (x y top bot : float) b : tame x -> tame y -> tame top -> tame bot ->
  0 <= val top - val bot -> val x - val y <= val top - val bot ->
  under B900 (vmul (clip_lo v0 (vsub x y)) (vofbool b)) (vsub top bot).
Proof.
  intros Tx Ty Tt Tb P L. destruct (tame_sub Tx Ty) as (F1 & E1 & _). destruct (tame_sub Tt Tb) as (F2 & E2 & V2).
  assert (F0 : finite (v0 : float)) by reflexivity. destruct (@clip_lo_val v0 (vsub x y) F0 F1) as [F3 E3]. destruct (mul_bool b F3) as [F4 E4].
  change (val v0) with 0 in E3. assert (0 <= rn (val top - val bot)) by now apply rn_nonneg.
  assert (rn (val x - val y) <= rn (val top - val bot)) by now apply rn_le.
  split; [exact F4|]. split; [exact F2|]. split; [|lra]. rewrite E4, E3, E1, E2. unfold Rmax. destruct b; [|lra]. destruct (Rle_dec _ _); lra.
Qed.

Section Dir.
  Variables (h l c : line float) (n k lb p : nat) (xh xl xc : nat -> float) (early : bool).
  Hypothesis Hh : feeds h n k xh.
  Hypothesis Hl : feeds l n k xl.
  Hypothesis Hc : feeds c n k xc.
  Hypothesis Hlb : (1 <= lb)%nat.
  Hypothesis Hp : (1 <= p)%nat.
  Hypothesis Hp40 : (Z.of_nat p <= 2 ^ 40)%Z.
  Hypothesis Hn : (dm_first early p (k + lb) < n)%nat.
  Hypothesis Ht : forall i, (k <= i < n)%nat -> tame (xh i) /\ tame (xl i) /\ tame (xc i).
  Hypothesis Hbar : forall i, (k <= i < n)%nat -> val (xl i) <= val (xc i) <= val (xh i).
  Let q := dm_first early p (k + lb).
  Let sm := smacc p early SEED_SUM : line float -> res (line float).

  Let up i : float := vsub (xh i) (xh (i - lb)%nat).
  Let dn i : float := vsub (xl (i - lb)%nat) (xl i).
  Let tr i : float := vsub (clip_lo (xh i) (xc (i - lb)%nat)) (clip_hi (xl i) (xc (i - lb)%nat)).
  Lemma up_del : delivers (upmove lb h) n (k + lb) up.
  Proof. unfold upmove. apply diff_delivers; [intros []; reflexivity|exact Hh]. Qed.
  Lemma dn_del : delivers (downmove lb l) n (k + lb) dn.
  Proof.
    unfold downmove. eapply del_ext; [| |eapply binop_delivers; [apply delivers_feeds; apply at_ago_delivers; [exact Hl|exact Hlb]|exact Hl]]; [lia|]. reflexivity.
  Qed.
  Lemma pdm_del : delivers (pdm1 lb h l) n (k + lb) (fun i => vmul (clip_lo v0 (up i)) (vofbool (vltb (dn i) (up i)))).
  Proof.
    unfold pdm1. cbv zeta. assert (U := delivers_feeds up_del). assert (D := delivers_feeds dn_del).
    eapply del_ext; [| |eapply mul_b_delivers;
      [eapply delivers_feeds, lclip_lo_delivers; exact U
      |eapply bdelivers_bfeeds, cmpop_bdelivers; [exact U|exact D]]]; [lia|]. reflexivity.
  Qed.
  Lemma mdm_del : delivers (mdm1 lb h l) n (k + lb) (fun i => vmul (clip_lo v0 (dn i)) (vofbool (vltb (up i) (dn i)))).
  Proof.
    unfold mdm1. cbv zeta. assert (U := delivers_feeds up_del). assert (D := delivers_feeds dn_del).
    eapply del_ext; [| |eapply mul_b_delivers;
      [eapply delivers_feeds, lclip_lo_delivers; exact D
      |eapply bdelivers_bfeeds, cmpop_bdelivers; [exact D|exact U]]]; [lia|]. reflexivity.
  Qed.
  Lemma tr_del : delivers (truerange lb h l c) n (k + lb) tr.
  Proof.
    unfold truerange, lclip_lo_l, lclip_hi_l. pose proof (delivers_feeds (at_ago_delivers Hc Hlb)) as D1.
    eapply del_ext; [| |apply binop_delivers; apply delivers_feeds; eapply stdop2_delivers; try eassumption; cbv zeta; apply map2_map_seq]; [lia|].
    reflexivity.
  Qed.
  Lemma bars_under i : (k + lb <= i < n)%nat ->
    under B900 (vmul (clip_lo v0 (up i)) (vofbool (vltb (dn i) (up i)))) (tr i) /\
    under B900 (vmul (clip_lo v0 (dn i)) (vofbool (vltb (up i) (dn i)))) (tr i).
  Proof.
    intro Hi. destruct (Ht (i := i)) as (Th & Tl & Tc); [lia|]. destruct (Ht (i := (i - lb)%nat)) as (Th1 & Tl1 & Tc1); [lia|].
    pose proof (Hbar (i := i) ltac:(lia)) as B. pose proof (Hbar (i := (i - lb)%nat) ltac:(lia)) as B1.
    destruct (clip_lo_val (proj1 Th) (proj1 Tc1)) as [_ E1]. destruct (clip_hi_val (proj1 Tl) (proj1 Tc1)) as [_ E2].
    pose proof (Rmax_l (val (xh i)) (val (xc (i - lb)%nat))). pose proof (Rmax_r (val (xh i)) (val (xc (i - lb)%nat))).
    pose proof (Rmin_l (val (xl i)) (val (xc (i - lb)%nat))). pose proof (Rmin_r (val (xl i)) (val (xc (i - lb)%nat))).
    unfold up, dn, tr. split; apply move_under; auto using tame_clip_lo, tame_clip_hi; rewrite E1, E2; lra.
  Qed.

  Definition pct_bound : R := 100 + bpow radix2 (-46).
  (** the quotient of the two accumulations *)
  Lemma pct_under x t : under B1000 x t ->
    nan_or_within 0 pct_bound (vdiv (vmul (vofZ 100) x) t) /\ (val t = 0 -> missing (vdiv (vmul (vofZ 100) x) t)) /\
    (0 < val t -> within 0 pct_bound (vdiv (vmul (vofZ 100) x) t)).
  Proof.
    intros (Fx & Ft & L & U).
    assert (A : val t = 0 -> missing (vdiv (vmul (vofZ 100) x) t)).
    { intro Z. apply zero_over_zero; auto; [apply val100|lra]. }
    assert (B : 0 < val t -> within 0 pct_bound (vdiv (vmul (vofZ 100) x) t)) by (intro P; apply pct_in; auto).
    split; [|auto]. destruct (Rle_lt_or_eq_dec 0 (val t) ltac:(lra)) as [P|P]; [right; auto|left; auto].
  Qed.

  Lemma di_float : exists pd md pf mf,
    plus_di sm lb h l c = Ok pd /\ minus_di sm lb h l c = Ok md /\ di sm lb h l c = Ok (pd, md) /\
    delivers pd n (S q) pf /\ delivers md n (S q) mf /\
    forall i, (S q <= i < n)%nat ->
      (missing (pf i) /\ missing (mf i)) \/ (within 0 pct_bound (pf i) /\ within 0 pct_bound (mf i)).
  Proof.
    assert (K : (1 <= k + lb)%nat) by lia.
    destruct (@smacc_under p n (k + lb) early Hp Hp40 K Hn _ _ _ _ pdm_del tr_del) as (P & T & fP & fT & EP & ET & DP & DT & U1).
    { intros i Hi. now apply bars_under. }
    destruct (@smacc_under p n (k + lb) early Hp Hp40 K Hn _ _ _ _ mdm_del tr_del) as (Q & T' & fQ & fT' & EQ & ET' & DQ & DT' & U2).
    { intros i Hi. now apply bars_under. }
    fold q in DP, DT, DQ, DT', U1, U2. assert (T' = T) by congruence. subst T'.
    set (trp := mkLine (lmp T + 1) (lser T)).
    assert (Ftr : feeds trp n (S q) fT).
    { destruct DT as [(M & L & F) _]. split; [cbn [lmp trp]; lia|]. split; [exact L|]. intros i Hi. apply F. lia. }
    assert (Same : forall i, (q <= i < n)%nat -> fT' i = fT i).
    { intros i Hi. destruct DT as [(_ & _ & F) _], DT' as [(_ & _ & F') _]. specialize (F i Hi). specialize (F' i Hi). congruence. }
    exists (ldiv (rbinop_s vmul (vofZ 100) P) trp), (ldiv (rbinop_s vmul (vofZ 100) Q) trp),
           (fun i => vdiv (vmul (vofZ 100) (fP i)) (fT i)), (fun i => vdiv (vmul (vofZ 100) (fQ i)) (fT i)).
    unfold plus_di, minus_di, di, dm, plus_dm, minus_dm, di_range. fold sm in EP, EQ, ET. rewrite EP, EQ, ET. cbn [bind fst snd].
    do 3 (split; [reflexivity|]).
    split; [eapply del_ext; [| |apply binop_delivers; [eapply delivers_feeds, rbinop_s_delivers, delivers_feeds; exact DP|exact Ftr]]; [lia|reflexivity]|].
    split; [eapply del_ext; [| |apply binop_delivers; [eapply delivers_feeds, rbinop_s_delivers, delivers_feeds; exact DQ|exact Ftr]]; [lia|reflexivity]|].
    intros i Hi. destruct (pct_under (U1 i ltac:(lia))) as (_ & Z1 & P1).
    pose proof (U2 i ltac:(lia)) as U2i. rewrite Same in U2i by lia. destruct (pct_under U2i) as (_ & Z2 & P2).
    destruct U2i as (_ & _ & L & _).
    destruct (Rle_lt_or_eq_dec 0 (val (fT i)) ltac:(lra)) as [Pt|Pt]; [right|left]; auto.
  Qed.

  Lemma dx_pt x y : within 0 pct_bound x -> within 0 pct_bound y ->
    nan_or_within 0 pct_bound (vdiv (vmul (vofZ 100) (vabs (vsub x y))) (vadd x y)).
  Proof.
    intros [Fx Vx] [Fy Vy]. destruct big1000 as (b & Fb & Vb).
    assert (G : 2 * pct_bound <= B1000).
    { unfold pct_bound. pose proof (bpow_le radix2 (-46) 0 ltac:(lia)) as L0. change (bpow radix2 0) with 1 in L0.
      pose proof (bpow_le radix2 8 1000 ltac:(lia)) as L8. change (bpow radix2 8) with 256 in L8. lra. }
    destruct (@add_in (vofZ 0) b x y Fx Fy) as (Ea & Fa & Va); [rewrite val0, Vb; lra|].
    destruct (@sub_in (opp b) b x y Fx Fy) as (Es & Fs & Vs); [rewrite val_opp, Vb; lra|].
    rewrite val0, Vb in Va.
    assert (A : finite (vabs (vsub x y)) /\ val (vabs (vsub x y)) = Rabs (val (vsub x y))).
    { split; [|apply val_abs]. unfold finite. cbn [vabs NumF]. now rewrite is_finite_Babs. }
    destruct A as [Fb' Eb]. apply pct_under. split; [exact Fb'|]. split; [exact Fa|]. split; [|lra].
    rewrite Eb. split; [apply Rabs_pos|]. rewrite Es, Ea. apply Rabs_le.
    rewrite <- rn_opp. split; apply rn_le; lra.
  Qed.
  Lemma dx_float : exists y f, dx sm lb h l c = Ok y /\ delivers y n (S q) f /\
    forall i, (S q <= i < n)%nat -> nan_or_within 0 pct_bound (f i).
  Proof.
    destruct di_float as (pd & md & pf & mf & _ & _ & E & Dp & Dm & W).
    exists (ldiv (rbinop_s vmul (vofZ 100) (labs (lsub pd md))) (ladd pd md)),
           (fun i => vdiv (vmul (vofZ 100) (vabs (vsub (pf i) (mf i)))) (vadd (pf i) (mf i))).
    split; [unfold dx; now rewrite E|]. split.
    - eapply del_ext; [| |eapply binop_delivers;
        [eapply delivers_feeds, rbinop_s_delivers, delivers_feeds, mapop_delivers, delivers_feeds, binop_delivers;
           eapply delivers_feeds; [exact Dp|exact Dm]
        |eapply delivers_feeds, binop_delivers; eapply delivers_feeds; [exact Dp|exact Dm]]]; [lia|reflexivity].
    - intros i Hi. destruct (W i Hi) as [[M1 M2]|[W1 W2]]; [|now apply dx_pt].
      left. destruct (pf i); try discriminate M1. destruct (mf i); try discriminate M2. reflexivity.
  Qed.
  Lemma adx_float ma w y : keeps_nonneg ma -> (1 <= w)%nat -> adx ma w sm lb h l c = Ok y -> every nonneg y.
  Proof.
    intros K Hw E. destruct dx_float as (d & f & Ed & Dd & W). unfold adx in E. rewrite Ed in E. cbn [bind] in E.
    refine (K w d y Hw _ E). eapply delivers_every; [exact Dd|exact I|]. intros i Hi.
    destruct (W i Hi) as [M|[F V]]; [destruct (f i); try discriminate M; exact I|]. apply finite_nonneg; [exact F|lra].
  Qed.
End Dir.
