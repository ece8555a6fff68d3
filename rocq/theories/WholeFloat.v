(** Sums of multiples of one unit are exact in float64 while they are small. *)
From Coq Require Import ZArith Reals List Bool Lia Lra.
From Flocq Require Import Core IEEE754.BinarySingleNaN.
From Verif Require Import Num Series Line Spec LineFacts ScanFacts IndMA IndBasic IndOsc IndVol Float64 FloatSpec FloatFacts FloatLine FloatAvg
  PropFloatFacts Running RunSpec RunFacts RunFloat RunMean VolSpec VolFacts FlatFloat RSpec WholeSpec.
Import ListNotations.
Set Implicit Arguments.
Local Open Scope R_scope.

Section Unit.
  Variable e : Z.
  Hypothesis U : unit_fits e.
  Lemma room_limit : room e <= limit.
  Proof. apply bpow_le. unfold unit_fits in U. lia. Qed.
  Lemma unit_rn z : Rabs (IZR z * bpow radix2 e) < room e -> rn (IZR z * bpow radix2 e) = IZR z * bpow radix2 e.
  Proof.
    intro H. apply round_generic; [apply valid_rnd_N|]. rewrite fexp_flt. apply generic_format_FLT.
    exists (Float radix2 z e); [reflexivity| |unfold unit_fits in U; cbn; unfold emin, SpecFloat.emin; unfold prec, emax; lia].
    cbn [Fnum]. unfold room in H. rewrite bpow_plus, Rabs_mult, (Rabs_pos_eq (bpow radix2 e)) in H by apply bpow_ge_0.
    apply Rmult_lt_reg_r in H; [|apply bpow_gt_0]. rewrite <- abs_IZR in H. apply lt_IZR. exact H.
  Qed.
  Lemma room_pos : 0 < room e. Proof. apply bpow_gt_0. Qed.

  (** [acc] is exactly [S], a number of units *)
  Definition ex (acc : float) (S : R) : Prop := finite acc /\ val acc = S /\ exists z, S = IZR z * bpow radix2 e.
  Lemma ex_0 : ex v0 0. Proof. split; [reflexivity|]. split; [reflexivity|]. exists 0%Z. ring. Qed.
  Lemma ex_of x : of_unit e x -> ex x (val x).
  Proof. intros (F & z & E). repeat split; eauto. Qed.
  Lemma ex_add acc S x T : ex acc S -> ex x T -> Rabs (S + T) < room e -> ex (vadd acc x) (S + T).
  Proof.
    intros (F & V & z & E) (Fx & Vx & t & Et) B.
    assert (Z : S + T = IZR (z + t) * bpow radix2 e) by (rewrite plus_IZR, E, Et; ring).
    pose proof room_limit. destruct (@add_in (opp (big 1010)) (big 1010) acc x F Fx) as (A & FA & _).
    { rewrite V, Vx. apply big_limit. lra. }
    split; [exact FA|]. split; [|eauto]. rewrite A, V, Vx, Z. apply unit_rn. now rewrite <- Z.
  Qed.
  Lemma ex_sub acc S x T : ex acc S -> ex x T -> Rabs (S - T) < room e -> ex (vsub acc x) (S - T).
  Proof.
    intros (F & V & z & E) (Fx & Vx & t & Et) B.
    assert (Z : S - T = IZR (z - t) * bpow radix2 e) by (rewrite minus_IZR, E, Et; ring).
    pose proof room_limit. destruct (@sub_in (opp (big 1010)) (big 1010) acc x F Fx) as (A & FA & _).
    { rewrite V, Vx. apply big_limit. lra. }
    split; [exact FA|]. split; [|eauto]. rewrite A, V, Vx, Z. apply unit_rn. now rewrite <- Z.
  Qed.
  Lemma fsum_size l : Rabs (fsum l) <= fabs l.
  Proof. induction l as [|x l IH]; cbn; [rewrite Rabs_R0; lra|]. eapply Rle_trans; [apply Rabs_triang|]. lra. Qed.

  (** ** sums taken afresh *)
  Lemma fold_ex l : forall acc S A, ex acc S -> Rabs S <= A -> Forall (of_unit e) l -> A + fabs l < room e ->
    ex (fold_left vadd l acc) (S + fsum l).
  Proof.
    induction l as [|x l IH]; intros acc S A H HA F L; cbn [fold_left fsum fabs] in *.
    - now rewrite Rplus_0_r.
    - replace (S + (val x + fsum l)) with (S + val x + fsum l) by ring. pose proof (fabs_nonneg l). pose proof (Rabs_triang S (val x)).
      apply IH with (A + Rabs (val x)); [|lra|exact (Forall_inv_tail F)|lra].
      apply ex_add; [exact H|exact (ex_of (Forall_inv F))|lra].
  Qed.
  Lemma vsum_ex l : Forall (of_unit e) l -> fabs l < room e -> ex (vsum l) (fsum l).
  Proof.
    intros F L. pose proof (@fold_ex l v0 0 0 ex_0) as H. rewrite Rabs_R0, !Rplus_0_l in H. apply H; auto; lra.
  Qed.

  (** ** running totals *)
  Definition rgood (st : rstate float) (h win : list float) : Prop :=
    r_nobs st = length win /\ (exists pre, h = pre ++ win) /\ r_neg st = fneg win /\
    (fabs h < room e -> ex (r_sum st) (fsum win)).
  Lemma rgood_add st h win x : of_unit e x -> rgood st h win -> rgood (r_add x st) (h ++ [x]) (win ++ [x]).
  Proof.
    intros Ux (Hn & [pre Hp] & Hg & HA). assert (Fx := proj1 Ux).
    unfold r_add. rewrite (finite_num _ Fx). unfold rgood. cbn [r_nobs r_neg r_sum]. rewrite app_length, fneg_app, fneg_cons, fneg_nil, fsum_app, fabs_app.
    cbn [length fsum fabs]. rewrite !Rplus_0_r. split; [lia|]. split; [exists pre; rewrite Hp, <- app_assoc; reflexivity|].
    split; [destruct (vltb x v0); lia|]. intro L. pose proof (Rabs_pos (val x)).
    assert (fabs win <= fabs h) by (rewrite Hp, fabs_app; pose proof (fabs_nonneg pre); lra).
    pose proof (fsum_size win). pose proof (Rabs_triang (fsum win) (val x)).
    apply ex_add; [apply HA; lra|now apply ex_of|lra].
  Qed.
  Lemma rgood_rem st h y win : of_unit e y -> rgood st h (y :: win) -> rgood (r_rem y st) h win.
  Proof.
    intros Uy (Hn & [pre Hp] & Hg & HA). assert (Fy := proj1 Uy).
    unfold r_rem. rewrite (finite_num _ Fy). unfold rgood. cbn [r_nobs r_neg r_sum]. rewrite fneg_cons in Hg. cbn [length] in Hn.
    split; [lia|]. split; [exists (pre ++ [y]); rewrite Hp, <- app_assoc; reflexivity|].
    split; [destruct (vltb y v0); lia|]. intro L. specialize (HA L). cbn [fsum] in HA.
    replace (fsum win) with (val y + fsum win - val y) by ring. apply ex_sub; [exact HA|now apply ex_of|].
    replace (val y + fsum win - val y) with (fsum win) by ring. pose proof (fsum_size win).
    assert (fabs (y :: win) <= fabs h) by (rewrite Hp, fabs_app; pose proof (fabs_nonneg pre); lra).
    cbn [fabs] in *. pose proof (Rabs_pos (val y)). lra.
  Qed.
  Lemma unit_finite l : Forall (of_unit e) l -> Forall finite l.
  Proof. intro H. eapply Forall_impl; [|exact H]. now intros x []. Qed.
  Lemma running_ex (calc : rstate float -> float) w s i v : (1 <= w)%nat -> Forall (of_unit e) s -> (w <= S i)%nat ->
    fabs s < room e -> nth_error (ser_running calc w s) i = Some v ->
    exists st, v = calc st /\ r_nobs st = w /\ r_neg st = fneg (window s i w) /\ ex (r_sum st) (fsum (window s i w)).
  Proof.
    intros Hw Us Hi HM E. assert (Li : (i < length s)%nat).
    { rewrite <- (running_length calc w s). apply nth_error_Some. congruence. }
    assert (Fs := unit_finite Us).
    apply running_hist with (Q := of_unit e) (P := rgood) in E; [|exact Hw|now rewrite prep_id| | |].
    - destruct E as (st & (Hn & _ & Hg & HA) & ->). rewrite prep_id in Hn, HA, Hg by exact Fs.
      rewrite <- window_suffix in Hn, HA, Hg by lia.
      assert (Lw : length (window s i w) = w) by (unfold window; rewrite firstn_length, skipn_length; lia).
      exists st. rewrite Hn, Lw. repeat split; auto; apply HA; pose proof (firstn_fabs (S i) s); lra.
    - split; [reflexivity|]. split; [now exists []|]. split; [reflexivity|]. intros _. apply ex_0.
    - intros; now apply rgood_add.
    - intros; now apply rgood_rem.
  Qed.

  (** ** lines *)
  Section Line.
    Variables (p : nat) (a : line float) (n k : nat) (f : nat -> float).
    Hypothesis Hp : (1 <= p)%nat.
    Hypothesis Ha : feeds a n k f.
    Hypothesis Hf : forall i, (k <= i < n)%nat -> of_unit e (f i).
    Hypothesis HM : fabs (map f (seq k (n - k))) < room e.
    Let s := map f (seq k (n - k)).
    Lemma s_unit : Forall (of_unit e) s.
    Proof. apply Forall_forall. intros x Hx. apply in_map_iff in Hx. destruct Hx as (j & <- & Hj). apply in_seq in Hj. apply Hf. lia. Qed.
    Lemma win_unit i : (k + p - 1 <= i < n)%nat -> Forall (of_unit e) (win f i p).
    Proof. intro Hi. rewrite <- (@window_seen f k n p i Hp Hi). apply Forall_firstn, Forall_skipn, s_unit. Qed.
    Lemma win_room i : (k + p - 1 <= i < n)%nat -> fabs (win f i p) < room e.
    Proof.
      intro Hi. rewrite <- (@window_seen f k n p i Hp Hi). fold s in HM |- *. eapply Rle_lt_trans; [|exact HM]. unfold window.
      eapply Rle_trans; [apply firstn_fabs|]. rewrite <- (firstn_skipn (S (i - k) - p) s) at 2. rewrite fabs_app.
      pose proof (fabs_nonneg (firstn (S (i - k) - p) s)). lra.
    Qed.
    Lemma fresh_sum i : (k + p - 1 <= i < n)%nat -> ex (guard_win win_sum (win f i p)) (fsum (win f i p)).
    Proof.
      intro Hi. pose proof (win_unit Hi) as W. rewrite guard_finite by exact (unit_finite W). apply vsum_ex; [exact W|now apply win_room].
    Qed.
    Lemma run_state (calc : rstate float -> float) i : (k + p - 1 <= i < n)%nat ->
      exists st, nth (i - k) (ser_running calc p s) vnan = calc st /\ r_nobs st = p /\ r_neg st = fneg (win f i p) /\ ex (r_sum st) (fsum (win f i p)).
    Proof.
      intro Hi. pose proof (@nth_error_nth' _ (ser_running calc p s) (i - k) vnan) as E.
      rewrite running_length in E. unfold s in E at 1. rewrite map_length, seq_length in E. specialize (E ltac:(lia)).
      apply running_ex in E; [|exact Hp|exact s_unit|lia|exact HM].
      unfold s in E at 2 3. rewrite window_seen in E by lia. exact E.
    Qed.
    Lemma whole_sum : exists g h, delivers (sumn p a) n (k + p - 1) g /\ delivers (sumn_run p a) n (k + p - 1) h /\
      forall i, (k + p - 1 <= i < n)%nat ->
        finite (g i) /\ val (g i) = fsum (win f i p) /\ finite (h i) /\ val (h i) = fsum (win f i p).
    Proof.
      eexists _, _. split; [apply rolling_delivers; [exact Hp|exact Ha]|].
      split; [apply running_delivers; [exact Hp|apply calc_sum_warm|exact Ha]|].
      intros i Hi. cbv beta. destruct (fresh_sum Hi) as (F & V & _). split; [exact F|]. split; [exact V|]. fold s.
      destruct (@run_state (calc_sum p) i Hi) as (st & -> & Hn & _ & (Fr & Vr & _)).
      unfold calc_sum. rewrite Hn, Nat.leb_refl. auto.
    Qed.
    Lemma mean_q (t : float) S : (Z.of_nat p <= 2 ^ 53)%Z -> finite t -> val t = S -> Rabs S < room e ->
      let r := vdiv t (vofZ (Z.of_nat p)) in finite r /\ val r = rn (S / INR p).
    Proof.
      intros Hp53 Ft Vt B. destruct (fofZ_exact (Z.of_nat p)) as [Fw Vw]; [lia|]. rewrite <- INR_IZR_INZ in Vw.
      assert (W1 : 1 <= INR p) by (apply (le_INR 1); lia).
      destruct (@div_in (opp (big 1010)) (big 1010) t (vofZ (Z.of_nat p))) as (V & F & _); [exact Ft|rewrite Vw; lra| |].
      { apply big_limit. rewrite Vw, Vt. unfold Rdiv. rewrite Rabs_mult, (Rabs_right (/ INR p)) by (apply Rle_ge, Rlt_le, Rinv_0_lt_compat; lra).
        pose proof room_limit. apply Rle_trans with (Rabs S); [|lra]. rewrite <- (Rmult_1_r (Rabs S)) at 2. apply Rmult_le_compat_l; [apply Rabs_pos|].
        rewrite <- Rinv_1. apply Rinv_le_contravar; lra. }
      cbv zeta. rewrite V, Vw, Vt. auto.
    Qed.
    Lemma whole_mean : (Z.of_nat p <= 2 ^ 53)%Z ->
      exists g h, delivers (sma p a) n (k + p - 1) g /\ delivers (sma_run p a) n (k + p - 1) h /\
      forall i, (k + p - 1 <= i < n)%nat ->
        finite (g i) /\ val (g i) = nearest (fsum (win f i p) / INR p) /\
        finite (h i) /\ val (h i) = nearest (fsum (win f i p) / INR p).
    Proof.
      intro Hp53. change nearest with rn. eexists _, _. split; [apply rolling_delivers; [exact Hp|exact Ha]|].
      split; [apply running_delivers; [exact Hp|apply calc_mean_warm|exact Ha]|].
      intros i Hi. cbv beta. pose proof (win_unit Hi) as W. pose proof (unit_finite W) as FW. pose proof (win_room Hi) as B.
      assert (Bs : Rabs (fsum (win f i p)) < room e) by (pose proof (fsum_size (win f i p)); lra).
      assert (LW : length (win f i p) = p) by (unfold win; rewrite map_length, seq_length; reflexivity).
      destruct (vsum_ex W B) as (F & V & _).
      rewrite guard_finite by exact FW. unfold win_mean. rewrite LW.
      destruct (mean_q Hp53 F V Bs) as [Fq Vq]. split; [exact Fq|]. split; [exact Vq|]. fold s.
      destruct (@run_state (calc_mean p) i Hi) as (st & -> & Hn & Hg & (Fr & Vr & _)).
      destruct (mean_q Hp53 Fr Vr Bs) as [Fm Vm]. unfold calc_mean. rewrite Hn, Nat.leb_refl, Hg.
      set (r := vdiv (r_sum st) (vofZ (Z.of_nat p))) in *.
      assert (W1 : 1 <= INR p) by (apply (le_INR 1); lia). assert (Wi : 0 < / INR p) by (apply Rinv_0_lt_compat; lra).
      destruct ((fneg (win f i p) =? 0)%nat && vltb r v0) eqn:E1.
      - exfalso. apply andb_prop in E1. destruct E1 as [E1 E2]. apply Nat.eqb_eq in E1. apply ltb_iff in E2; auto using fin0. rewrite fval0, Vm in E2.
        pose proof (@fneg_0 _ FW E1). assert (0 <= rn (fsum (win f i p) / INR p)) by (apply rn_nonneg; unfold Rdiv; nra). lra.
      - destruct ((fneg (win f i p) =? p)%nat && vltb v0 r) eqn:E3; [|auto].
        exfalso. apply andb_prop in E3. destruct E3 as [E3 E2]. apply Nat.eqb_eq in E3. apply ltb_iff in E2; auto using fin0. rewrite fval0, Vm in E2.
        pose proof (@fneg_all _ FW ltac:(lia)).
        assert (rn (fsum (win f i p) / INR p) <= 0) by (rewrite <- rn_0; apply rn_le; unfold Rdiv; nra). lra.
    Qed.
  End Line.

  (** ** the on balance volume *)
  Lemma vsign_cmp (x y : float) : finite x -> finite y ->
    vsign (vsub x y) = if vltb y x then v1 else if vltb x y then vofZ (-1) else v0.
  Proof.
    intros Fx Fy. destruct (sub_sign Fx Fy) as (A & B & C). unfold vsign. rewrite A, B.
    destruct (visnan (vsub x y)) eqn:E; [|reflexivity]. exfalso.
    assert (vltb x y = false /\ vltb y x = false /\ veqb x y = false) as (L1 & L2 & L3).
    { rewrite <- A, <- B, <- C. destruct (vsub x y); cbn in E; try discriminate E. repeat split; reflexivity. }
    apply ltb_false in L1; auto. apply ltb_false in L2; auto.
    assert (veqb x y = true) by (apply eqb_iff; auto; lra). congruence.
  Qed.
  Lemma mul_small (x : float) (z : Z) t : (Z.abs z <= 1)%Z -> ex x t -> Rabs t < room e -> ex (vmul x (vofZ z)) (t * IZR z).
  Proof.
    intros Hz (F & V & m & E) B. destruct (fofZ_exact z) as [Fz Vz]; [lia|].
    assert (Bz : Rabs (t * IZR z) < room e).
    { rewrite Rabs_mult. apply Rle_lt_trans with (Rabs t); [|exact B]. rewrite <- (Rmult_1_r (Rabs t)) at 2.
      apply Rmult_le_compat_l; [apply Rabs_pos|]. rewrite <- abs_IZR. now apply IZR_le. }
    assert (Z : t * IZR z = IZR (m * z) * bpow radix2 e) by (rewrite mult_IZR, E; ring).
    pose proof room_limit. destruct (@mul_in (opp (big 1010)) (big 1010) x (vofZ z) F Fz) as (A & FA & _).
    { rewrite V, Vz. apply big_limit. lra. }
    split; [exact FA|]. split; [|eauto]. rewrite A, V, Vz, Z. apply unit_rn. now rewrite <- Z.
  Qed.
  Lemma total_size (x y : nat -> R) k i : (forall j, (k <= j <= i)%nat -> Rabs (x j) <= y j) -> Rabs (total x k i) <= total y k i.
  Proof.
    intro H. unfold total. assert (forall j, In j (seq k (S i - k)) -> Rabs (x j) <= y j) by (intros j Hj; apply in_seq in Hj; apply H; lia).
    induction (seq k (S i - k)) as [|j l IH]; cbn; [rewrite Rabs_R0; lra|].
    eapply Rle_trans; [apply Rabs_triang|]. apply Rplus_le_compat; [apply H0; now left|apply IH; intros; apply H0; now right].
  Qed.
  Lemma total_fabs (f : nat -> float) k m n i : (m <= k)%nat -> (i < n)%nat -> (k <= i)%nat -> total (fun j => Rabs (val (f j))) k i <= fabs (map f (seq m (n - m))).
  Proof.
    intros Hk Hi Hki. unfold total. replace (n - m)%nat with ((k - m) + ((S i - k) + (n - S i)))%nat by lia.
    rewrite !seq_app, !map_app, !fabs_app. pose proof (fabs_nonneg (map f (seq m (k - m)))).
    pose proof (fabs_nonneg (map f (seq (m + (k - m) + (S i - k)) (n - S i)))).
    replace (m + (k - m))%nat with k in * by lia.
    assert (forall l, Rsum (map (fun j => Rabs (val (f j))) l) = fabs (map f l)) as -> by (induction l as [|j l IH]; [reflexivity|]; cbn [map fabs]; rewrite <- IH; reflexivity).
    lra.
  Qed.
  Lemma ex_num x t : ex x t -> visnan x = false. Proof. intros (F & _). now apply finite_num. Qed.
  Section Cum.
    Variables (x : nat -> float) (t : nat -> R) (k n : nat).
    Hypothesis Hx : forall i, (k <= i < n)%nat -> ex (x i) (t i).
    Hypothesis HB : forall i, (k <= i < n)%nat -> Rabs (total t k i) < room e.
    Lemma cum_ex d : (k + d <= n)%nat -> ex (scan_st (cumsum_step (V:=float)) x k v0 d) (match d with 0%nat => 0 | S d' => total t k (k + d') end).
    Proof.
      induction d as [|d IH]; intro Hd; [apply ex_0|]. cbn [scan_st]. unfold cumsum_step at 1.
      rewrite (ex_num (@Hx (k + d)%nat ltac:(lia))). cbv zeta. cbn [fst].
      assert (E : total t k (k + d) = match d with 0%nat => 0 | S d' => total t k (k + d') end + t (k + d)%nat).
      { destruct d as [|d]; [rewrite Nat.add_0_r, total_first; ring|]. replace (k + S d)%nat with (S (k + d)) by lia. apply total_S. lia. }
      rewrite E. apply ex_add; [apply IH; lia|apply Hx; lia|]. rewrite <- E. apply HB. lia.
    Qed.
    Lemma cum_line (a : line float) : feeds a n k x -> exists g, delivers (stdop ser_cumsum a) n k g /\
      forall i, (k <= i < n)%nat -> finite (g i) /\ val (g i) = total t k i.
    Proof.
      intro Ha. eexists. split; [eapply stdop_delivers; [exact Ha|unfold ser_cumsum; rewrite cumsum_scan; apply scan_seq]|].
      intros i Hi. cbv beta. pose proof (@cum_ex (S (i - k)) ltac:(lia)) as (F & V & _).
      replace (k + (i - k))%nat with i in V by lia. cbn [scan_st] in F, V. replace (k + (i - k))%nat with i in F, V by lia.
      unfold cumsum_step at 1 in F. unfold cumsum_step at 1 in V. unfold cumsum_step at 1 3.
      rewrite (ex_num (@Hx i ltac:(lia))) in F, V |- *. cbv zeta in F, V |- *. cbn [fst snd] in F, V |- *. auto.
    Qed.
  End Cum.
  Lemma nan_sub : nan_r (vsub : float -> float -> float).
  Proof. intro x. now destruct x as [[]|[]| |[]]. Qed.
  Lemma whole_obv (c v : line float) n k fc fv q :
    feeds c n k fc -> feeds v n k fv ->
    (forall i, (k <= i < n)%nat -> finite (fc i) /\ of_unit e (fv i)) ->
    fabs (map fv (seq k (n - k))) < room e ->
    exists g, delivers (obv false q c v) n (k + q) g /\
    forall i, (k + q <= i < n)%nat ->
      finite (g i) /\ val (g i) = total (signed_volume (fun j => val (fc j)) (fun j => val (fv j)) q) (k + q) i.
  Proof.
    intros Hc Hv Hf HM. unfold obv.
    pose proof (@diff_delivers _ _ c n k q fc nan_sub Hc) as Dd.
    pose proof (mapop_delivers vsign (delivers_feeds Dd)) as Ds.
    pose proof (binop_delivers vmul Hv (delivers_feeds Ds)) as Dm. replace (Nat.max k (k + q)) with (k + q)%nat in Dm by lia.
    destruct (@cum_line (fun i => vmul (fv i) (vsign (vsub (fc i) (fc (i - q)%nat))))
      (signed_volume (fun j => val (fc j)) (fun j => val (fv j)) q) (k + q) n) with (a := lmul v (mapop vsign (diff c (Z.of_nat q)))) as (g & Dg & Hg).
    - intros i Hi. destruct (Hf i ltac:(lia)) as [Fc Uv]. destruct (Hf (i - q)%nat ltac:(lia)) as [Fc' _].
      rewrite (vsign_cmp Fc Fc').
      assert (B : Rabs (val (fv i)) < room e).
      { eapply Rle_lt_trans; [|exact HM]. pose proof (@total_fabs fv i k n i ltac:(lia) ltac:(lia) ltac:(lia)) as T. now rewrite total_first in T. }
      unfold signed_volume. destruct (Rlt_dec (val (fc (i - q)%nat)) (val (fc i))) as [L|L].
      + rewrite (proj2 (ltb_iff Fc' Fc) L). replace (val (fv i)) with (val (fv i) * 1) by ring.
        apply (@mul_small (fv i) 1 (val (fv i))); [lia|now apply ex_of|exact B].
      + destruct (vltb (fc (i - q)%nat) (fc i)) eqn:E; [apply ltb_iff in E; auto; lra|].
        destruct (Rlt_dec (val (fc i)) (val (fc (i - q)%nat))) as [M|M].
        * rewrite (proj2 (ltb_iff Fc Fc') M). replace (- val (fv i)) with (val (fv i) * -1) by ring.
          apply (@mul_small (fv i) (-1) (val (fv i))); [lia|now apply ex_of|exact B].
        * destruct (vltb (fc i) (fc (i - q)%nat)) eqn:E'; [apply ltb_iff in E'; auto; lra|].
          replace 0 with (val (fv i) * 0) by ring.
          apply (@mul_small (fv i) 0 (val (fv i))); [lia|now apply ex_of|exact B].
    - intros i Hi. eapply Rle_lt_trans; [|exact HM].
      eapply Rle_trans; [|apply (@total_fabs fv (k + q) k n i); lia]. apply total_size. intros j Hj. unfold signed_volume.
      destruct (Rlt_dec _ _); [lra|]. destruct (Rlt_dec _ _); [rewrite Rabs_Ropp; lra|]. rewrite Rabs_R0. apply Rabs_pos.
    - apply delivers_feeds. exact Dm.
    - exists g. auto.
  Qed.
End Unit.
