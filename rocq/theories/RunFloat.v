(** The running total in float64. *)
From Coq Require Import ZArith Reals List Bool Lia Lra Psatz.
From Flocq Require Import Core IEEE754.BinarySingleNaN.
From Flocq.Prop Require Import Plus_error Relative.
From Verif Require Import Num Series Line Spec LineFacts RFacts IndMA IndBasic IndOsc Running RunSpec RunFacts
  Float64 FloatSpec FloatFacts FloatLine FloatAvg PropFloatFacts.
Import ListNotations.
Set Implicit Arguments.
Local Arguments firstn {A} n l : simpl nomatch.
Local Arguments skipn {A} n l : simpl nomatch.

Section Hist.
  Context {V : Type} {N : Num V}.
  (** as [run_slide], with all the values seen so far *)
  Lemma run_hist (calc : rstate V -> V) (Q : V -> Prop) (P : rstate V -> list V -> list V -> Prop) w :
    (1 <= w)%nat ->
    (forall st h win x, Q x -> P st h win -> P (r_add x st) (h ++ [x]) (win ++ [x])) ->
    (forall st h y win, Q y -> P st h (y :: win) -> P (r_rem y st) h win) ->
    forall new h win cnt st, Forall Q win -> Forall Q new -> (cnt + length win = w)%nat -> P st h win ->
    forall i v, nth_error (run_from calc cnt st (win ++ new) new) i = Some v ->
    exists st', P st' (h ++ firstn (S i) new) (skipn (length win + S i - w) (firstn (length win + S i) (win ++ new))) /\ v = calc st'.
  Proof.
    intros Hw Ha Hr. induction new as [|x new IH]; intros h win cnt st Qw Qn Hl Hp i v E; cbn in E; [destruct i; discriminate|].
    pose proof (Forall_inv Qn) as Qx. pose proof (Forall_inv_tail Qn) as Qn'. assert (Qwx : Forall Q (win ++ [x])) by (apply Forall_app; auto).
    pose proof (Ha st h win x Qx Hp) as Hp1.
    destruct cnt as [|c].
    - destruct win as [|y win]; cbn in Hl; [lia|]. cbn [app] in *. pose proof (Forall_inv Qw) as Qy.
      pose proof (Forall_inv_tail Qwx) as Qwx'. pose proof (Hr _ _ _ _ Qy Hp1) as Hp2.
      replace (win ++ x :: new) with ((win ++ [x]) ++ new) in E by (rewrite <- app_assoc; reflexivity).
      replace (y :: win ++ x :: new) with (y :: (win ++ [x]) ++ new) by (rewrite <- app_assoc; reflexivity).
      destruct i as [|i]; cbn in E.
      + injection E as <-. eexists. split; [|reflexivity]. cbn [firstn length].
        replace (S (length win) + 1 - w)%nat with 1%nat by lia. replace (S (length win) + 1)%nat with (S (length win + 1)) by lia.
        cbn [firstn skipn]. rewrite firstn_app, firstn_all2 by (rewrite app_length; cbn; lia).
        rewrite app_length. cbn [length]. rewrite Nat.sub_diag. cbn [firstn]. rewrite app_nil_r. exact Hp2.
      + apply (IH (h ++ [x])) in E; [|exact Qwx'|exact Qn'|rewrite app_length; cbn; lia|exact Hp2].
        destruct E as (st' & Hst & ->). exists st'. split; [|reflexivity]. rewrite <- app_assoc in Hst. cbn [app] in Hst.
        rewrite app_length in Hst. cbn [length] in Hst |- *. cbn [firstn].
        replace (length win + 1 + S i - w)%nat with (S i) in Hst by lia.
        replace (S (length win) + S (S i) - w)%nat with (S (S i)) by lia.
        replace (S (length win) + S (S i))%nat with (S (length win + 1 + S i)) by lia. exact Hst.
    - replace (win ++ x :: new) with ((win ++ [x]) ++ new) in E |- * by (rewrite <- app_assoc; reflexivity).
      destruct i as [|i]; cbn in E.
      + injection E as <-. eexists. split; [|reflexivity]. cbn [firstn].
        replace (length win + 1 - w)%nat with 0%nat by lia. cbn [skipn].
        rewrite firstn_app, firstn_all2 by (rewrite app_length; cbn; lia).
        rewrite app_length. cbn [length]. rewrite Nat.sub_diag. cbn [firstn]. rewrite app_nil_r. exact Hp1.
      + apply (IH (h ++ [x])) in E; [|exact Qwx|exact Qn'|rewrite app_length; cbn; lia|exact Hp1].
        destruct E as (st' & Hst & ->). exists st'. split; [|reflexivity]. rewrite <- app_assoc in Hst. cbn [app] in Hst.
        rewrite app_length in Hst. cbn [length] in Hst |- *. cbn [firstn].
        replace (length win + S (S i))%nat with (length win + 1 + S i)%nat by lia. exact Hst.
  Qed.
  Lemma running_hist (calc : rstate V -> V) (Q : V -> Prop) (P : rstate V -> list V -> list V -> Prop) w s i v :
    (1 <= w)%nat -> Forall Q (map prep s) -> P r_start [] [] ->
    (forall st h win x, Q x -> P st h win -> P (r_add x st) (h ++ [x]) (win ++ [x])) ->
    (forall st h y win, Q y -> P st h (y :: win) -> P (r_rem y st) h win) ->
    nth_error (ser_running calc w s) i = Some v ->
    exists st, P st (firstn (S i) (map prep s)) (skipn (S i - w) (firstn (S i) (map prep s))) /\ v = calc st.
  Proof.
    intros Hw HQ P0 Ha Hr E. unfold ser_running in E.
    exact (@run_hist calc Q P w Hw Ha Hr (map prep s) [] [] w r_start (Forall_nil _) HQ ltac:(cbn; lia) P0 i v E).
  Qed.
End Hist.
Local Open Scope R_scope.

(** ** One rounded addition *)
Lemma rn_plus (x y : float) : Rabs (rn (val x + val y) - (val x + val y)) <= ulp1 * Rabs (val x + val y).
Proof.
  destruct (Rle_or_lt (bpow radix2 (emin + prec - 1)) (Rabs (val x + val y))) as [L|L].
  - pose proof (relative_error_N_FLT radix2 emin prec ltac:(reflexivity) (fun x => negb (Z.even x)) _ L) as E.
    unfold rn. rewrite fexp_flt.
    replace (/ 2 * bpow radix2 (- prec + 1)) with ulp1 in E; [exact E|].
    unfold ulp1. change (/ 2) with (bpow radix2 (-1)). rewrite <- bpow_plus. reflexivity.
  - assert (G : fmt (val x + val y)).
    { unfold fmt. rewrite fexp_flt. apply FLT_format_plus_small; try (rewrite <- fexp_flt; apply fmt_val); try reflexivity.
      apply Rlt_le. eapply Rlt_le_trans; [exact L|]. apply bpow_le. unfold prec; lia. }
    rewrite (rn_fmt G). unfold Rminus. rewrite Rplus_opp_r, Rabs_R0.
    apply Rmult_le_pos; [apply bpow_ge_0|apply Rabs_pos].
Qed.

(** ** Chains of additions *)
Lemma ulp1_pos : 0 < ulp1. Proof. apply bpow_gt_0. Qed.
Definition acc_ok (k : nat) (acc : float) (S A : R) : Prop :=
  finite acc /\ Rabs (val acc - S) <= ((1 + ulp1) ^ k - 1) * A /\ Rabs S <= A.
Lemma pow_ge1 k : 1 <= (1 + ulp1) ^ k.
Proof. apply pow_R1_Rle. pose proof ulp1_pos. lra. Qed.
Lemma acc_size k acc S A : acc_ok k acc S A -> Rabs (val acc) <= (1 + ulp1) ^ k * A.
Proof.
  intros (_ & E & B). replace (val acc) with ((val acc - S) + S) by lra. eapply Rle_trans; [apply Rabs_triang|]. lra.
Qed.
Lemma acc_step k acc S A (t : R) (r : float) :
  acc_ok k acc S A -> finite r -> Rabs (val r - (val acc + t)) <= ulp1 * Rabs (val acc + t) ->
  acc_ok (Datatypes.S k) r (S + t) (A + Rabs t).
Proof.
  intros (F & E & B) Fr Er. pose proof ulp1_pos as U. pose proof (pow_ge1 k) as P. pose proof (Rabs_pos t) as T. pose proof (Rabs_pos S) as PS.
  split; [exact Fr|]. split; [|eapply Rle_trans; [apply Rabs_triang|]; lra].
  replace (val r - (S + t)) with ((val r - (val acc + t)) + (val acc - S)) by lra.
  eapply Rle_trans; [apply Rabs_triang|].
  assert (X : Rabs (val acc + t) <= Rabs (val acc - S) + (A + Rabs t)).
  { replace (val acc + t) with ((val acc - S) + (S + t)) by lra. eapply Rle_trans; [apply Rabs_triang|].
    pose proof (Rabs_triang S t). lra. }
  cbn [pow]. set (q := (1 + ulp1) ^ k) in *.
  assert (Y : ulp1 * Rabs (val acc + t) <= ulp1 * ((q - 1) * A + (A + Rabs t))) by (apply Rmult_le_compat_l; lra).
  assert (Z : 0 <= (q - 1) * Rabs t) by (apply Rmult_le_pos; lra).
  assert (W : 0 <= ulp1 * ((q - 1) * Rabs t)) by (apply Rmult_le_pos; lra). nra.
Qed.
Definition limit : R := bpow radix2 1010.
Lemma big_limit x : Rabs x <= limit -> val (opp (big 1010)) <= x <= val (big 1010).
Proof. intro H. destruct big1010 as [_ V]. rewrite val_opp, V. apply Rabs_le_inv in H. unfold limit in H. lra. Qed.
Lemma step_size k acc S A t : acc_ok k acc S A -> (1 + ulp1) ^ k * (A + Rabs t) <= limit -> Rabs (val acc + t) <= limit.
Proof.
  intros H L. eapply Rle_trans; [apply Rabs_triang|]. pose proof (acc_size H). pose proof (pow_ge1 k). pose proof (Rabs_pos t). nra.
Qed.
Lemma acc_add k acc S A x : acc_ok k acc S A -> finite x -> (1 + ulp1) ^ k * (A + Rabs (val x)) <= limit ->
  acc_ok (Datatypes.S k) (vadd acc x) (S + val x) (A + Rabs (val x)).
Proof.
  intros H Fx L. pose proof (big_limit _ (step_size _ H L)) as B. destruct (add_in _ _ (proj1 H) Fx B) as (E & F & _).
  apply acc_step with acc; auto. rewrite E. apply rn_plus.
Qed.
Lemma acc_sub k acc S A x : acc_ok k acc S A -> finite x -> (1 + ulp1) ^ k * (A + Rabs (val x)) <= limit ->
  acc_ok (Datatypes.S k) (vsub acc x) (S - val x) (A + Rabs (val x)).
Proof.
  intros H Fx L. rewrite <- (Rabs_Ropp (val x)) in L |- *. pose proof (big_limit _ (step_size _ H L)) as B.
  destruct (@sub_in (opp (big 1010)) (big 1010) acc x (proj1 H) Fx B) as (E & F & _).
  apply acc_step with acc; auto. rewrite E. unfold Rminus. rewrite <- val_opp. apply rn_plus.
Qed.
Lemma acc_0 : acc_ok 0 v0 0 0.
Proof. split; [reflexivity|]. change (val v0) with 0. rewrite Rminus_0_r, Rabs_R0. cbn. split; lra. Qed.

Lemma pow_bound k : INR k * ulp1 < 1 -> (1 + ulp1) ^ k <= / (1 - INR k * ulp1).
Proof.
  intro H. pose proof ulp1_pos as U.
  assert (P : (1 + ulp1) ^ k * (1 - INR k * ulp1) <= 1).
  { clear H. induction k as [|k IH]; [cbn; lra|]. rewrite S_INR. cbn [pow]. set (q := (1 + ulp1) ^ k) in *.
    pose proof (pow_ge1 k) as Q. fold q in Q. pose proof (pos_INR k) as K.
    replace ((1 + ulp1) * q * (1 - (INR k + 1) * ulp1)) with (q * (1 - INR k * ulp1) - q * (ulp1 * ulp1 * (INR k + 1))) by ring.
    assert (0 <= q * (ulp1 * ulp1 * (INR k + 1))) by (apply Rmult_le_pos; [lra|]; apply Rmult_le_pos; nra). lra. }
  apply Rmult_le_reg_r with (1 - INR k * ulp1); [lra|]. rewrite Rinv_l by lra. exact P.
Qed.
Lemma pow_gamma k : INR k * ulp1 < 1 -> (1 + ulp1) ^ k - 1 <= gamma k.
Proof.
  intro H. pose proof (pow_bound _ H). unfold gamma. replace (INR k * ulp1 / (1 - INR k * ulp1)) with (/ (1 - INR k * ulp1) - 1); [lra|].
  field. lra.
Qed.
Lemma pow_2 k : INR k * ulp1 <= / 2 -> (1 + ulp1) ^ k <= 2.
Proof.
  intro H. eapply Rle_trans; [apply pow_bound; lra|]. replace 2 with (/ / 2) by lra. apply Rinv_le_contravar; lra.
Qed.
Lemma pow_mono a b : (a <= b)%nat -> (1 + ulp1) ^ a <= (1 + ulp1) ^ b.
Proof. intro H. apply Rle_pow; [pose proof ulp1_pos; lra|exact H]. Qed.

Lemma fabs_nonneg l : 0 <= fabs l.
Proof. induction l as [|x l IH]; cbn; [lra|]. pose proof (Rabs_pos (val x)). lra. Qed.
Lemma fsum_app l m : fsum (l ++ m) = fsum l + fsum m.
Proof. induction l as [|x l IH]; cbn; [lra|]. rewrite IH. lra. Qed.
Lemma fabs_app l m : fabs (l ++ m) = fabs l + fabs m.
Proof. induction l as [|x l IH]; cbn; [lra|]. rewrite IH. lra. Qed.

(** ** The running sum *)
Definition good (K : nat) (M : R) (st : rstate float) (h win : list float) : Prop :=
  r_nobs st = length win /\ (exists pre, h = pre ++ win) /\
  ((2 * length h <= K)%nat -> 2 * fabs h <= M ->
   acc_ok (2 * length h - length win) (r_sum st) (fsum win) (2 * fabs h - fabs win)).
Lemma good_add K M st h win x : (1 + ulp1) ^ K * M <= limit -> finite x ->
  good K M st h win -> good K M (r_add x st) (h ++ [x]) (win ++ [x]).
Proof.
  intros HL Fx (Hn & [pre Hpre] & HA). assert (Hx : visnan x = false) by (destruct x; try discriminate Fx; reflexivity).
  unfold r_add. rewrite Hx. unfold good; cbn [r_nobs r_sum]. rewrite !app_length. cbn [length].
  split; [lia|]. split; [exists pre; rewrite Hpre, <- app_assoc; reflexivity|]. intros HK HM.
  rewrite fabs_app in HM. cbn [fabs] in HM. pose proof (Rabs_pos (val x)) as Px.
  assert (Hh : (2 * length h <= K)%nat) by lia. assert (Hm : 2 * fabs h <= M) by lra. specialize (HA Hh Hm).
  assert (Lp : (length win <= length h)%nat) by (rewrite Hpre, app_length; lia).
  assert (Lf : fabs win <= fabs h) by (rewrite Hpre, fabs_app; pose proof (fabs_nonneg pre); lra).
  rewrite fsum_app, !fabs_app. cbn [fsum fabs].
  replace (2 * (length h + 1) - (length win + 1))%nat with (S (2 * length h - length win)) by lia.
  replace (fsum win + (val x + 0)) with (fsum win + val x) by lra.
  replace (2 * (fabs h + (Rabs (val x) + 0)) - (fabs win + (Rabs (val x) + 0))) with (2 * fabs h - fabs win + Rabs (val x)) by lra.
  apply acc_add; [exact HA|exact Fx|]. eapply Rle_trans; [|exact HL].
  pose proof (fabs_nonneg h). pose proof (fabs_nonneg win).
  apply Rmult_le_compat; [pose proof (pow_ge1 (2 * length h - length win)); lra|lra|apply pow_mono; lia|lra].
Qed.
Lemma good_rem K M st h y win : (1 + ulp1) ^ K * M <= limit -> finite y ->
  good K M st h (y :: win) -> good K M (r_rem y st) h win.
Proof.
  intros HL Fy (Hn & [pre Hpre] & HA). assert (Hy : visnan y = false) by (destruct y; try discriminate Fy; reflexivity).
  unfold r_rem. rewrite Hy. unfold good; cbn [r_nobs r_sum]. cbn [length] in *.
  split; [lia|]. split; [exists (pre ++ [y]); rewrite Hpre, <- app_assoc; reflexivity|]. intros HK HM. specialize (HA HK HM).
  assert (Lp : (S (length win) <= length h)%nat) by (rewrite Hpre, app_length; cbn; lia).
  assert (Lf : Rabs (val y) + fabs win <= fabs h) by (rewrite Hpre, fabs_app; cbn [fabs]; pose proof (fabs_nonneg pre); lra).
  cbn [fsum fabs] in HA.
  replace (2 * length h - length win)%nat with (S (2 * length h - S (length win))) by lia.
  replace (fsum win) with (val y + fsum win - val y) by lra.
  replace (2 * fabs h - fabs win) with (2 * fabs h - (Rabs (val y) + fabs win) + Rabs (val y)) by lra.
  apply acc_sub; [exact HA|exact Fy|]. eapply Rle_trans; [|exact HL].
  pose proof (fabs_nonneg h). pose proof (fabs_nonneg win). pose proof (Rabs_pos (val y)).
  apply Rmult_le_compat; [pose proof (pow_ge1 (2 * length h - S (length win))); lra|lra|apply pow_mono; lia|lra].
Qed.
Lemma prep_id (s : list float) : Forall finite s -> map prep s = s.
Proof.
  induction 1 as [|x l F _ IH]; cbn; [reflexivity|]. rewrite IH. f_equal. destruct x; try discriminate F; reflexivity.
Qed.
Lemma firstn_fabs k l : fabs (firstn k l) <= fabs l.
Proof. rewrite <- (firstn_skipn k l) at 2. rewrite fabs_app. pose proof (fabs_nonneg (skipn k l)). lra. Qed.
Lemma Forall_firstn' {A} (P : A -> Prop) k l : Forall P l -> Forall P (firstn k l).
Proof. apply Forall_firstn. Qed.
(** value of the running sum at bar [i] *)
Lemma running_sum_err w s i v : (1 <= w)%nat -> Forall finite s -> (w <= S i)%nat ->
  INR (2 * S i) * ulp1 <= / 2 -> fabs (firstn (S i) s) <= bpow radix2 1000 ->
  nth_error (ser_running (calc_sum w) w s) i = Some v ->
  finite v /\
  Rabs (val v - fsum (window s i w)) <= gamma (2 * S i) * (2 * fabs (firstn (S i) s)).
Proof.
  intros Hw Fs Hi HK HM E. assert (Li : (i < length s)%nat).
  { rewrite <- (running_length (calc_sum w) w s). apply nth_error_Some. congruence. }
  set (K := (2 * S i)%nat) in *. set (M := 2 * fabs (firstn (S i) s)).
  assert (HL : (1 + ulp1) ^ K * M <= limit).
  { unfold limit. replace 1010%Z with (10 + 1000)%Z by reflexivity. rewrite bpow_plus. change (bpow radix2 10) with 1024.
    pose proof (pow_2 _ HK). pose proof (pow_ge1 K). pose proof (fabs_nonneg (firstn (S i) s)). unfold M. nra. }
  apply running_hist with (Q := finite) (P := good K M) in E; [|exact Hw|now rewrite prep_id| | |].
  - destruct E as (st & (Hn & _ & HA) & ->). rewrite prep_id in Hn, HA by exact Fs.
    rewrite firstn_length, Nat.min_l in HA by lia. specialize (HA ltac:(unfold K; lia) ltac:(unfold M; lra)).
    rewrite <- window_suffix in Hn, HA by lia.
    assert (Lw : length (window s i w) = w) by (unfold window; rewrite firstn_length, skipn_length; lia).
    unfold calc_sum. rewrite Hn, Lw, Nat.leb_refl. destruct HA as (F & E & B). split; [exact F|].
    eapply Rle_trans; [exact E|]. rewrite Lw. fold M.
    assert (G : (1 + ulp1) ^ (2 * S i - w) - 1 <= gamma K).
    { eapply Rle_trans; [|apply pow_gamma; lra]. pose proof (@pow_mono (2 * S i - w) K ltac:(unfold K; lia)). lra. }
    pose proof (fabs_nonneg (window s i w)). pose proof (fabs_nonneg (firstn (S i) s)). pose proof (pow_ge1 (2 * S i - w)).
    assert (fabs (window s i w) <= fabs (firstn (S i) s)).
    { rewrite window_suffix by lia. rewrite <- (firstn_skipn (S i - w) (firstn (S i) s)) at 2. rewrite fabs_app.
      pose proof (fabs_nonneg (firstn (S i - w) (firstn (S i) s))). lra. }
    apply Rmult_le_compat; unfold M in *; lra.
  - split; [reflexivity|]. split; [now exists []|]. intros _ _. cbn [length fsum fabs r_sum r_start]. replace (2 * 0 - 0) with 0 by lra. apply acc_0.
  - intros; now apply good_add.
  - intros; now apply good_rem.
Qed.

(** ** A sum taken afresh *)
Lemma vsum_acc l : forall k acc S A, acc_ok k acc S A -> Forall finite l -> (1 + ulp1) ^ (k + length l) * (A + fabs l) <= limit ->
  acc_ok (k + length l) (fold_left vadd l acc) (S + fsum l) (A + fabs l).
Proof.
  induction l as [|x l IH]; intros k acc S A H F L; cbn [fold_left length fsum fabs] in *.
  - rewrite Nat.add_0_r, !Rplus_0_r. exact H.
  - replace (k + Datatypes.S (length l))%nat with (Datatypes.S k + length l)%nat in * by lia.
    replace (S + (val x + fsum l)) with (S + val x + fsum l) by lra. replace (A + (Rabs (val x) + fabs l)) with (A + Rabs (val x) + fabs l) in * by lra.
    apply IH; [|exact (Forall_inv_tail F)|exact L]. apply acc_add; [exact H|exact (Forall_inv F)|].
    eapply Rle_trans; [|exact L]. pose proof (fabs_nonneg l). pose proof (Rabs_pos (val x)). destruct H as (_ & _ & B). pose proof (Rabs_pos S).
    apply Rmult_le_compat; [pose proof (pow_ge1 k); lra|lra|apply pow_mono; lia|lra].
Qed.
Lemma vsum_err l : Forall finite l -> INR (length l) * ulp1 <= / 2 -> fabs l <= bpow radix2 1000 ->
  finite (vsum l) /\ Rabs (val (vsum l) - fsum l) <= gamma (length l) * fabs l.
Proof.
  intros F HK HM. pose proof (fabs_nonneg l).
  assert (L : (1 + ulp1) ^ (0 + length l) * (0 + fabs l) <= limit).
  { unfold limit. replace 1010%Z with (10 + 1000)%Z by reflexivity. rewrite bpow_plus. change (bpow radix2 10) with 1024.
    pose proof (pow_2 _ HK). pose proof (pow_ge1 (length l)). cbn [Nat.add]. nra. }
  destruct (vsum_acc acc_0 F L) as (Fv & E & _). rewrite !Rplus_0_l in E. cbn [Nat.add] in E. split; [exact Fv|].
  eapply Rle_trans; [exact E|]. apply Rmult_le_compat_r; [lra|]. apply pow_gamma. lra.
Qed.

(** ** Lines *)
Section Lines.
  Context {V : Type} {N : Num V}.
  Hypothesis Hnan : visnan vnan = true.
  Definition nobs (l : list V) : nat := length (filter (fun x => negb (visnan x)) l).
  Lemma nobs_app l m : nobs (l ++ m) = (nobs l + nobs m)%nat.
  Proof. unfold nobs. now rewrite filter_app, app_length. Qed.
  Lemma nobs_le l : (nobs l <= length l)%nat.
  Proof. unfold nobs. induction l as [|x l IH]; cbn; [lia|]. destruct (negb (visnan x)); cbn; lia. Qed.
  Lemma running_warm (calc : rstate V -> V) w s i : (1 <= w)%nat -> (forall st, (r_nobs st < w)%nat -> calc st = vnan) ->
    (S i < w)%nat -> (i < length s)%nat -> nth_error (ser_running calc w s) i = Some vnan.
  Proof.
    intros Hw Hc Hi Hs. destruct (nth_error (ser_running calc w s) i) as [v|] eqn:E;
      [|apply nth_error_None in E; rewrite running_length in E; lia].
    apply running_nth with (Q := fun _ => True) (P := fun st l => r_nobs st = nobs l) in E;
      [|exact Hw|apply Forall_forall; auto|reflexivity| |].
    - destruct E as (st & Hst & ->). rewrite Hc; [reflexivity|]. rewrite Hst. eapply Nat.le_lt_trans; [apply nobs_le|].
      rewrite skipn_length, firstn_length, map_length. lia.
    - intros st win x _ H. rewrite nobs_app. unfold r_add, nobs at 2; cbn. destruct (visnan x); cbn; lia.
    - intros st y win _ H. unfold r_rem. unfold nobs in H; cbn in H. fold (nobs win) in H. destruct (visnan y); cbn in *; unfold nobs; lia.
  Qed.
  Lemma running_delivers (calc : rstate V -> V) w (a : line V) n k f :
    (1 <= w)%nat -> (forall st, (r_nobs st < w)%nat -> calc st = vnan) -> feeds a n k f ->
    delivers (running w calc a) n (k + w - 1) (fun i => nth (i - k) (ser_running calc w (map f (seq k (n - k)))) vnan).
  Proof.
    intros Hw Hc Ha. unfold running, bars. rewrite (feeds_mp Ha), (feeds_len Ha).
    replace (Z.max (Z.of_nat (S k) + (Z.of_nat w - 0 - 1)) 1) with (Z.of_nat (S (k + w - 1))) by lia.
    rewrite mp_idx, clone_S, (feeds_slice Ha) by lia.
    set (L := ser_running calc w (map f (seq k (n - k)))).
    assert (EL : length L = (n - k)%nat) by (unfold L; rewrite running_length, map_length, seq_length; reflexivity).
    replace L with (map (fun i => nth (i - k) L vnan) (seq k (n - k))) at 1.
    2:{ apply nth_error_ext; [rewrite map_length, seq_length; auto|]. intros i Hi. rewrite map_length, seq_length in Hi.
        rewrite nth_error_map_seq by exact Hi. rewrite Nat.add_comm, Nat.add_sub. symmetry. apply nth_error_nth'. lia. }
    apply delivers_mk; [lia|]. intros i Hi Hn. apply nth_error_nth. unfold L. apply running_warm; auto; [lia|].
    rewrite map_length, seq_length. lia.
  Qed.
End Lines.

Lemma calc_sum_warm w (st : rstate float) : (r_nobs st < w)%nat -> calc_sum w st = vnan.
Proof. intro H. unfold calc_sum. destruct (Nat.leb_spec w (r_nobs st)); [lia|reflexivity]. Qed.
Lemma calc_mean_warm w (st : rstate float) : (r_nobs st < w)%nat -> calc_mean w st = vnan.
Proof. intro H. unfold calc_mean. destruct (Nat.leb_spec w (r_nobs st)); [lia|reflexivity]. Qed.
(** the [m] values up to bar [i], and the bars seen by the loop *)
Lemma firstn_seen (f : nat -> float) k n i : (k <= i < n)%nat -> firstn (S (i - k)) (map f (seq k (n - k))) = map f (seq k (S (i - k))).
Proof. intro H. rewrite firstn_map, firstn_seq. now rewrite Nat.min_l by lia. Qed.
Lemma window_seen (f : nat -> float) k n w i : (1 <= w)%nat -> (k + w - 1 <= i < n)%nat -> window (map f (seq k (n - k))) (i - k) w = win f i w.
Proof.
  intros Hw H. rewrite window_seq by lia. unfold win. f_equal. f_equal. lia.
Qed.
Lemma sumn_run_err p (a : line float) n k f :
  (1 <= p)%nat -> feeds a n k f ->
  (forall i, (k <= i < n)%nat -> finite (f i)) ->
  fabs (map f (seq k (n - k))) <= bpow radix2 1000 -> INR (2 * (n - k)) * ulp1 <= / 2 ->
  exists g, delivers (sumn_run p a) n (k + p - 1) g /\
  forall i, (k + p - 1 <= i < n)%nat ->
    finite (g i) /\
    Rabs (val (g i) - fsum (win f i p)) <= gamma (2 * (i - k + 1)) * (2 * fabs (map f (seq k (i - k + 1)))).
Proof.
  intros Hp Ha Hf HM HK. eexists. split; [apply running_delivers; [exact Hp|apply calc_sum_warm|exact Ha]|].
  intros i Hi. cbv beta. set (s := map f (seq k (n - k))).
  assert (Fs : Forall finite s).
  { apply Forall_forall. intros x Hx. apply in_map_iff in Hx. destruct Hx as (j & <- & Hj). apply in_seq in Hj. apply Hf. lia. }
  assert (Ls : length s = (n - k)%nat) by (unfold s; rewrite map_length, seq_length; reflexivity).
  pose proof (@nth_error_nth' _ (ser_running (calc_sum p) p s) (i - k) vnan) as E. rewrite running_length, Ls in E. specialize (E ltac:(lia)).
  pose proof (fabs_nonneg s) as P0. pose proof (firstn_fabs (S (i - k)) s) as P1.
  apply running_sum_err in E; auto; [|lia| |fold s in HM; lra].
  - unfold s in E. rewrite firstn_seen, window_seen in E by lia. replace (S (i - k)) with (i - k + 1)%nat in E by lia. exact E.
  - eapply Rle_trans; [|exact HK]. apply Rmult_le_compat_r; [pose proof ulp1_pos; lra|]. apply le_INR. lia.
Qed.
