(** Running means in float64: accuracy, sign, and what an outlier leaves behind. *)
From Coq Require Import ZArith Reals List Bool Lia Lra.
From Flocq Require Import Core IEEE754.BinarySingleNaN.
Require Flocq.Prop.Relative.
From Verif Require Import Num Series Line Spec LineFacts IndMA IndBasic IndOsc Float64 FloatSpec FloatFacts FloatLine FloatAvg
  PropFloatFacts Running RunSpec RunFacts RunFloat.
Import ListNotations.
Local Open Scope R_scope.

(** ** counting the negative values of the window *)
Definition fneg (l : list float) : nat := length (filter (fun x => vltb x v0) l).
Lemma fneg_app l m : fneg (l ++ m) = (fneg l + fneg m)%nat.
Proof. unfold fneg. now rewrite filter_app, app_length. Qed.
Lemma fneg_cons x l : fneg (x :: l) = ((if vltb x v0 then 1 else 0) + fneg l)%nat.
Proof. unfold fneg. cbn [filter]. now destruct (vltb x v0). Qed.
Lemma fneg_nil : fneg [] = 0%nat. Proof. reflexivity. Qed.
Lemma fin0 : finite v0. Proof. reflexivity. Qed.
Lemma fval0 : val v0 = 0. Proof. reflexivity. Qed.
Lemma fneg_0 l : Forall finite l -> fneg l = 0%nat -> 0 <= fsum l.
Proof.
  induction l as [|x l IH]; intros F H; [cbn; lra|]. rewrite fneg_cons in H. inversion F; subst. cbn [fsum].
  assert (0 <= fsum l) by (apply IH; [auto|lia]).
  destruct (vltb x v0) eqn:E; [lia|]. apply ltb_false in E; auto using fin0. rewrite fval0 in E. lra.
Qed.
Lemma fneg_le l : (fneg l <= length l)%nat.
Proof. induction l as [|x l IH]; [reflexivity|]. rewrite fneg_cons. cbn [length]. destruct (vltb x v0); lia. Qed.
Lemma fneg_all l : Forall finite l -> fneg l = length l -> fsum l <= 0.
Proof.
  induction l as [|x l IH]; intros F H; [cbn; lra|]. rewrite fneg_cons in H. cbn [length] in H. inversion F; subst. cbn [fsum].
  pose proof (fneg_le l). assert (fsum l <= 0) by (apply IH; [auto|destruct (vltb x v0); lia]).
  destruct (vltb x v0) eqn:E; [|lia]. apply ltb_iff in E; auto using fin0. rewrite fval0 in E. lra.
Qed.
Lemma finite_num x : finite x -> visnan x = false.
Proof. destruct x; cbn; auto; discriminate. Qed.

(** ** the state at bar [i] *)
Lemma running_state (calc : rstate float -> float) w s i v : (1 <= w)%nat -> Forall finite s -> (w <= S i)%nat ->
  INR (2 * S i) * ulp1 <= / 2 -> fabs (firstn (S i) s) <= bpow radix2 1000 ->
  nth_error (ser_running calc w s) i = Some v ->
  exists st, v = calc st /\ r_nobs st = w /\ r_neg st = fneg (window s i w) /\ finite (r_sum st) /\
  Rabs (val (r_sum st) - fsum (window s i w)) <= gamma (2 * S i) * (2 * fabs (firstn (S i) s)) /\
  Rabs (fsum (window s i w)) <= 2 * fabs (firstn (S i) s).
Proof.
  intros Hw Fs Hi HK HM E. assert (Li : (i < length s)%nat).
  { rewrite <- (running_length calc w s). apply nth_error_Some. congruence. }
  set (K := (2 * S i)%nat) in *. set (M := 2 * fabs (firstn (S i) s)) in *.
  assert (HL : (1 + ulp1) ^ K * M <= limit).
  { unfold limit. replace 1010%Z with (10 + 1000)%Z by reflexivity. rewrite bpow_plus. change (bpow radix2 10) with 1024.
    pose proof (pow_2 _ HK). pose proof (pow_ge1 K). pose proof (fabs_nonneg (firstn (S i) s)). unfold M. nra. }
  apply running_hist with (Q := finite) (P := fun st h win => good K M st h win /\ r_neg st = fneg win) in E; [|exact Hw|now rewrite prep_id| | |].
  - destruct E as (st & ((Hn & _ & HA) & Hneg) & ->). rewrite prep_id in Hn, HA, Hneg by exact Fs.
    rewrite firstn_length, Nat.min_l in HA by lia. specialize (HA ltac:(unfold K; lia) ltac:(unfold M; lra)).
    rewrite <- window_suffix in Hn, HA, Hneg by lia.
    assert (Lw : length (window s i w) = w) by (unfold window; rewrite firstn_length, skipn_length; lia).
    destruct HA as (F & E & B). exists st. rewrite Hn, Lw.
    pose proof (fabs_nonneg (window s i w)).
    assert (fabs (window s i w) <= fabs (firstn (S i) s)).
    { rewrite window_suffix by lia. rewrite <- (firstn_skipn (S i - w) (firstn (S i) s)) at 2. rewrite fabs_app.
      pose proof (fabs_nonneg (firstn (S i - w) (firstn (S i) s))). lra. }
    repeat split; auto; [|fold M in B; lra].
    eapply Rle_trans; [exact E|]. rewrite Lw. fold M.
    assert (G : (1 + ulp1) ^ (2 * S i - w) - 1 <= gamma K).
    { eapply Rle_trans; [|apply pow_gamma; lra]. pose proof (@pow_mono (2 * S i - w) K ltac:(unfold K; lia)). lra. }
    pose proof (fabs_nonneg (firstn (S i) s)). pose proof (pow_ge1 (2 * S i - w)).
    apply Rmult_le_compat; unfold M in *; lra.
  - split; [|reflexivity]. split; [reflexivity|]. split; [now exists []|]. intros _ _. cbn [length fsum fabs r_sum r_start]. replace (2 * 0 - 0) with 0 by lra. apply acc_0.
  - intros st h win x Fx [Hg Hc]. split; [now apply good_add|].
    unfold r_add. rewrite (finite_num _ Fx), fneg_app, fneg_cons, fneg_nil. cbn [r_neg]. destruct (vltb x v0); lia.
  - intros st h y win Fy [Hg Hc]. split; [now apply good_rem|].
    unfold r_rem. rewrite (finite_num _ Fy). rewrite fneg_cons in Hc. cbn [r_neg]. destruct (vltb y v0); lia.
Qed.

(** ** rounding a quotient *)
Lemma rn_err x : Rabs (rn x - x) <= ulp1 * Rabs x + bpow radix2 (-1075).
Proof.
  destruct (Flocq.Prop.Relative.error_N_FLT radix2 emin prec ltac:(reflexivity) (fun x => negb (Z.even x)) x) as (e & t & He & Ht & _ & E).
  unfold rn. rewrite fexp_flt. rewrite E.
  replace (x * (1 + e) + t - x) with (x * e + t) by ring.
  eapply Rle_trans; [apply Rabs_triang|]. rewrite Rabs_mult. apply Rplus_le_compat.
  - rewrite Rmult_comm. apply Rmult_le_compat_r; [apply Rabs_pos|]. eapply Rle_trans; [exact He|].
    change (/ 2) with (bpow radix2 (-1)). rewrite <- bpow_plus. apply Rle_refl.
  - eapply Rle_trans; [exact Ht|]. change (/ 2) with (bpow radix2 (-1)). rewrite <- bpow_plus. apply Rle_refl.
Qed.
Lemma gamma_step k : INR (S k) * ulp1 < 1 -> gamma k * (1 + ulp1) + ulp1 <= gamma (S k).
Proof.
  intro H. pose proof ulp1_pos as U. rewrite S_INR in H. unfold gamma. rewrite S_INR.
  set (a := INR k) in *. assert (0 <= a) by apply pos_INR. set (u := ulp1) in *.
  assert (0 <= a * u) by nra.
  apply Rmult_le_reg_r with ((1 - a * u) * (1 - (a + 1) * u)); [apply Rmult_lt_0_compat; lra|].
  replace ((a * u / (1 - a * u) * (1 + u) + u) * ((1 - a * u) * (1 - (a + 1) * u)))
    with ((a * u * (1 + u) + u * (1 - a * u)) * (1 - (a + 1) * u)) by (field; lra).
  replace ((a + 1) * u / (1 - (a + 1) * u) * ((1 - a * u) * (1 - (a + 1) * u))) with ((a + 1) * u * (1 - a * u)) by (field; lra).
  nra.
Qed.
(** a quotient of an inexact sum *)
Lemma mean_err (t : float) (w : nat) S E A k : finite t -> (1 <= w)%nat -> (Z.of_nat w <= 2 ^ 53)%Z ->
  Rabs (val t - S) <= gamma k * A -> Rabs S <= A -> Rabs (val t) <= limit -> INR (Datatypes.S k) * ulp1 < 1 ->
  E = vdiv t (vofZ (Z.of_nat w)) ->
  finite E /\ Rabs (val E - S / INR w) <= gamma (Datatypes.S k) * A / INR w + bpow radix2 (-1075).
Proof.
  intros Ft Hw Hw53 Ht HS HL Hk ->. destruct (fofZ_exact (Z.of_nat w)) as [Fw Vw]; [lia|].
  rewrite <- INR_IZR_INZ in Vw.
  assert (W1 : 1 <= INR w) by (apply (le_INR 1); lia).
  destruct big1010 as [FB VB].
  destruct (@div_in (opp (big 1010)) (big 1010) t (vofZ (Z.of_nat w))) as (V & F & _); [exact Ft|rewrite Vw; lra| |].
  { apply big_limit. rewrite Vw. unfold Rdiv. rewrite Rabs_mult, (Rabs_right (/ INR w)) by (apply Rle_ge, Rlt_le, Rinv_0_lt_compat; lra).
    eapply Rle_trans; [|exact HL]. rewrite <- (Rmult_1_r (Rabs (val t))) at 2. apply Rmult_le_compat_l; [apply Rabs_pos|].
    rewrite <- Rinv_1. apply Rinv_le_contravar; lra. }
  split; [exact F|]. rewrite V, Vw. pose proof ulp1_pos as U. set (q := val t / INR w) in *.
  assert (Q : Rabs (q - S / INR w) <= gamma k * A / INR w).
  { replace (q - S / INR w) with ((val t - S) / INR w) by (unfold q; field; lra). unfold Rdiv.
    rewrite Rabs_mult, (Rabs_right (/ INR w)) by (apply Rle_ge, Rlt_le, Rinv_0_lt_compat; lra).
    apply Rmult_le_compat_r; [apply Rlt_le, Rinv_0_lt_compat; lra|exact Ht]. }
  assert (Sz : Rabs (S / INR w) <= A / INR w).
  { unfold Rdiv. rewrite Rabs_mult, (Rabs_right (/ INR w)) by (apply Rle_ge, Rlt_le, Rinv_0_lt_compat; lra).
    apply Rmult_le_compat_r; [apply Rlt_le, Rinv_0_lt_compat; lra|exact HS]. }
  assert (Qz : Rabs q <= gamma k * A / INR w + A / INR w).
  { replace q with ((q - S / INR w) + S / INR w) by ring. eapply Rle_trans; [apply Rabs_triang|lra]. }
  replace (rn q - S / INR w) with ((rn q - q) + (q - S / INR w)) by ring.
  eapply Rle_trans; [apply Rabs_triang|]. pose proof (rn_err q).
  assert (A0 : 0 <= A / INR w) by (pose proof (Rabs_pos (S / INR w)); lra).
  pose proof (gamma_step k Hk) as G.
  assert (gamma (Datatypes.S k) * A / INR w >= (gamma k * (1 + ulp1) + ulp1) * (A / INR w)).
  { unfold Rdiv in *. rewrite Rmult_assoc. apply Rmult_ge_compat_r; lra. }
  unfold Rdiv in *. rewrite !Rmult_assoc in *. nra.
Qed.
Lemma running_mean_err w s i v : (1 <= w)%nat -> (Z.of_nat w <= 2 ^ 53)%Z -> Forall finite s -> (w <= S i)%nat ->
  INR (2 * S i) * ulp1 <= / 2 -> fabs (firstn (S i) s) <= bpow radix2 1000 ->
  nth_error (ser_running (calc_mean w) w s) i = Some v ->
  finite v /\
  Rabs (val v - fsum (window s i w) / INR w) <= gamma (2 * S i + 1) * (2 * fabs (firstn (S i) s)) / INR w + bpow radix2 (-1075).
Proof.
  intros Hw Hw53 Fs Hi HK HM E. assert (Li : (i < length s)%nat).
  { rewrite <- (running_length (calc_mean w) w s). apply nth_error_Some. congruence. }
  apply running_state in E; auto. destruct E as (st & -> & Hn & Hneg & F & E & B).
  set (M := 2 * fabs (firstn (S i) s)) in *. set (W := window s i w) in *.
  assert (FW : Forall finite W) by (unfold W, window; apply Forall_firstn, Forall_skipn, Fs).
  assert (LW : length W = w) by (unfold W, window; rewrite firstn_length, skipn_length; lia).
  replace (2 * S i + 1)%nat with (S (2 * S i)) by lia. set (k := (2 * S i)%nat) in *.
  pose proof ulp1_pos as U.
  assert (u4 : ulp1 <= / 4) by (change (/ 4) with (bpow radix2 (-2)); apply bpow_le; lia).
  assert (HK1 : INR (S k) * ulp1 < 1) by (rewrite S_INR; lra).
  assert (G1 : gamma k <= 1).
  { unfold gamma. assert (0 <= INR k * ulp1) by (apply Rmult_le_pos; [apply pos_INR|lra]).
    apply Rmult_le_reg_r with (1 - INR k * ulp1); [lra|]. unfold Rdiv. rewrite Rmult_assoc, Rinv_l by lra. lra. }
  pose proof (fabs_nonneg (firstn (S i) s)) as P0.
  assert (HL : Rabs (val (r_sum st)) <= limit).
  { replace (val (r_sum st)) with ((val (r_sum st) - fsum W) + fsum W) by ring. eapply Rle_trans; [apply Rabs_triang|].
    apply Rle_trans with (M + M); [unfold M in *; nra|]. unfold limit. replace 1010%Z with (10 + 1000)%Z by reflexivity. rewrite bpow_plus. change (bpow radix2 10) with 1024.
    unfold M. pose proof (bpow_gt_0 radix2 1000). lra. }
  unfold calc_mean. rewrite Hn, Nat.leb_refl, Hneg.
  destruct (@mean_err (r_sum st) w (fsum W) (vdiv (r_sum st) (vofZ (Z.of_nat w))) M k) as [Fr Er]; auto.
  set (r := vdiv (r_sum st) (vofZ (Z.of_nat w))) in *.
  set (bnd := gamma (S k) * M / INR w + bpow radix2 (-1075)) in *.
  assert (W1 : 1 <= INR w) by (apply (le_INR 1); lia). assert (Wi : 0 < / INR w) by (apply Rinv_0_lt_compat; lra).
  destruct ((fneg W =? 0)%nat && vltb r v0) eqn:E1.
  - apply andb_prop in E1. destruct E1 as [E1 E2]. apply Nat.eqb_eq in E1. apply ltb_iff in E2; auto using fin0. rewrite fval0 in E2.
    split; [exact fin0|]. rewrite fval0. pose proof (@fneg_0 W FW E1). assert (0 <= fsum W / INR w) by (unfold Rdiv; nra).
    eapply Rle_trans; [|exact Er]. rewrite !Rabs_left1 by lra. lra.
  - destruct ((fneg W =? w)%nat && vltb v0 r) eqn:E3; [|split; auto].
    apply andb_prop in E3. destruct E3 as [E3 E2]. apply Nat.eqb_eq in E3. apply ltb_iff in E2; auto using fin0. rewrite fval0 in E2.
    split; [exact fin0|]. rewrite fval0. pose proof (@fneg_all W FW ltac:(lia)). assert (fsum W / INR w <= 0) by (unfold Rdiv; nra).
    eapply Rle_trans; [|exact Er]. rewrite !Rabs_right by lra. lra.
Qed.
Lemma sma_run_err p (a : line float) n k f :
  (1 <= p)%nat -> feeds a n k f ->
  (forall i, (k <= i < n)%nat -> finite (f i)) ->
  fabs (map f (seq k (n - k))) <= bpow radix2 1000 -> INR (2 * (n - k)) * ulp1 <= / 2 ->
  exists g, delivers (sma_run p a) n (k + p - 1) g /\
  forall i, (k + p - 1 <= i < n)%nat ->
    finite (g i) /\
    Rabs (val (g i) - fsum (win f i p) / INR p)
      <= gamma (2 * (i - k + 1) + 1) * (2 * fabs (map f (seq k (i - k + 1)))) / INR p + bpow radix2 (-1075).
Proof.
  intros Hp Ha Hf HM HK. eexists. split; [apply running_delivers; [exact Hp|apply calc_mean_warm|exact Ha]|].
  intros i Hi. cbv beta. set (s := map f (seq k (n - k))).
  assert (Fs : Forall finite s).
  { apply Forall_forall. intros x Hx. apply in_map_iff in Hx. destruct Hx as (j & <- & Hj). apply in_seq in Hj. apply Hf. lia. }
  assert (Ls : length s = (n - k)%nat) by (unfold s; rewrite map_length, seq_length; reflexivity).
  pose proof (@nth_error_nth' _ (ser_running (calc_mean p) p s) (i - k) vnan) as E. rewrite running_length, Ls in E. specialize (E ltac:(lia)).
  pose proof (fabs_nonneg s) as P0. pose proof (firstn_fabs (S (i - k)) s) as P1.
  assert (HK' : INR (2 * S (i - k)) * ulp1 <= / 2).
  { eapply Rle_trans; [|exact HK]. apply Rmult_le_compat_r; [pose proof ulp1_pos; lra|]. apply le_INR. lia. }
  apply running_mean_err in E; auto; [| |lia|fold s in HM; lra].
  - unfold s in E. rewrite firstn_seen, window_seen in E by lia. replace (S (i - k)) with (i - k + 1)%nat in E by lia. exact E.
  - assert (U : ulp1 = / IZR (2 ^ 53)) by (unfold ulp1; cbn; reflexivity).
    assert (0 < IZR (2 ^ 53)) by (apply IZR_lt; reflexivity).
    assert (INR p <= IZR (2 ^ 53)).
    { apply Rle_trans with (INR (2 * S (i - k))); [apply le_INR; lia|]. rewrite U in HK'.
      apply Rmult_le_reg_r with (/ IZR (2 ^ 53)); [apply Rinv_0_lt_compat; lra|]. rewrite Rinv_r by lra. lra. }
    apply le_IZR. now rewrite <- INR_IZR_INZ.
Qed.

(** ** sign *)
Lemma nonneg_notneg x : nonneg x -> vltb x v0 = false.
Proof. destruct x as [[]|[]| |[]]; cbn; intro H; try discriminate; reflexivity. Qed.
Lemma notneg_nonneg x : vltb x v0 = false -> nonneg x.
Proof. destruct x as [[]|[]| |[]]; cbn; intro H; try discriminate; exact I || reflexivity. Qed.
Lemma sma_run_nonneg : keeps_nonneg (fun p a => Ok (sma_run p a)).
Proof.
  intros p a y Hp Ha E. injection E as <-. unfold sma_run, running, every, clone.
  cbn [lser]; (apply Forall_set_from; [apply every_nans, nonneg_nan|]);
  (apply Forall_forall; intros v Hv; apply In_nth_error in Hv; destruct Hv as [i Hv];
   apply running_nth with (Q := nonneg) (P := fun st _ => r_neg st = 0%nat) in Hv;
   [|exact Hp| |reflexivity| |]).
  all: try (apply Forall_map' with (R := nonneg); [intros x Hx; apply (@prep_keep _ _ nonneg); auto using nonneg_nan|apply Forall_slice_from; exact Ha]).
  all: try (intros st win x Hx Hst; unfold r_add; destruct (visnan x); cbn [r_neg]; [|rewrite (@nonneg_notneg x Hx)]; exact Hst).
  all: try (intros st x win Hx Hst; unfold r_rem; destruct (visnan x); cbn [r_neg]; [|rewrite (@nonneg_notneg x Hx)]; exact Hst).
  all: destruct Hv as (st & Hst & ->); unfold calc_mean; destruct (p <=? r_nobs st)%nat; [|exact nonneg_nan]; rewrite Hst; cbn [Nat.eqb andb];
    match goal with |- context [vltb ?r v0] => destruct (vltb r v0) eqn:E end; [exact nonneg_0|];
    match goal with |- nonneg (if ?b then _ else _) => destruct b end; [exact nonneg_0|now apply notneg_nonneg].
Qed.

(** ** what is left behind *)
Section Stuck.
  Context {V : Type} {N : Num V}.
  Variables (calc : rstate V -> V) (x : V) (st : rstate V).
  Hypothesis H : r_rem x (r_add x st) = st.
  Lemma stuck n : forall m, run_from calc 0 st (repeat x (S m + n)) (repeat x n) = repeat (calc st) n.
  Proof.
    induction n as [|n IH]; intro m; [reflexivity|]. cbn [repeat Nat.add run_from]. rewrite H. f_equal.
    rewrite <- plus_n_Sm, <- Nat.add_succ_l. apply IH.
  Qed.
End Stuck.
Lemma st_eq (a b : rstate float) : r_nobs a = r_nobs b -> r_neg a = r_neg b -> B2SF (r_sum a) = B2SF (r_sum b) -> a = b.
Proof. destruct a as [n1 g1 s1], b as [n2 g2 s2]; cbn. intros -> -> H. f_equal. now apply B2SF_inj. Qed.
Ltac st_comp := apply st_eq; vm_compute; reflexivity.
Definition e16 : float := vofZ 10000000000000000.
Definition f1 : float := vofZ 1.
Definition stk : rstate float := mkRs 2 0 (B754_zero false).
Definition stm : rstate float := mkRs 2 0 (vofZ (-1)).
Lemma stk_1 : r_rem f1 (r_add f1 stk) = stk. Proof. st_comp. Qed.
Lemma stm_0 : r_rem v0 (r_add v0 stm) = stm. Proof. st_comp. Qed.
Lemma stk_in : r_rem e16 (r_add f1 (r_add f1 (r_add e16 r_start))) = stk. Proof. st_comp. Qed.
Lemma stk_stm : r_rem f1 (r_add v0 (r_rem e16 (r_add v0 (r_add f1 (r_add e16 r_start))))) = stm. Proof. st_comp. Qed.
Lemma run_ones (calc : rstate float -> float) n :
  let s := e16 :: repeat f1 (S (S n)) in
  run_from calc 2 r_start s s = calc (r_add e16 r_start) :: calc (r_add f1 (r_add e16 r_start)) :: repeat (calc stk) (S n).
Proof.
  intro s. unfold s. set (e := e16). set (o := f1). cbn [repeat run_from]. unfold e, o. rewrite stk_in. do 3 f_equal.
  change (f1 :: f1 :: repeat f1 n) with (repeat f1 (2 + n)). apply stuck, stk_1.
Qed.
Lemma run_zeros (calc : rstate float -> float) n :
  let s := e16 :: f1 :: repeat v0 (S (S n)) in
  exists a b c, run_from calc 2 r_start s s = a :: b :: c :: repeat (calc stm) (S n).
Proof.
  intro s. unfold s. set (e := e16). set (o := f1). set (z := v0 : float). cbn [repeat run_from]. unfold e, o, z. rewrite stk_stm.
  do 3 eexists. do 4 f_equal. change (v0 :: v0 :: repeat v0 n) with (repeat (v0 : float) (2 + n)). apply stuck, stm_0.
Qed.
Lemma line_running (calc : rstate float -> float) w s : (1 <= w)%nat -> Forall finite s ->
  lser (running w calc (raw s)) = run_from calc w r_start s s.
Proof.
  intros Hw Fs. unfold running, raw, clone, bars; cbn [lser lmp]. unfold ser_running.
  change (slice_from s (1 - 1)) with (slice_from s (Z.of_nat 0)). rewrite slice_from_nat. change (skipn 0 s) with s. rewrite prep_id by exact Fs.
  change (1 - 1)%Z with (Z.of_nat 0). unfold nans. rewrite set_from_nat by lia. reflexivity.
Qed.
Lemma fin_f1 : finite f1. Proof. reflexivity. Qed.
Lemma fin_e16 : finite e16. Proof. reflexivity. Qed.
Lemma nth_error_repeat' {A} (x : A) n i : (i < n)%nat -> nth_error (repeat x n) i = Some x.
Proof. apply nth_error_repeat. Qed.
(** the average of ones is zero *)
Lemma sma_run_stuck i : (2 <= i)%nat ->
  nth_error (lser (sma_run 2 (raw (e16 :: repeat f1 i)))) i = Some v0.
Proof.
  intro Hi. destruct i as [|[|n]]; [lia|lia|].
  unfold sma_run. rewrite line_running; [|lia|constructor; [exact fin_e16|apply Forall_repeat, fin_f1]].
  rewrite (run_ones (calc_mean 2) n). cbn [nth_error]. rewrite nth_error_repeat' by lia.
  vm_compute. reflexivity.
Qed.
(** the sum of zeros is minus one *)
Lemma sumn_run_stuck i : (3 <= i)%nat ->
  nth_error (lser (sumn_run 2 (raw (e16 :: f1 :: repeat v0 (i - 1))))) i = Some (vofZ (-1)).
Proof.
  intro Hi. destruct i as [|[|[|n]]]; try lia.
  unfold sumn_run. rewrite line_running; [|lia|constructor; [exact fin_e16|constructor; [exact fin_f1|apply Forall_repeat, fin0]]].
  replace (S (S (S n)) - 1)%nat with (S (S n)) by lia.
  destruct (run_zeros (calc_sum 2) n) as (a & b & c & ->). cbn [nth_error]. now rewrite nth_error_repeat' by lia.
Qed.

(** ** fresh windows *)
Lemma fabs_map_in f : forall l m : list nat, incl l m -> NoDup l -> fabs (map f l) <= fabs (map f m).
Proof.
  intros l. induction l as [|x l IH]; intros m I D; [cbn; apply fabs_nonneg|].
  destruct (in_split x m) as (m1 & m2 & ->); [apply I; now left|]. inversion D; subst.
  assert (K : fabs (map f l) <= fabs (map f (m1 ++ m2))).
  { apply IH; auto. intros y Hy. assert (Iy : In y (m1 ++ x :: m2)) by (apply I; now right).
    apply in_app_iff in Iy. apply in_app_iff. destruct Iy as [|[->|]]; auto. contradiction. }
  rewrite map_app, fabs_app in K |- *. cbn [map fabs] in *. lra.
Qed.
Lemma win_within f k n p i : (1 <= p)%nat -> (k + p - 1 <= i < n)%nat -> fabs (win f i p) <= fabs (map f (seq k (n - k))).
Proof.
  intros Hp Hi. unfold win. apply fabs_map_in; [|apply seq_NoDup]. intros j Hj. apply in_seq in Hj. apply in_seq. lia.
Qed.
Lemma win_finite (f : nat -> float) k n p i : (1 <= p)%nat -> (k + p - 1 <= i < n)%nat ->
  (forall j, (k <= j < n)%nat -> finite (f j)) -> Forall finite (win f i p).
Proof.
  intros Hp Hi Hf. apply Forall_forall. intros x Hx. unfold win in Hx. apply in_map_iff in Hx. destruct Hx as (j & <- & Hj).
  apply in_seq in Hj. apply Hf. lia.
Qed.
Lemma win_length (f : nat -> float) i p : length (win f i p) = p.
Proof. unfold win. now rewrite map_length, seq_length. Qed.
Lemma sumn_err p (a : line float) n k f :
  (1 <= p)%nat -> feeds a n k f -> (forall i, (k <= i < n)%nat -> finite (f i)) ->
  (forall i, (k + p - 1 <= i < n)%nat -> fabs (win f i p) <= bpow radix2 1000) -> INR p * ulp1 <= / 2 ->
  exists g, delivers (sumn p a) n (k + p - 1) g /\
  forall i, (k + p - 1 <= i < n)%nat ->
    finite (g i) /\ Rabs (val (g i) - fsum (win f i p)) <= gamma p * fabs (win f i p).
Proof.
  intros Hp Ha Hf HM HK. eexists. split; [apply rolling_delivers; [exact Hp|exact Ha]|].
  intros i Hi. cbv beta. pose proof (@win_finite f k n p i Hp Hi Hf) as W. rewrite PropFloatFacts.guard_finite by exact W.
  unfold win_sum. pose proof (@vsum_err (win f i p) W) as E. rewrite win_length in E. apply E; [exact HK|]. now apply HM.
Qed.
Lemma sma_err p (a : line float) n k f :
  (1 <= p)%nat -> feeds a n k f -> (forall i, (k <= i < n)%nat -> finite (f i)) ->
  (forall i, (k + p - 1 <= i < n)%nat -> fabs (win f i p) <= bpow radix2 1000) -> INR p * ulp1 <= / 2 ->
  exists g, delivers (sma p a) n (k + p - 1) g /\
  forall i, (k + p - 1 <= i < n)%nat ->
    finite (g i) /\
    Rabs (val (g i) - fsum (win f i p) / INR p) <= gamma (p + 1) * fabs (win f i p) / INR p + bpow radix2 (-1075).
Proof.
  intros Hp Ha Hf HM HK. eexists. split; [apply rolling_delivers; [exact Hp|exact Ha]|].
  intros i Hi. cbv beta. pose proof (@win_finite f k n p i Hp Hi Hf) as W. rewrite PropFloatFacts.guard_finite by exact W.
  specialize (HM i Hi). pose proof (@vsum_err (win f i p) W) as E. rewrite win_length in E. destruct (E HK HM) as [F B]. clear E.
  unfold win_mean. rewrite win_length. replace (p + 1)%nat with (S p) by lia.
  pose proof ulp1_pos as U. assert (u4 : ulp1 <= / 4) by (change (/ 4) with (bpow radix2 (-2)); apply bpow_le; lia).
  assert (G1 : gamma p <= 1).
  { unfold gamma. assert (0 <= INR p * ulp1) by (apply Rmult_le_pos; [apply pos_INR|lra]).
    apply Rmult_le_reg_r with (1 - INR p * ulp1); [lra|]. unfold Rdiv. rewrite Rmult_assoc, Rinv_l by lra. lra. }
  assert (SA : Rabs (fsum (win f i p)) <= fabs (win f i p)).
  { clear. induction (win f i p) as [|x l IH]; cbn [fsum fabs]; [rewrite Rabs_R0; lra|].
    eapply Rle_trans; [apply Rabs_triang|lra]. }
  pose proof (fabs_nonneg (win f i p)) as A0.
  apply (@mean_err (vsum (win f i p)) p (fsum (win f i p)) _ (fabs (win f i p)) p); auto.
  - assert (E : ulp1 = / IZR (2 ^ 53)) by (unfold ulp1; cbn; reflexivity).
    assert (0 < IZR (2 ^ 53)) by (apply IZR_lt; reflexivity).
    apply le_IZR. rewrite <- INR_IZR_INZ. rewrite E in HK.
    apply Rmult_le_reg_r with (/ IZR (2 ^ 53)); [apply Rinv_0_lt_compat; lra|]. rewrite Rinv_r by lra. lra.
  - replace (val (vsum (win f i p))) with ((val (vsum (win f i p)) - fsum (win f i p)) + fsum (win f i p)) by ring.
    eapply Rle_trans; [apply Rabs_triang|]. unfold limit. replace 1010%Z with (10 + 1000)%Z by reflexivity. rewrite bpow_plus. change (bpow radix2 10) with 1024.
    pose proof (bpow_gt_0 radix2 1000). nra.
  - rewrite S_INR. lra.
Qed.

(** ** the money flow index with these sums *)
Definition fdec (k : Z) : float := vofQ (QArith_base.Qmake k 10).
Lemma mfi_run_above :
  let p := map fdec [18; 8; 12; 8; 22; 8; 25; 25; 25]%Z in
  let v := map (vofZ : Z -> float) [3; 1; 4; 5; 1; 2; 3; 1; 3]%Z in
  exists y : float, nth_error (lser (mfi_run 2 (raw p) (raw p) (raw p) (raw v))) 8 = Some y /\ finite y /\ 133 < val y.
Proof.
  cbv zeta. match goal with |- exists y, nth_error ?l 8 = Some y /\ _ => remember (nth_error l 8) as o eqn:E end.
  assert (Q : match o with Some y => is_finite y && vltb (vofZ 133) y | None => false end = true) by (subst o; vm_compute; reflexivity).
  destruct o as [y|]; [|discriminate]. apply andb_prop in Q. destruct Q as [Q1 Q2]. exists y. split; [reflexivity|]. split; [exact Q1|].
  assert (H : finite (vofZ 133) /\ val (vofZ 133) = 133) by (apply fofZ_exact; vm_compute; discriminate). destruct H as [F133 V133].
  apply ltb_iff in Q2; auto. lra.
Qed.
Lemma mfi_run_below :
  let p := map fdec [13; 17; 12; 28; 19; 19; 19]%Z in
  let v := map (vofZ : Z -> float) [4; 3; 5; 5; 1; 4; 5]%Z in
  exists y : float, nth_error (lser (mfi_run 2 (raw p) (raw p) (raw p) (raw v))) 5 = Some y /\ finite y /\ val y < 0.
Proof.
  cbv zeta. match goal with |- exists y, nth_error ?l 5 = Some y /\ _ => remember (nth_error l 5) as o eqn:E end.
  assert (Q : match o with Some y => is_finite y && vltb y v0 | None => false end = true) by (subst o; vm_compute; reflexivity).
  destruct o as [y|]; [|discriminate]. apply andb_prop in Q. destruct Q as [Q1 Q2]. exists y. split; [reflexivity|]. split; [exact Q1|].
  apply ltb_iff in Q2; auto using fin0. 
Qed.
Lemma sma_fresh_one i : (2 <= i)%nat ->
  nth_error (lser (sma 2 (raw (e16 :: repeat f1 i)))) i = Some f1.
Proof.
  intro Hi. pose proof (raw_feeds (e16 :: repeat f1 i) f1) as R. eapply (rolling_delivers (w := 2) win_mean) in R; [|lia].
  destruct R as [[_ [_ R]] _]. unfold sma. rewrite (R i) by (cbn; rewrite repeat_length; lia). f_equal.
  assert (E : win (fun j => nth j (e16 :: repeat f1 i) f1) i 2 = [f1; f1]).
  { unfold win. replace (S i - 2)%nat with (i - 1)%nat by lia. cbn [seq map]. replace (S (i - 1)) with i by lia.
    destruct i as [|[|n]]; try lia. cbn [nth]. replace (S (S n) - 1)%nat with (S n) by lia. cbn [nth].
    rewrite !nth_repeat. reflexivity. }
  rewrite E. apply B2SF_inj. vm_compute. reflexivity.
Qed.
Definition small (hi : Z) (x : float) : Prop := finite x /\ 0 < val x <= IZR hi.
Lemma small_comp hi l : (0 <= hi <= 1000)%Z ->
  forallb (fun x : float => is_finite x && (vltb v0 x && vleb x (vofZ hi))) l = true -> Forall (small hi) l.
Proof.
  intros Hh H. rewrite forallb_forall in H. apply Forall_forall. intros x Hx. specialize (H x Hx).
  apply andb_prop in H. destruct H as [F H]. apply andb_prop in H. destruct H as [A B].
  assert (P : (1000 < 2 ^ 53)%Z) by reflexivity. destruct (fofZ_exact hi) as [Fh Vh]; [lia|].
  apply ltb_iff in A; [|exact fin0|exact F]. apply leb_iff in B; [|exact F|exact Fh]. rewrite fval0 in A. rewrite Vh in B.
  split; [exact F|lra].
Qed.
Lemma mfi_run_out :
  (exists (s v : list float) i y, Forall (small 3) s /\ Forall (small 5) v /\
     nth_error (lser (mfi_run 2 (raw s) (raw s) (raw s) (raw v))) i = Some y /\ finite y /\ 133 < val y) /\
  (exists (s v : list float) i y, Forall (small 3) s /\ Forall (small 5) v /\
     nth_error (lser (mfi_run 2 (raw s) (raw s) (raw s) (raw v))) i = Some y /\ finite y /\ val y < 0).
Proof.
  split.
  - destruct mfi_run_above as (y & H). refine (ex_intro _ _ (ex_intro _ _ (ex_intro _ _ (ex_intro _ y (conj _ (conj _ H)))))).
    + apply small_comp; [lia|vm_compute; reflexivity].
    + apply small_comp; [lia|vm_compute; reflexivity].
  - destruct mfi_run_below as (y & H). refine (ex_intro _ _ (ex_intro _ _ (ex_intro _ _ (ex_intro _ y (conj _ (conj _ H)))))).
    + apply small_comp; [lia|vm_compute; reflexivity].
    + apply small_comp; [lia|vm_compute; reflexivity].
Qed.
