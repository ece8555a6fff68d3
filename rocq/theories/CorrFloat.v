(** Correlation and beta of a series with itself in float64. *)
From Coq Require Import ZArith Reals List Bool Lia Lra.
From Flocq Require Import Core IEEE754.BinarySingleNaN.
From Verif Require Import Num Series Line Spec LineFacts OpFacts ScanFacts RFacts RLineFacts IndMA IndBasic IndStat Float64 FloatSpec FloatFacts FloatLine FloatAvg
  PropFloatFacts Running RunFacts RunSpec RunFloat RunMean RunVar RunVarFacts RunCorr BandSpec64 BandsFloat BandsFlat FilterFloat.
Import ListNotations.
Set Implicit Arguments.
Local Open Scope R_scope.

(** ** Beta *)
Definition one_or_none (v : float) : Prop := missing v \/ (finite v /\ val v = 1).
Lemma div_self (d : float) : one_or_none (vdiv d d).
Proof.
  destruct d as [s|s| |s m e B].
  - left. reflexivity.
  - left. reflexivity.
  - left. reflexivity.
  - right. set (d := B754_finite s m e B : float). assert (Fd : finite d) by reflexivity.
    assert (H : val d <> 0).
    { unfold d, val. cbn [B2R]. unfold F2R. cbn [Fnum Fexp]. apply Rmult_integral_contrapositive_currified.
      - apply not_0_IZR. now destruct s.
      - apply Rgt_not_eq, bpow_gt_0. }
    assert (V1 : val (f1 : float) = 1) by (unfold f1; destruct (@fofZ_exact 1) as [_ ->]; [cbn; lia|reflexivity]).
    destruct (@div_in f1 f1 d d Fd H) as (_ & F & V).
    + rewrite V1. unfold Rdiv. rewrite Rinv_r by exact H. lra.
    + rewrite V1 in V. split; [exact F|lra].
Qed.
Lemma map2_same {A B} (op : A -> A -> B) l : map2 op l l = map (fun x => op x x) l.
Proof. induction l as [|x l IH]; cbn; [reflexivity|]. now rewrite IH. Qed.
Lemma pow2_lmul (a : line float) : (1 <= lmp a)%Z -> pow2 a = lmul a a.
Proof.
  intro H. unfold pow2, binop_s, lmul, binop. rewrite Z.max_l by exact H. rewrite Z.max_id, map2_same. reflexivity.
Qed.
Lemma ldiv_self (a : line float) i v : nth_error (lser (ldiv a a)) i = Some v -> one_or_none v.
Proof.
  intro H. apply nth_error_In in H. revert v H. apply Forall_forall. unfold ldiv, binop, clone. cbn [lser]. apply Forall_set_from.
  - unfold nans. apply Forall_repeat. left. reflexivity.
  - rewrite map2_same. apply Forall_forall. intros y Hy. apply in_map_iff in Hy. destruct Hy as (d & <- & _). apply div_self.
Qed.
Lemma rets_mp (rets : bool) prets (a : line float) : (1 <= lmp a)%Z -> (0 <= prets)%Z -> (1 <= lmp (if rets then pct_change a prets else a))%Z.
Proof. intros. destruct rets; [|assumption]. unfold pct_change, kwop_p, clone. cbn [lmp]. destruct (lmp a =? 0)%Z; lia. Qed.
Lemma beta_self p prets rets (a : line float) : (1 <= lmp a)%Z -> (0 <= prets)%Z ->
  forall i v, nth_error (lser (beta p prets rets a a)) i = Some v \/ nth_error (lser (beta_run p prets rets a a)) i = Some v -> one_or_none v.
Proof.
  intros Ha Hp i v. pose proof (@rets_mp rets prets a Ha Hp) as Hx. unfold beta, beta_run. set (x := if rets then _ else a) in *. clearbody x.
  rewrite !(@pow2_lmul x) by exact Hx. rewrite !pow2_lmul.
  2, 3: unfold sumn_run, running, rolling, clone; cbn [lmp]; match goal with |- context [(?z =? 0)%Z] => destruct (Z.eqb_spec z 0); lia end.
  intros [H|H]; exact (ldiv_self _ _ H).
Qed.

(** ** Correlation, carried *)
Section Two.
  Variables (z x : float).
  Hypothesis Fz : finite z.
  Hypothesis Fx : finite x.
  Let s n := z :: repeat x (S (S n)).
  Lemma s_fin n : Forall finite (s n).
  Proof. constructor; [exact Fz|]. apply Forall_repeat, Fx. Qed.
  Lemma means_stuck st n : r_rem z (r_add x (r_add x (r_add z r_start))) = st -> r_rem x (r_add x st) = st ->
    exists u v, means 2 (s n) = u :: v :: repeat (calc_mean 2 st) (S n).
  Proof.
    intros E E2. unfold means, ser_running. rewrite prep_id by apply s_fin. unfold s. eexists _, _. cbn [repeat run_from]. rewrite E. do 3 f_equal.
    change (x :: x :: repeat x n) with (repeat x (2 + n)). now apply stuck.
  Qed.
  Lemma devs_stuck {T : NumT float} st n : w_swap x z (w_add x (w_add z w_start)) = st -> w_swap x x st = st ->
    exists u v, devs 2 (s n) = u :: v :: repeat (vsqrt (calc_var 2 1 st)) (S n).
  Proof.
    intros E E2. unfold devs. destruct (@walk_turns (fun st => vsqrt (calc_var 2 1 st)) z x x st n Fz Fx Fx E E2 E2) as (u & v & H).
    exists u, v. rewrite line_walking in H; [|lia|constructor; [exact Fz|now apply turns_all]]. rewrite turns_same in H.
    unfold ser_walk. rewrite prep_id by apply s_fin. exact H.
  Qed.
  Lemma paired_self n : vadd z (vmul v0 z) = z -> vadd x (vmul v0 x) = x -> paired (s n) (s n) = s n.
  Proof.
    intros Ez Ex. unfold paired, s. rewrite map2_same. cbn [map]. rewrite Ez. f_equal. generalize (S (S n)) as k. induction k as [|k IH]; cbn [repeat map]; [reflexivity|]. now rewrite Ex, IH.
  Qed.
End Two.
Lemma products (z x : float) n : map2 vmul (z :: repeat x n) (z :: repeat x n) = vmul z z :: repeat (vmul x x) n.
Proof. rewrite map2_same. cbn [map]. f_equal. induction n as [|n IH]; cbn [repeat map]; [reflexivity|]. now rewrite IH. Qed.
Lemma map2_repeat {A B C} (op : A -> B -> C) x y n : map2 op (repeat x n) (repeat y n) = repeat (op x y) n.
Proof. induction n as [|n IH]; cbn; [reflexivity|]. now rewrite IH. Qed.
(** 2.0, then 2.1 for ever *)
Definition f20 : float := fdec 20.
Definition f21 : float := fdec 21.
Definition f20q : float := vmul f20 f20.
Definition f21q : float := vmul f21 f21.
Definition rst2 : rstate float := r_rem f20 (r_add f21 (r_add f21 (r_add f20 r_start))).
Definition rst2q : rstate float := r_rem f20q (r_add f21q (r_add f21q (r_add f20q r_start))).
Definition vst2 : vstate float := w_swap f21 f20 (w_add f21 (w_add f20 w_start)).
Lemma rst2_1 : r_rem f21 (r_add f21 rst2) = rst2. Proof. st_comp. Qed.
Lemma rst2q_1 : r_rem f21q (r_add f21q rst2q) = rst2q. Proof. st_comp. Qed.
Lemma vst2_1 : w_swap f21 f21 vst2 = vst2. Proof. vs_comp. Qed.
Definition corr2 : float :=
  vdiv (vmul (vsub (calc_mean 2 rst2q) (vmul (calc_mean 2 rst2) (calc_mean 2 rst2))) (vdiv (vofZ 2) (vofZ 1)))
       (vmul (Bsqrt mode_NE (calc_var 2 1 vst2)) (Bsqrt mode_NE (calc_var 2 1 vst2))).
Lemma above_check c (w : float) : (Z.abs c <= 2 ^ 53)%Z -> is_finite w && vltb (vofZ c) w = true -> finite w /\ IZR c < val w.
Proof.
  intros Hc Q. apply andb_prop in Q. destruct Q as [Q1 Q2]. split; [exact Q1|]. destruct (fofZ_exact c Hc) as [Fc <-].
  exact (proj1 (@ltb_iff (vofZ c) w Fc Q1) Q2).
Qed.
Lemma corr2_big : is_finite corr2 && vltb (vofZ 163) corr2 = true.
Proof. vm_compute. reflexivity. Qed.
Lemma pair20 : vadd f20 (vmul v0 f20) = f20. Proof. apply B2SF_inj. vm_compute. reflexivity. Qed.
Lemma pair21 : vadd f21 (vmul v0 f21) = f21. Proof. apply B2SF_inj. vm_compute. reflexivity. Qed.
Lemma fin20q : finite (vmul f20 f20). Proof. vm_compute. reflexivity. Qed.
Lemma fin21q : finite (vmul f21 f21). Proof. vm_compute. reflexivity. Qed.
Lemma corr_stays (T : NumT float) : rounded_sqrt T -> exists v, finite v /\ 163 < val v /\
  forall i, (2 <= i)%nat -> nth_error (lser (correl_run 2 (raw (f20 :: repeat f21 i)) (raw (f20 :: repeat f21 i)))) i = Some v.
Proof.
  intro HT. exists corr2. destruct (@above_check 163 corr2 ltac:(cbn; lia) corr2_big) as [Q1 Q2]. split; [exact Q1|]. split; [exact Q2|].
  intros i Hi. destruct i as [|[|n]]; try lia. set (s := f20 :: repeat f21 (S (S n))).
  assert (E : lser (correl_run 2 (raw s) (raw s)) = ser_corr 2 s s).
  { unfold correl_run, raw, clone, bars. cbn [lser lmp]. change (slice_from s (1 - 1)) with (slice_from s (Z.of_nat 0)). rewrite slice_from_nat.
    change (skipn 0 s) with s. change (1 - 1)%Z with (Z.of_nat 0). unfold nans. rewrite set_from_nat by lia. reflexivity. }
  rewrite E. unfold ser_corr, covs. cbv zeta. unfold s. rewrite (@paired_self f20 f21 n pair20 pair21). rewrite products.
  destruct (@means_stuck f20 f21 eq_refl eq_refl rst2 n eq_refl rst2_1) as (a & b & ->).
  destruct (@means_stuck (vmul f20 f20) (vmul f21 f21) fin20q fin21q rst2q n eq_refl rst2q_1) as (c & d & ->).
  destruct (@devs_stuck f20 f21 eq_refl eq_refl T vst2 n eq_refl vst2_1) as (e & f & ->).
  cbn [map2]. rewrite !map2_repeat. cbn [nth_error]. rewrite nth_error_repeat' by lia. rewrite !HT. reflexivity.
Qed.

(** ** Correlation of fresh windows *)
Lemma one_window (T : NumT float) (x y : float) : finite x -> finite y ->
  nth_error (lser (correl 2 0 false (raw [x; y]) (raw [x; y]))) 1 = Some (win_corr [x; y] [x; y]).
Proof.
  intros Fx Fy. unfold correl, rolling2, raw, clone, bars. cbn [lser lmp]. change (slice_from [x; y] (1 - 1)) with [x; y].
  change (1 - 1)%Z with (Z.of_nat 0). unfold nans. rewrite set_from_nat by (cbn; lia). 
  change (Some (if existsb visnan (map prep [x; y]) || existsb visnan (map prep [x; y]) then vnan else win_corr (map prep [x; y]) (map prep [x; y]))
    = Some (win_corr [x; y] [x; y])).
  rewrite prep_id by (repeat constructor; assumption). cbn [existsb]. rewrite (@finite_num x Fx), (@finite_num y Fy). reflexivity.
Qed.
Definition wcorr (x y : float) : float :=
  vdiv (win_cov [x; y] [x; y]) (vmul (Bsqrt mode_NE (win_var 1 [x; y])) (Bsqrt mode_NE (win_var 1 [x; y]))).
Lemma win_corr_root (T : NumT float) (x y : float) : rounded_sqrt T -> win_corr [x; y] [x; y] = wcorr x y.
Proof. intro HT. unfold win_corr, win_std, wcorr. now rewrite !HT. Qed.
Definition e8 : float := vofZ 100000000.
Definition e8' : float := vofZ 100000001.
Definition f3 : float := fdec 3.
Definition f4 : float := fdec 4.
Lemma wcorr_e8 : wcorr e8 e8' = v0. Proof. apply B2SF_inj. vm_compute. reflexivity. Qed.
Lemma wcorr_f3 : is_finite (wcorr f3 f4) && vltb (vofZ 1) (wcorr f3 f4) = true. Proof. vm_compute. reflexivity. Qed.
Lemma corr_window (T : NumT float) : rounded_sqrt T ->
  nth_error (lser (correl 2 0 false (raw [e8; e8']) (raw [e8; e8']))) 1 = Some v0 /\
  exists v, finite v /\ 1 < val v /\ nth_error (lser (correl 2 0 false (raw [f3; f4]) (raw [f3; f4]))) 1 = Some v.
Proof.
  intro HT. split.
  - rewrite one_window by reflexivity. rewrite (@win_corr_root T) by exact HT. now rewrite wcorr_e8.
  - exists (wcorr f3 f4). destruct (@above_check 1 (wcorr f3 f4) ltac:(cbn; lia) wcorr_f3) as [Q1 Q2]. split; [exact Q1|]. split; [exact Q2|].
    rewrite one_window by reflexivity. now rewrite (@win_corr_root T) by exact HT.
Qed.

(** ** The order of the two series *)
Lemma fmul_comm (x y : float) : vmul x y = vmul y x.
Proof.
  change (Bmult mode_NE x y = Bmult mode_NE y x).
  destruct x as [sx|sx| |sx mx ex Hx], y as [sy|sy| |sy my ey Hy]; try reflexivity; unfold Bmult.
  - now rewrite xorb_comm.
  - now rewrite xorb_comm.
  - now rewrite xorb_comm.
  - now rewrite xorb_comm.
  - now rewrite xorb_comm.
  - now rewrite xorb_comm.
  - apply B2SF_inj. rewrite !B2SF_SF2B. rewrite (Pos.mul_comm my mx), (Z.add_comm ey ex), (xorb_comm sy sx). reflexivity.
Qed.
Lemma map2_comm (l m : list float) : map2 vmul l m = map2 vmul m l.
Proof. revert m. induction l as [|x l IH]; intros [|y m]; try reflexivity. cbn [map2]. now rewrite fmul_comm, IH. Qed.
Lemma win_corr_comm (T : NumT float) (l m : list float) : length l = length m -> win_corr l m = win_corr m l.
Proof. intro L. unfold win_corr, win_cov. rewrite L, map2_comm, (fmul_comm (win_mean l)), (fmul_comm (win_std 1 l)). reflexivity. Qed.
Lemma correl_comm (T : NumT float) p prets rets (a b : line float) : lmp a = lmp b -> length (lser a) = length (lser b) ->
  correl p prets rets a b = correl p prets rets b a /\ correl_run p a b = correl_run p b a.
Proof.
  intros M L. assert (LS : forall i, length (slice_from (lser a) i) = length (slice_from (lser b) i)).
  { intro i. unfold slice_from. rewrite !skipn_length. now rewrite L. }
  split.
  - unfold correl, rolling2, clone, bars. rewrite M, L, LS. do 2 f_equal. apply map_ext. intro i. destruct (S i <? p); [reflexivity|].
    rewrite orb_comm. destruct (existsb _ _ || existsb _ _); [reflexivity|]. apply win_corr_comm. rewrite !map_length. unfold window.
    rewrite !firstn_length, !skipn_length. now rewrite LS.
  - unfold correl_run, clone, bars. rewrite M, L. do 2 f_equal. unfold ser_corr, covs. cbv zeta.
    set (x := paired _ (slice_from (lser b) _)). set (y := paired _ (slice_from (lser a) _)).
    now rewrite (map2_comm x y), (map2_comm (means p x)), (map2_comm (devs p x)).
Qed.
