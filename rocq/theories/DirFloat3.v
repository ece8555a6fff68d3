(** The directional indicators and cmo in float64, third part: cmo, and feeds that leave the range. *)
From Coq Require Import ZArith Reals List Bool Lia Lra Psatz.
From Flocq Require Import Core IEEE754.BinarySingleNaN.
From Verif Require Import Num Series Line Spec RSpec LineFacts OpFacts ScanFacts RLineFacts RFacts MAFacts IndMA IndBasic IndRange IndOsc Float64 FloatSpec FloatFacts
  FloatAvg PropFloatFacts EmaFloat Running RunSpec RunMean DirFloat DirFloat2.
Import ListNotations.
Set Implicit Arguments.
Local Open Scope R_scope.
Notation fwithin := FloatSpec.within.

Lemma pct_abs a b : finite a -> Rabs (val a) <= val b -> 0 < val b <= B1000 ->
  fwithin (- pct_bound) pct_bound (vdiv (vmul (vofZ 100) a) b).
Proof.
  intros Fa A [B0 B1]. apply Rabs_le_inv in A. destruct val100 as [F100 V100]. destruct big1010 as [Fg Vg].
  assert (G : 100 * bpow radix2 1000 <= bpow radix2 1010).
  { replace 1010%Z with (10 + 1000)%Z by reflexivity. rewrite bpow_plus. apply Rmult_le_compat_r; [apply bpow_ge_0|].
    change (bpow radix2 10) with 1024. lra. }
  destruct (@mul_in (opp (big 1010)) (big 1010) (vofZ 100) a F100 Fa) as (Em & Fm & Vm).
  { rewrite val_opp, V100, Vg. lra. }
  set (m := vmul (vofZ 100) a) in *. rewrite V100 in *.
  assert (M : - (100 * val b * (1 + bpow radix2 (-53))) <= val m <= 100 * val b * (1 + bpow radix2 (-53))).
  { pose proof (rn_times 100 b) as T. rewrite (Rabs_pos_eq (100 * val b)) in T by lra. apply Rabs_le_inv in T.
    assert (H1 : rn (100 * val a) <= rn (100 * val b)) by (apply rn_le; lra).
    assert (H2 : - rn (100 * val b) <= rn (100 * val a)) by (rewrite <- rn_opp; apply rn_le; lra).
    rewrite Em. nra. }
  assert (E : 100 * (1 + bpow radix2 (-53)) <= pct_bound).
  { unfold pct_bound. replace (-46)%Z with (7 + -53)%Z by reflexivity. rewrite bpow_plus. change (bpow radix2 7) with 128.
    pose proof (bpow_ge_0 radix2 (-53)). lra. }
  assert (E' : 100 * val b * (1 + bpow radix2 (-53)) <= pct_bound * val b) by nra.
  assert (Q : val (opp above100) <= val m / val b <= val above100).
  { rewrite val_opp, val_above100. fold pct_bound. split; apply Rmult_le_reg_r with (val b); try lra;
      unfold Rdiv; rewrite Rmult_assoc, Rinv_l, Rmult_1_r by lra; lra. }
  destruct (@div_in _ _ m b Fm ltac:(lra) Q) as (_ & Fd & Vd). rewrite val_opp, val_above100 in Vd. split; assumption.
Qed.
Notation B999 := (bpow radix2 999).
Lemma cmo_pt u d : fwithin 0 B999 u -> fwithin 0 B999 d ->
  nan_or_within (- pct_bound) pct_bound (vdiv (vmul (vofZ 100) (vsub u d)) (vadd u d)).
Proof.
  intros [Fu Vu] [Fd Vd]. destruct big1000 as (b & Fb & Vb). pose proof bpow_double as D.
  destruct (@add_in (vofZ 0) b u d Fu Fd) as (Ea & Fa & Va); [rewrite val0, Vb; lra|].
  destruct (@sub_in (opp b) b u d Fu Fd) as (Es & Fs & Vs); [rewrite val_opp, Vb; lra|].
  rewrite val0, Vb in Va.
  assert (A : Rabs (val (vsub u d)) <= val (vadd u d)).
  { rewrite Es, Ea. apply Rabs_le. rewrite <- rn_opp. split; apply rn_le; lra. }
  destruct (Rle_lt_or_eq_dec 0 (val (vadd u d)) (proj1 Va)) as [P|P]; [right; apply pct_abs; auto; split; [exact P|exact (proj2 Va)]|].
  left. apply zero_over_zero; auto; [apply val100|]. rewrite <- P in A. pose proof (Rabs_pos (val (vsub u d))).
  destruct (Req_dec (val (vsub u d)) 0) as [Z|Z]; [exact Z|]. apply Rabs_no_R0 in Z. lra.
Qed.

(** sums of moderate numbers that are not negative are such again *)
Definition moderate_sums (sm : ma_fun float) : Prop :=
  forall p (a : line float) n k f, (1 <= p)%nat -> (Z.of_nat p <= 2 ^ 40)%Z -> delivers a n k f -> (k + p <= n)%nat ->
    (forall i, (k <= i < n)%nat -> fwithin 0 B900 (f i)) ->
    exists y g, sm p a = Ok y /\ delivers y n (k + p - 1) g /\
      forall i, (k + p - 1 <= i < n)%nat -> fwithin 0 B999 (g i).
Lemma self_under m x : fwithin 0 m x -> under m x x.
Proof. intros [F V]. repeat split; auto; lra. Qed.
Lemma moderate_sumn : moderate_sums sumn_.
Proof.
  intros p a n k f Hp H40 Da Hn Hf. exists (sumn p a). eexists. split; [reflexivity|].
  split; [apply rolling_delivers; [exact Hp|apply delivers_feeds; exact Da]|].
  intros i Hi. cbv beta. assert (W : Forall finite (win f i p)) by (apply win_bars; intros j Hj; apply Hf; lia).
  rewrite (guard_finite _ W). unfold win_sum, win.
  pose proof (@map_under f f (S i - p) p) as M. specialize (M ltac:(intros j Hj; apply self_under, Hf; lia)).
  apply vsum_under in M; rewrite map_length, seq_length in *; [|exact H40].
  destruct M as (F & _ & L & U). split; [exact F|]. split; [lra|]. destruct (@n940 p H40) as (_ & U9 & _).
  pose proof (bpow_le radix2 940 999 ltac:(lia)). lra.
Qed.
Lemma moderate_smma : moderate_sums smma.
Proof.
  intros p a n k f Hp H40 Da Hn Hf. pose proof (delivers_feeds Da) as Fa.
  assert (HM : bpow radix2 (-1000) <= B900 <= B900) by (split; [apply bpow_le; lia|lra]).
  assert (H46 : (Z.of_nat p <= 2 ^ 46)%Z) by (assert (2 ^ 40 <= 2 ^ 46)%Z by (vm_compute; discriminate); lia).
  set (x := fun i => val (f i)). set (q := (k + p - 1)%nat).
  set (e := fun i => es (1 / INR p) (Rmean (lastp x q p)) x q (i - q)).
  assert (P1 : 1 <= INR p) by (apply (le_INR 1); lia).
  assert (IS : is_smma p k x e).
  { split; [fold q; unfold e; now rewrite Nat.sub_diag|]. fold q. intros i Hi. unfold e. replace (S i - q)%nat with (S (i - q)) by lia.
    cbn [es]. replace (q + S (i - q))%nat with (S i) by lia. field. lra. }
  assert (SZ : forall i, (k <= i < n)%nat -> sized B900 (f i)).
  { intros i Hi. destruct (Hf i Hi) as [F V]. split; [exact F|]. rewrite Rabs_pos_eq; lra. }
  destruct (@smma_close B900 p HM Hp H46 a n k f Fa SZ e Hn IS) as (y & g & E & D & C).
  exists y, g. split; [exact E|]. split; [exact D|]. intros i Hi. destruct (C i Hi) as [F B]. split; [exact F|].
  assert (EV : every nonneg y).
  { refine (@nonneg_smma _ p a y Hp _ E). eapply delivers_every; [exact Da|exact I|]. intros j Hj. destruct (Hf j Hj) as [Fj Vj]. apply finite_nonneg; [exact Fj|apply Vj]. }
  assert (NN : nonneg (g i)).
  { unfold every in EV. rewrite Forall_forall in EV. apply EV. apply nth_error_In with i. apply D. exact Hi. }
  assert (0 <= val (g i)).
  { apply nonneg_iff in NN. destruct NN as [M|[M|[_ M]]]; [| |exact M].
    - destruct (g i); discriminate.
    - rewrite M in F. discriminate F. }
  split; [exact H|].
  assert (W : 0 <= e i <= B900).
  { refine (is_smma_within Hp IS _ _); [lia|]. intros j Hj. unfold x. apply (Hf j). lia. }
  pose proof (@pu p Hp H46) as PU. pose proof (bpow_gt_0 radix2 900) as P9.
  assert (33 * INR p * ulp1 * B900 <= B900).
  { replace (33 * INR p * ulp1 * B900) with (33 * (INR p * ulp1) * B900) by ring. nra. }
  apply Rabs_le_inv in B. pose proof (bpow_le radix2 901 999 ltac:(lia)) as L9.
  assert (2 * B900 = bpow radix2 901) by (change 901%Z with (1 + 900)%Z; rewrite bpow_plus; reflexivity). lra.
Qed.

Section Cmo.
  Variables (a : line float) (n k p : nat) (x : nat -> float) (sm : ma_fun float).
  Hypothesis Ha : feeds a n k x.
  Hypothesis Hp : (1 <= p)%nat.
  Hypothesis H40 : (Z.of_nat p <= 2 ^ 40)%Z.
  Hypothesis Hn : (k + 1 + p <= n)%nat.
  Hypothesis Hx : forall i, (k <= i < n)%nat -> tame (x i).
  Hypothesis Hsm : moderate_sums sm.
  Lemma up_bar : delivers (updays 1 a) n (k + 1) (fun i => clip_lo v0 (vsub (x i) (x (i - 1)%nat))).
  Proof. apply lclip_lo_delivers, delivers_feeds, diff_delivers; [intros []; reflexivity|exact Ha]. Qed.
  Lemma down_bar : delivers (downdays 1 a) n (k + 1) (fun i => vabs (clip_hi v0 (vsub (x i) (x (i - 1)%nat)))).
  Proof. apply mapop_delivers, delivers_feeds, lclip_hi_delivers, delivers_feeds, diff_delivers; [intros []; reflexivity|exact Ha]. Qed.
  Lemma cmo_float : exists y f, cmo sm p a = Ok y /\ delivers y n (k + p) f /\
    forall i, (k + p <= i < n)%nat -> nan_or_within (- pct_bound) pct_bound (f i).
  Proof.
    assert (F0 : finite (v0 : float)) by reflexivity. pose proof (bpow_gt_0 radix2 900) as P9.
    destruct (Hsm Hp H40 up_bar Hn) as (yu & gu & Eu & Du & Wu).
    { intros i Hi. destruct (tame_sub (Hx (i := i) ltac:(lia)) (Hx (i := (i - 1)%nat) ltac:(lia))) as (F & _ & V).
      destruct (clip_lo_val F0 F) as [Fc Ec]. split; [exact Fc|]. rewrite Ec. change (val v0) with 0. unfold Rmax. destruct (Rle_dec _ _); lra. }
    destruct (Hsm Hp H40 down_bar Hn) as (yd & gd & Ed & Dd & Wd).
    { intros i Hi. destruct (tame_sub (Hx (i := i) ltac:(lia)) (Hx (i := (i - 1)%nat) ltac:(lia))) as (F & _ & V).
      destruct (clip_hi_val F0 F) as [Fc Ec]. split; [unfold finite; cbn [vabs NumF]; now rewrite is_finite_Babs|].
      change (val (vabs ?z)) with (val (Babs z)). rewrite val_abs, Ec. change (val v0) with 0. unfold Rmin. destruct (Rle_dec _ _);
        (split; [apply Rabs_pos|]); [rewrite Rabs_R0; lra|]. apply Rabs_le. lra. }
    exists (ldiv (rbinop_s vmul (vofZ 100) (lsub yu yd)) (ladd yu yd)),
           (fun i => vdiv (vmul (vofZ 100) (vsub (gu i) (gd i))) (vadd (gu i) (gd i))).
    split; [unfold cmo; now rewrite Eu, Ed|]. split.
    - eapply del_ext; [| |eapply binop_delivers;
        [eapply delivers_feeds, rbinop_s_delivers, delivers_feeds, binop_delivers; eapply delivers_feeds; [exact Du|exact Dd]
        |eapply delivers_feeds, binop_delivers; eapply delivers_feeds; [exact Du|exact Dd]]]; [lia|reflexivity].
    - intros i Hi. apply cmo_pt; [apply Wu|apply Wd]; lia.
  Qed.
End Cmo.

(** ** feeds that leave the range *)
(** 4.5, 6.7, 7.5 ... : rising bars without a range of their own *)
Definition rising : list float := map fdec [45; 67; 75; 85; 105; 109; 125; 152; 167; 180; 200; 221; 234; 252; 265; 274; 294]%Z.
Lemma di_above : exists (y : line float) v,
  plus_di (smacc 14 false SEED_SUM) 1 (raw rising) (raw rising) (raw rising) = Ok y /\ nth_error (lser y) 15 = Some v /\ finite v /\ 100 < val v.
Proof.
  remember (plus_di (smacc 14 false SEED_SUM) 1 (raw rising) (raw rising) (raw rising)) as o eqn:E.
  assert (Q : match o with Ok y => match nth_error (lser y) 15 with Some v => is_finite v && vltb (vofZ 100) v | None => false end | Raise _ => false end = true)
    by (subst o; vm_compute; reflexivity).
  destruct o as [y|]; [|discriminate]. destruct (nth_error (lser y) 15) as [v|] eqn:N; [|discriminate].
  apply andb_prop in Q. destruct Q as [Q1 Q2]. exists y, v. split; [reflexivity|]. split; [exact N|]. split; [exact Q1|].
  destruct val100 as [F V]. apply ltb_iff in Q2; auto. lra.
Qed.
Lemma cmo_above : exists (y : line float) v,
  cmo sumn_ 2 (raw (map fdec [39; 53; 54]%Z)) = Ok y /\ nth_error (lser y) 2 = Some v /\ finite v /\ 100 < val v.
Proof.
  remember (cmo sumn_ 2 (raw (map fdec [39; 53; 54]%Z))) as o eqn:E.
  assert (Q : match o with Ok y => match nth_error (lser y) 2 with Some v => is_finite v && vltb (vofZ 100) v | None => false end | Raise _ => false end = true)
    by (subst o; vm_compute; reflexivity).
  destruct o as [y|]; [|discriminate]. destruct (nth_error (lser y) 2) as [v|] eqn:N; [|discriminate].
  apply andb_prop in Q. destruct Q as [Q1 Q2]. exists y, v. split; [reflexivity|]. split; [exact N|]. split; [exact Q1|].
  destruct val100 as [F V]. apply ltb_iff in Q2; auto. lra.
Qed.
(** with running totals: 300 *)
Definition sumn_run_ : ma_fun float := fun p a => Ok (sumn_run p a).
Lemma cmo_run_above : exists (y : line float) v,
  cmo sumn_run_ 2 (raw (map fdec [7; 29; 10; 29; 18; 18; 18]%Z)) = Ok y /\ nth_error (lser y) 6 = Some v /\ finite v /\ val v = 300.
Proof.
  remember (cmo sumn_run_ 2 (raw (map fdec [7; 29; 10; 29; 18; 18; 18]%Z))) as o eqn:E.
  assert (Q : match o with Ok y => match nth_error (lser y) 6 with Some v => is_finite v && veqb v (vofZ 300) | None => false end | Raise _ => false end = true)
    by (subst o; vm_compute; reflexivity).
  destruct o as [y|]; [|discriminate]. destruct (nth_error (lser y) 6) as [v|] eqn:N; [|discriminate].
  apply andb_prop in Q. destruct Q as [Q1 Q2]. exists y, v. split; [reflexivity|]. split; [exact N|]. split; [exact Q1|].
  destruct (@fofZ_exact 300) as [F V]; [vm_compute; discriminate|]. apply eqb_iff in Q2; auto. lra.
Qed.
Lemma cmo_run_below : exists (y : line float) v,
  cmo sumn_run_ 3 (raw (map fdec [11; 29; 8; 9; 1; 1; 1; 1]%Z)) = Ok y /\ nth_error (lser y) 7 = Some v /\ finite v /\ val v = -300.
Proof.
  remember (cmo sumn_run_ 3 (raw (map fdec [11; 29; 8; 9; 1; 1; 1; 1]%Z))) as o eqn:E.
  assert (Q : match o with Ok y => match nth_error (lser y) 7 with Some v => is_finite v && veqb v (vofZ (-300)) | None => false end | Raise _ => false end = true)
    by (subst o; vm_compute; reflexivity).
  destruct o as [y|]; [|discriminate]. destruct (nth_error (lser y) 7) as [v|] eqn:N; [|discriminate].
  apply andb_prop in Q. destruct Q as [Q1 Q2]. exists y, v. split; [reflexivity|]. split; [exact N|]. split; [exact Q1|].
  destruct (@fofZ_exact (-300)) as [F V]; [vm_compute; discriminate|]. apply eqb_iff in Q2; auto. lra.
Qed.
Lemma rising_usual : Forall (small 30) rising.
Proof. apply small_comp; [lia|vm_compute; reflexivity]. Qed.
Lemma di_out : exists (s : list float) y v,
  Forall (fun x => finite x /\ 0 < val x <= 30) s /\
  plus_di (smacc 14 false SEED_SUM) 1 (raw s) (raw s) (raw s) = Ok y /\ nth_error (lser y) 15 = Some v /\ finite v /\ 100 < val v.
Proof. destruct di_above as (y & v & H). exists rising, y, v. split; [exact rising_usual|exact H]. Qed.
Lemma cmo_out : exists (s : list float) y v,
  Forall (fun x => finite x /\ 0 < val x <= 6) s /\
  cmo sumn_ 2 (raw s) = Ok y /\ nth_error (lser y) 2 = Some v /\ finite v /\ 100 < val v.
Proof.
  destruct cmo_above as (y & v & H). eexists _, y, v. split; [|exact H]. apply small_comp; [lia|vm_compute; reflexivity].
Qed.
Lemma cmo_run_out :
  (exists (s : list float) y v, Forall (fun x => finite x /\ 0 < val x <= 3) s /\
     cmo sumn_run_ 2 (raw s) = Ok y /\ nth_error (lser y) 6 = Some v /\ finite v /\ val v = 300) /\
  (exists (s : list float) y v, Forall (fun x => finite x /\ 0 < val x <= 3) s /\
     cmo sumn_run_ 3 (raw s) = Ok y /\ nth_error (lser y) 7 = Some v /\ finite v /\ val v = -300).
Proof.
  split.
  - destruct cmo_run_above as (y & v & H). eexists _, y, v. split; [|exact H]. apply small_comp; [lia|vm_compute; reflexivity].
  - destruct cmo_run_below as (y & v & H). eexists _, y, v. split; [|exact H]. apply small_comp; [lia|vm_compute; reflexivity].
Qed.
Lemma di_range_float (high low close : line float) n k lb p xh xl xc (early : bool) :
    feeds high n k xh -> feeds low n k xl -> feeds close n k xc ->
    (1 <= lb)%nat -> (1 <= p)%nat -> (Z.of_nat p <= 2 ^ 40)%Z ->
    let first := if early then (k + lb + p - 1)%nat else (k + lb + p)%nat in
    (first <= n)%nat ->
    (forall i, (k <= i < n)%nat ->
       fwithin (- bpow radix2 899) (bpow radix2 899) (xh i) /\ fwithin (- bpow radix2 899) (bpow radix2 899) (xl i) /\
       fwithin (- bpow radix2 899) (bpow radix2 899) (xc i)) ->
    (forall i, (k <= i < n)%nat -> val (xl i) <= val (xc i) <= val (xh i)) ->
    let bound := 100 + bpow radix2 (-46) in
    let sm := smacc p early SEED_SUM : line float -> res (line float) in
    exists pd md x pf mf f,
      plus_di sm lb high low close = Ok pd /\ minus_di sm lb high low close = Ok md /\
      di sm lb high low close = Ok (pd, md) /\ dx sm lb high low close = Ok x /\
      delivers pd n first pf /\ delivers md n first mf /\ delivers x n first f /\
      (forall i, (first <= i < n)%nat ->
         ((missing (pf i) /\ missing (mf i)) \/ (fwithin 0 bound (pf i) /\ fwithin 0 bound (mf i))) /\
         nan_or_within 0 bound (f i)) /\
      (forall ma w y, keeps_nonneg ma -> (1 <= w)%nat -> adx ma w sm lb high low close = Ok y -> every nonneg y).
Proof.
  intros Hh Hl Hc Hlb Hp H40 first Hf Ht Hbar bound sm.
  assert (E : S (dm_first early p (k + lb)) = first) by (unfold dm_first, first; destruct early; lia).
  assert (Hn : (dm_first early p (k + lb) < n)%nat) by lia.
  destruct (@di_float high low close n k lb p xh xl xc early Hh Hl Hc Hlb Hp H40 Hn Ht Hbar) as (pd & md & pf & mf & E1 & E2 & E3 & D1 & D2 & W).
  destruct (@dx_float high low close n k lb p xh xl xc early Hh Hl Hc Hlb Hp H40 Hn Ht Hbar) as (x & f & E4 & D4 & W4).
  rewrite E in *. exists pd, md, x, pf, mf, f. repeat (split; [assumption|]). split; [|].
  - intros i Hi. split; [exact (W i Hi)|exact (W4 i Hi)].
  - intros ma w y K Hw. exact (@adx_float high low close n k lb p xh xl xc early Hh Hl Hc Hlb Hp H40 Hn Ht Hbar ma w y K Hw).
Qed.
Lemma cmo_range_float (a : line float) n k p x :
    feeds a n k x -> (1 <= p)%nat -> (Z.of_nat p <= 2 ^ 40)%Z -> (k + 1 + p <= n)%nat ->
    (forall i, (k <= i < n)%nat -> fwithin (- bpow radix2 899) (bpow radix2 899) (x i)) ->
    let bound := 100 + bpow radix2 (-46) in
    forall sm, sm = sumn_ \/ sm = smma ->
    exists y f, cmo sm p a = Ok y /\ delivers y n (k + p) f /\
      forall i, (k + p <= i < n)%nat -> nan_or_within (- bound) bound (f i).
Proof.
  intros Ha Hp H40 Hn Hx bound sm Hs. refine (@cmo_float a n k p x sm Ha Hp H40 Hn Hx _).
  destruct Hs as [->| ->]; [exact moderate_sumn|exact moderate_smma].
Qed.
