(** Deviations of equal prices in float64, and what has left the window. *)
From Coq Require Import ZArith Reals List Bool Lia Lra Psatz.
From Flocq Require Import Core IEEE754.BinarySingleNaN.
From Verif Require Import Num Series Line Spec LineFacts OpFacts ScanFacts RFacts RLineFacts IndMA IndStat Float64 FloatSpec FloatFacts FloatLine FloatAvg
  PropFloatFacts Running RunFacts RunSpec RunFloat RunMean RunVar RunVarFacts BandSpec64 BandsFloat.
Import ListNotations.
Set Implicit Arguments.
Local Open Scope R_scope.

(** ** The bars a carried calculation delivers *)
Section Lines.
  Context {V : Type} {N : Num V}.
  Lemma walk_nobs (x y : V) st win : w_nobs st = nobs (y :: win) -> w_nobs (w_swap x y st) = nobs (win ++ [x]).
  Proof.
    intro H. rewrite nobs_app. unfold w_swap, w_rem, w_add, nobs in *. cbn [filter] in *. destruct (visnan x), (visnan y); cbn in *; try lia.
    rewrite H. cbn [pred]. destruct (length (filter _ win)); cbn; lia.
  Qed.
  Lemma walk_warm (calc : vstate V -> V) w s i : (1 <= w)%nat -> (forall st, (w_nobs st < w)%nat -> calc st = vnan) ->
    (S i < w)%nat -> (i < length s)%nat -> nth_error (ser_walk calc w s) i = Some vnan.
  Proof.
    intros Hw Hc Hi Hs. destruct (nth_error (ser_walk calc w s) i) as [v|] eqn:E;
      [|apply nth_error_None in E; rewrite ser_walk_length in E; lia].
    apply walking_nth with (Q := fun _ => True) (P := fun st l => w_nobs st = nobs l) in E;
      [|exact Hw|apply Forall_forall; auto|reflexivity| |].
    - destruct E as (st & Hst & ->). rewrite Hc; [reflexivity|]. rewrite Hst. eapply Nat.le_lt_trans; [apply nobs_le|].
      rewrite skipn_length, firstn_length, map_length. lia.
    - intros st win x _ H. rewrite nobs_app. unfold w_add, nobs at 2; cbn. destruct (visnan x); cbn; lia.
    - intros st y win x _ _. apply walk_nobs.
  Qed.
  Lemma walking_delivers (calc : vstate V -> V) w (a : line V) n k f :
    (1 <= w)%nat -> (forall st, (w_nobs st < w)%nat -> calc st = vnan) -> feeds a n k f ->
    delivers (walking w calc a) n (k + w - 1) (fun i => nth (i - k) (ser_walk calc w (map f (seq k (n - k)))) vnan).
  Proof.
    intros Hw Hc Ha. unfold walking, bars. rewrite (feeds_mp Ha), (feeds_len Ha).
    replace (Z.max (Z.of_nat (S k) + (Z.of_nat w - 0 - 1)) 1) with (Z.of_nat (S (k + w - 1))) by lia.
    rewrite mp_idx, clone_S, (feeds_slice Ha) by lia.
    set (L := ser_walk calc w (map f (seq k (n - k)))).
    assert (EL : length L = (n - k)%nat) by (unfold L; rewrite ser_walk_length, map_length, seq_length; reflexivity).
    replace L with (map (fun i => nth (i - k) L vnan) (seq k (n - k))) at 1.
    2:{ apply nth_error_ext; [rewrite map_length, seq_length; auto|]. intros i Hi. rewrite map_length, seq_length in Hi.
        rewrite nth_error_map_seq by exact Hi. rewrite Nat.add_comm, Nat.add_sub. symmetry. apply nth_error_nth'. lia. }
    apply delivers_mk; [lia|]. intros i Hi Hn. apply nth_error_nth. unfold L. apply walk_warm; auto; [lia|].
    rewrite map_length, seq_length. lia.
  Qed.
End Lines.

(** ** Equal prices from the first bar on *)
Definition nil_val (z : float) : Prop := finite z /\ val z = 0.
Lemma big1020 : finite (big 1020) /\ val (big 1020) = bpow radix2 1020.
Proof.
  assert (F : B2SF (big 1020) = SpecFloat.S754_finite false (2 ^ 52) 968) by (vm_compute; reflexivity).
  split; [unfold finite; rewrite <- is_finite_SF_B2SF, F; reflexivity|].
  unfold val. rewrite <- SF2R_B2SF, F. cbn [SF2R]. unfold F2R. cbn [Fnum Fexp cond_Zopp].
  change (IZR (Z.pos (2 ^ 52))) with (bpow radix2 52). rewrite <- bpow_plus. reflexivity.
Qed.
Lemma nil_mul a b : finite a -> nil_val b -> nil_val (vmul a b).
Proof.
  intros Fa [Fb Vb]. destruct (@mul_in v0 v0 a b Fa Fb) as (_ & F & V); [change (val v0) with 0; rewrite Vb; lra|].
  change (val v0) with 0 in V. split; [exact F|lra].
Qed.
Lemma nil_mul_l a b : finite b -> nil_val a -> nil_val (vmul a b).
Proof.
  intros Fb [Fa Va]. destruct (@mul_in v0 v0 a b Fa Fb) as (_ & F & V); [change (val v0) with 0; rewrite Va; lra|].
  change (val v0) with 0 in V. split; [exact F|lra].
Qed.
Lemma nil_div a b : nil_val a -> val b <> 0 -> nil_val (vdiv a b).
Proof.
  intros [Fa Va] Hb. destruct (@div_in v0 v0 a b Fa Hb) as (_ & F & V); [change (val v0) with 0; rewrite Va; unfold Rdiv; lra|].
  change (val v0) with 0 in V. split; [exact F|lra].
Qed.
Lemma add_nil a z : finite a -> nil_val z -> finite (vadd a z) /\ val (vadd a z) = val a.
Proof. intros Fa [Fz Vz]. destruct (@add_in a a a z Fa Fz) as (_ & F & V); [lra|]. split; [exact F|lra]. Qed.
Lemma sub_nil a z : finite a -> nil_val z -> finite (vsub a z) /\ val (vsub a z) = val a.
Proof. intros Fa [Fz Vz]. destruct (@sub_in a a a z Fa Fz) as (_ & F & V); [lra|]. split; [exact F|lra]. Qed.
Lemma sub_same a b : finite a -> finite b -> val a = val b -> nil_val (vsub a b).
Proof.
  intros Fa Fb E. destruct (@sub_in v0 v0 a b Fa Fb) as (_ & F & V); [change (val v0) with 0; lra|]. change (val v0) with 0 in V. split; [exact F|lra].
Qed.
Arguments nil_mul [a b]. Arguments nil_mul_l [a b]. Arguments nil_div [a b]. Arguments add_nil [a z]. Arguments sub_nil [a z]. Arguments sub_same [a b].
Lemma limits : bpow radix2 1020 = 1048576 * bpow radix2 1000.
Proof. change 1020%Z with (20 + 1000)%Z. rewrite bpow_plus. change (bpow radix2 20) with 1048576. reflexivity. Qed.
Section Flat.
  Variables (x : float) (p ddof : nat).
  Hypothesis Fx : finite x.
  Hypothesis Bx : Rabs (val x) <= bpow radix2 500.
  Hypothesis Hp : (1 <= p)%nat.
  Hypothesis H40 : (Z.of_nat p <= 2 ^ 40)%Z.
  Lemma num_ok n : (n <= 2 * (p + 1))%nat -> finite (vnum n : float) /\ val (vnum n) = INR n /\ 0 <= INR n <= bpow radix2 50.
  Proof.
    intro H. unfold vnum. assert (2 * (2 ^ 40 + 1) <= 2 ^ 50)%Z by (vm_compute; discriminate). assert (2 ^ 50 <= 2 ^ 53)%Z by (vm_compute; discriminate).
    rewrite INR_IZR_INZ. destruct (@fofZ_exact (Z.of_nat n)) as [F V]; [lia|]. split; [exact F|]. split; [exact V|].
    split; [apply IZR_le; lia|]. change (bpow radix2 50) with (IZR (2 ^ 50)). apply IZR_le. lia.
  Qed.
  (** a number of bars times a price *)
  Lemma times n (y : float) : (n <= 2 * (p + 1))%nat -> finite y -> val y = val x ->
    finite (vmul (vnum n) y) /\ Rabs (val (vmul (vnum n) y)) <= bpow radix2 1000.
  Proof.
    intros Hn Fy Vy. destruct (num_ok Hn) as (Fn & Vn & Bn). destruct big1000 as (b & Fb & Vb). apply Rabs_le_inv in Bx.
    assert (G : bpow radix2 50 * bpow radix2 500 <= bpow radix2 1000) by (rewrite <- bpow_plus; apply bpow_le; lia).
    pose proof (bpow_ge_0 radix2 50). pose proof (bpow_ge_0 radix2 500).
    destruct (@mul_in (opp b) b (vnum n) y Fn Fy) as (_ & F & V); [rewrite val_opp, Vb, Vn, Vy; split; nra|]. rewrite val_opp, Vb in V.
    split; [exact F|]. apply Rabs_le. lra.
  Qed.
  Definition same_so_far (st : vstate float) (win : list float) : Prop :=
    (length win <= p)%nat ->
    w_nobs st = length win /\ nil_val (w_ss st) /\ finite (w_mean st) /\ (win = [] -> val (w_mean st) = 0) /\ (win <> [] -> val (w_mean st) = val x).
  Lemma not_nan : visnan x = false.
  Proof. apply finite_clean, Fx. Qed.
  Lemma same_add st win : same_so_far st win -> same_so_far (w_add x st) (win ++ [x]).
  Proof.
    intros H L. rewrite app_length in L; cbn in L. destruct (H ltac:(lia)) as (N & S & Fm & V0 & V1). unfold w_add. rewrite not_nan. cbn [w_nobs w_mean w_ss].
    rewrite N. replace (Datatypes.S (length win) - 1)%nat with (length win) by lia.
    destruct (@num_ok (length win) ltac:(lia)) as (Fn & Vn & Bn). destruct (@num_ok (Datatypes.S (length win)) ltac:(lia)) as (Fs & Vs & Bs).
    assert (Ps : val (vnum (Datatypes.S (length win))) <> 0) by (rewrite Vs; apply not_0_INR; lia).
    split; [rewrite app_length; cbn; lia|].
    destruct win as [|z win].
    - specialize (V0 eq_refl). assert (Nm : nil_val (w_mean st)) by (split; assumption). destruct (sub_nil Fx Nm) as [Fd Vd].
      set (d := vsub x (w_mean st)) in *. cbn [length] in *.
      destruct big1000 as (b & Fb & Vb). pose proof Bx as Bx'. apply Rabs_le_inv in Bx'.
      assert (G : bpow radix2 500 * bpow radix2 500 = bpow radix2 1000) by (rewrite <- bpow_plus; reflexivity). pose proof (bpow_ge_0 radix2 500).
      destruct (@mul_in (opp b) b d d Fd Fd) as (_ & Fq & _); [rewrite val_opp, Vb, Vd; split; nra|].
      assert (Nn : nil_val (vnum 0)) by (split; [exact Fn|rewrite Vn; reflexivity]).
      assert (Q := nil_div (nil_mul_l Fq Nn) Ps). destruct S as [FS VS]. destruct (add_nil FS Q) as [F1 V1'].
      split; [split; [exact F1|lra]|].
      destruct (@div_in d d d (vnum 1) Fd Ps) as (_ & Fe & Ve); [rewrite Vs; cbn; lra|].
      destruct (@add_in x x (w_mean st) (vdiv d (vnum 1)) Fm Fe) as (_ & F2 & V2); [lra|].
      split; [exact F2|]. split; [discriminate|]. intros _. lra.
    - specialize (V1 ltac:(discriminate)). assert (D : nil_val (vsub x (w_mean st))) by (apply sub_same; auto).
      set (d := vsub x (w_mean st)) in *. assert (Q := nil_div (nil_mul Fn (nil_mul (proj1 D) D)) Ps). destruct S as [FS VS].
      destruct (add_nil FS Q) as [F1 V1']. split; [split; [exact F1|lra]|]. destruct (add_nil Fm (nil_div D Ps)) as [F2 V2].
      split; [exact F2|]. split; [discriminate|]. intros _. lra.
  Qed.
  Lemma same_swap st win : same_so_far st (x :: win) -> same_so_far (w_swap x x st) (win ++ [x]).
  Proof.
    intros H L. rewrite app_length in L; cbn in L. destruct (H ltac:(cbn; lia)) as (N & S & Fm & _ & V1). specialize (V1 ltac:(discriminate)).
    unfold w_swap. rewrite not_nan. cbn [w_nobs w_mean w_ss]. rewrite N. cbn [length] in *.
    destruct (@num_ok (Datatypes.S (length win)) ltac:(lia)) as (Fs & Vs & Bs).
    assert (Ps : val (vnum (Datatypes.S (length win))) <> 0) by (rewrite Vs; apply not_0_INR; lia).
    split; [rewrite app_length; cbn; lia|].
    assert (D : nil_val (vsub x x)) by (apply sub_same; auto). set (d := vsub x x) in *.
    destruct (@times (Datatypes.S (length win) - 1) x ltac:(lia) Fx eq_refl) as [T1 B1].
    destruct (@times (Datatypes.S (length win) + 1) x ltac:(lia) Fx eq_refl) as [T2 B2].
    destruct (@times (2 * Datatypes.S (length win)) (w_mean st) ltac:(lia) Fm V1) as [T3 B3].
    set (t1 := vmul _ _) in T1, B1. set (t2 := vmul _ _) in T2, B2. set (t3 := vmul _ _) in T3, B3.
    fold t1 t2 t3. clearbody t1 t2 t3. apply Rabs_le_inv in B1, B2, B3. destruct big1020 as [Fg Vg]. destruct big1010 as [Fh Vh].
    pose proof limits as Lm. assert (Lh : bpow radix2 1010 = 1024 * bpow radix2 1000) by (change 1010%Z with (10 + 1000)%Z; rewrite bpow_plus; reflexivity).
    pose proof (bpow_gt_0 radix2 1000) as P1.
    destruct (@add_in (opp (big 1010)) (big 1010) t1 t2 T1 T2) as (_ & Fa & Va); [rewrite val_opp, Vh; lra|]. rewrite val_opp, Vh in Va.
    destruct (@sub_in (opp (big 1020)) (big 1020) (vadd t1 t2) t3 Fa T3) as (_ & Fu & _); [rewrite val_opp, Vg; lra|].
    assert (Q := nil_div (nil_mul Fu D) Ps). destruct S as [FS VS]. destruct (add_nil FS Q) as [F1 V1'].
    split; [split; [exact F1|lra]|]. destruct (add_nil Fm (nil_div D Ps)) as [F2 V2].
    split; [exact F2|]. split; [now destruct win|]. intros _. lra.
  Qed.
  Lemma flat_calc st win : same_so_far st win -> length win = p -> (ddof < p)%nat -> nil_val (calc_var p ddof st).
  Proof.
    intros H L Hd. destruct (H ltac:(lia)) as (N & S & _). unfold calc_var. rewrite N, L, Nat.leb_refl. cbn [andb].
    destruct (Nat.ltb_spec ddof p); [|lia]. destruct (p =? 1)%nat; [split; reflexivity|]. cbv zeta.
    assert (Q : nil_val (vdiv (w_ss st) (vofZ (Z.of_nat p - Z.of_nat ddof)))).
    { apply nil_div; [exact S|]. destruct (@fofZ_exact (Z.of_nat p - Z.of_nat ddof)) as [_ ->]; [assert (2 ^ 40 <= 2 ^ 53)%Z by (vm_compute; discriminate); lia|].
      apply not_0_IZR. lia. }
    destruct (vltb _ v0); [split; reflexivity|exact Q].
  Qed.
  Lemma calc_var_warm (st : vstate float) : (w_nobs st < p)%nat -> calc_var p ddof st = vnan.
  Proof. intro H. unfold calc_var. destruct (Nat.leb_spec p (w_nobs st)); [lia|reflexivity]. Qed.
  Variable T : NumT float.
  Hypothesis HT : rounded_sqrt T.
  Lemma sqrt_nil z : nil_val z -> nil_val (vsqrt z).
  Proof.
    intros [F V]. rewrite HT. destruct z as [s|s| |s m e B]; try discriminate F; [split; reflexivity|]. exfalso.
    unfold val in V. cbn in V. apply eq_0_F2R in V. destruct s; discriminate V.
  Qed.
  Lemma stddev_flat (a : line float) n k f : feeds a n k f -> (ddof < p)%nat -> (forall i, (k <= i < n)%nat -> f i = x) ->
    exists g, delivers (stddev_run p ddof a) n (k + p - 1) g /\ forall i, (k + p - 1 <= i < n)%nat -> nil_val (g i).
  Proof.
    intros Ha Hd Hf. eexists. split.
    - apply walking_delivers; [exact Hp| |exact Ha]. intros st H. rewrite calc_var_warm by exact H. rewrite HT. reflexivity.
    - intros i Hi. cbv beta. set (s := map f (seq k (n - k))).
      assert (Es : Forall (fun y => y = x) s).
      { apply Forall_forall. intros y Hy. apply in_map_iff in Hy. destruct Hy as (j & <- & Hj). apply in_seq in Hj. apply Hf. lia. }
      assert (Ep : map prep s = s) by (apply prep_id; eapply Forall_impl; [|exact Es]; intros y ->; exact Fx).
      assert (Ls : length s = (n - k)%nat) by (unfold s; rewrite map_length, seq_length; reflexivity).
      destruct (nth_error (ser_walk (fun st => vsqrt (calc_var p ddof st)) p s) (i - k)) as [v|] eqn:E;
        [|apply nth_error_None in E; rewrite ser_walk_length in E; lia].
      rewrite (nth_error_nth _ _ vnan E).
      apply walking_nth with (Q := fun y => y = x) (P := same_so_far) in E; [|exact Hp|now rewrite Ep| | |].
      + destruct E as (st & Hst & ->). apply sqrt_nil. rewrite Ep in Hst. eapply flat_calc; [exact Hst| |exact Hd].
        rewrite skipn_length, firstn_length. lia.
      + intros _. split; [reflexivity|]. split; [split; reflexivity|]. split; [reflexivity|]. split; [reflexivity|congruence].
      + intros st win y -> H. now apply same_add.
      + intros st y win z -> -> H. now apply same_swap.
  Qed.
End Flat.
Lemma bands_flat (T : NumT float) (x : float) p (a mid : line float) n k f m devs ma :
    rounded_sqrt T -> finite x -> Rabs (val x) <= bpow radix2 500 -> (1 <= p)%nat -> (Z.of_nat p <= 2 ^ 40)%Z ->
    feeds a n k f -> (forall i, (k <= i < n)%nat -> f i = x) -> finite devs ->
    ma p a = Ok mid -> delivers mid n (k + p - 1) m ->
    exists top bot t b, bbands_run p devs ma a = Ok (mid, top, bot) /\ delivers top n (k + p - 1) t /\ delivers bot n (k + p - 1) b /\
      forall i, (k + p - 1 <= i < n)%nat -> finite (m i) -> finite (t i) /\ val (t i) = val (m i) /\ finite (b i) /\ val (b i) = val (m i).
  Proof.
    intros HT Fx Bx Hp H40 Ha Hf Fd Em Dm. destruct (@stddev_flat x p 0 Fx Bx Hp H40 T HT a n k f Ha ltac:(lia) Hf) as (g & Dg & Hg). unfold bbands_run. rewrite Em. cbn [bind].
    pose proof (rbinop_s_delivers vmul devs (delivers_feeds Dg)) as Dd.
    eexists _, _, _, _. split; [reflexivity|].
    split; [eapply del_ext; [| |exact (binop_delivers vadd (delivers_feeds Dm) (delivers_feeds Dd))]; [lia|reflexivity]|].
    split; [eapply del_ext; [| |exact (binop_delivers vsub (delivers_feeds Dm) (delivers_feeds Dd))]; [lia|reflexivity]|].
    intros i Hi Fm. cbv beta. assert (Q : nil_val (vmul devs (g i))) by (apply nil_mul; [exact Fd|apply Hg; exact Hi]).
    destruct (add_nil Fm Q) as [A1 A2]. destruct (sub_nil Fm Q) as [B1 B2]. auto.
  Qed.

(** ** What has left the window *)
Lemma vs_eq (a b : vstate float) : w_nobs a = w_nobs b -> B2SF (w_mean a) = B2SF (w_mean b) -> B2SF (w_ss a) = B2SF (w_ss b) -> a = b.
Proof. destruct a as [n1 m1 s1], b as [n2 m2 s2]; cbn. intros -> E1 E2. f_equal; now apply B2SF_inj. Qed.
Ltac vs_comp := apply vs_eq; vm_compute; reflexivity.
(** values that leave as they come change nothing *)
Lemma walk_stuck (calc : vstate float -> float) st new : Forall (fun x => w_swap x x st = st) new ->
  forall rest, walk calc 0 st (new ++ rest) new = repeat (calc st) (length new).
Proof. induction 1 as [|x new H _ IH]; intro rest; [reflexivity|]. cbn [app walk length repeat]. rewrite H. f_equal. apply IH. Qed.
Lemma line_walking (calc : vstate float -> float) w s : (1 <= w)%nat -> Forall finite s ->
  lser (walking w calc (raw s)) = walk calc w w_start s s.
Proof.
  intros Hw Fs. unfold walking, raw, clone, bars; cbn [lser lmp]. unfold ser_walk.
  change (slice_from s (1 - 1)) with (slice_from s (Z.of_nat 0)). rewrite slice_from_nat. change (skipn 0 s) with s. rewrite prep_id by exact Fs.
  change (1 - 1)%Z with (Z.of_nat 0). unfold nans. rewrite set_from_nat by lia. reflexivity.
Qed.
(** period 2: after [z] the values [x] and [y] in turn *)
Lemma turns_len x y n : length (turns x y n) = n.
Proof. revert x y. induction n; intros; cbn; auto. Qed.
Lemma turns_all (P : float -> Prop) x y n : P x -> P y -> Forall P (turns x y n).
Proof. intros Px Py. revert x y Px Py. induction n; intros; cbn; constructor; auto. Qed.
Lemma turns_app x y n : exists rest, turns x y (S (S n)) = turns x y n ++ rest.
Proof.
  revert x y. induction n as [|n IH]; intros x y; [eexists; reflexivity|]. destruct (IH y x) as [rest E].
  exists rest. change (turns x y (S (S (S n)))) with (x :: turns y x (S (S n))). now rewrite E.
Qed.
Lemma walk_turns (calc : vstate float -> float) z x y st n :
  finite z -> finite x -> finite y -> w_swap y z (w_add x (w_add z w_start)) = st -> w_swap x x st = st -> w_swap y y st = st ->
  exists u v, lser (walking 2 calc (raw (z :: turns x y (S (S n))))) = u :: v :: calc st :: repeat (calc st) n.
Proof.
  intros Fz Fx Fy E Ex Ey. rewrite line_walking; [|lia|constructor; [exact Fz|now apply turns_all]].
  destruct (turns_app x y n) as [rest Er]. eexists _, _. 
  change (turns x y (S (S n))) with (x :: y :: turns x y n) in *. cbn [walk]. rewrite E. do 3 f_equal. rewrite Er.
  rewrite walk_stuck; [now rewrite turns_len|]. apply turns_all; assumption.
Qed.
Lemma turns_nth x y n i d : (i < n)%nat -> nth i (turns x y n) d = if Nat.even i then x else y.
Proof.
  revert x y i. induction n as [|n IH]; intros x y i H; [lia|]. destruct i as [|i]; [reflexivity|]. cbn [turns nth]. rewrite IH by lia.
  rewrite Nat.even_succ, <- Nat.negb_even. now destruct (Nat.even i).
Qed.
Lemma var_fresh z x y i r : finite z -> finite x -> finite y -> (2 <= i)%nat -> win_var 0 [x; y] = r -> win_var 0 [y; x] = r ->
  nth_error (lser (var 2 0 (raw (z :: turns x y i)))) i = Some r.
Proof.
  intros Fz Fx Fy Hi E1 E2. pose proof (raw_feeds (z :: turns x y i) z) as R. eapply (rolling_delivers (w := 2) (win_var 0)) in R; [|lia].
  destruct R as [[_ [_ R]] _]. unfold var. rewrite (R i) by (cbn [length]; rewrite turns_len; lia). f_equal.
  assert (E : win (fun j => nth j (z :: turns x y i) z) i 2 = if Nat.even i then [x; y] else [y; x]).
  { unfold win. replace (S i - 2)%nat with (i - 1)%nat by lia. cbn [seq map]. destruct i as [|[|n]]; try lia.
    replace (S (S n) - 1)%nat with (S n) by lia. cbn [nth]. rewrite !turns_nth by lia. rewrite !Nat.even_succ, Nat.odd_succ, <- Nat.negb_even.
    now destruct (Nat.even n). }
  rewrite E. destruct (Nat.even i); rewrite guard_finite by (repeat constructor; assumption); assumption.
Qed.
Definition e9 : float := vofZ 1000000000.
Definition f2 : float := vofZ 2.
Definition vst16 : vstate float := w_swap f2 e16 (w_add f1 (w_add e16 w_start)).
Definition vst9 : vstate float := w_swap f2 e9 (w_add f1 (w_add e9 w_start)).
Lemma vst16_1 : w_swap f1 f1 vst16 = vst16. Proof. vs_comp. Qed.
Lemma vst16_2 : w_swap f2 f2 vst16 = vst16. Proof. vs_comp. Qed.
Lemma vst9_1 : w_swap f1 f1 vst9 = vst9. Proof. vs_comp. Qed.
Lemma vst9_2 : w_swap f2 f2 vst9 = vst9. Proof. vs_comp. Qed.
Definition quarter : float := vdiv (vofZ 1) (vofZ 4).
Lemma quarter_ok : win_var 0 [f1; f2] = quarter /\ win_var 0 [f2; f1] = quarter /\ finite quarter /\ val quarter = / 4.
Proof.
  split; [apply B2SF_inj; vm_compute; reflexivity|]. split; [apply B2SF_inj; vm_compute; reflexivity|]. split; [reflexivity|].
  unfold val. assert (E : B2SF quarter = SpecFloat.S754_finite false (2 ^ 52) (-54)) by (vm_compute; reflexivity).
  rewrite <- SF2R_B2SF, E. cbn [SF2R]. unfold F2R. cbn [Fnum Fexp cond_Zopp]. change (IZR (Z.pos (2 ^ 52))) with (bpow radix2 52). rewrite <- bpow_plus.
  change (bpow radix2 (52 + -54)) with (/ 4). reflexivity.
Qed.
Lemma var_wide i : (2 <= i)%nat ->
  nth_error (lser (var_run 2 0 (raw (e16 :: turns f1 f2 i)))) i = Some (vofZ 4503599627370496) /\
  nth_error (lser (var 2 0 (raw (e16 :: turns f1 f2 i)))) i = Some quarter.
Proof.
  intro Hi. destruct quarter_ok as (Q1 & Q2 & _). split; [|apply var_fresh; auto; try reflexivity].
  destruct i as [|[|n]]; try lia. destruct (@walk_turns (calc_var 2 0) e16 f1 f2 vst16 n eq_refl eq_refl eq_refl eq_refl vst16_1 vst16_2) as (u & v & E).
  unfold var_run. rewrite E. change (u :: v :: calc_var 2 0 vst16 :: repeat (calc_var 2 0 vst16) n) with (u :: v :: repeat (calc_var 2 0 vst16) (S n)).
  cbn [nth_error]. rewrite nth_error_repeat' by lia. f_equal. apply B2SF_inj. vm_compute. reflexivity.
Qed.
Lemma var_shut i : (2 <= i)%nat ->
  nth_error (lser (var_run 2 0 (raw (e9 :: turns f1 f2 i)))) i = Some v0 /\
  nth_error (lser (var 2 0 (raw (e9 :: turns f1 f2 i)))) i = Some quarter.
Proof.
  intro Hi. destruct quarter_ok as (Q1 & Q2 & _). split; [|apply var_fresh; auto; try reflexivity].
  destruct i as [|[|n]]; try lia. destruct (@walk_turns (calc_var 2 0) e9 f1 f2 vst9 n eq_refl eq_refl eq_refl eq_refl vst9_1 vst9_2) as (u & v & E).
  unfold var_run. rewrite E. change (u :: v :: calc_var 2 0 vst9 :: repeat (calc_var 2 0 vst9) n) with (u :: v :: repeat (calc_var 2 0 vst9) (S n)).
  cbn [nth_error]. rewrite nth_error_repeat' by lia. reflexivity.
Qed.

(** 7.0, then 7.1 for ever *)
Lemma turns_same x n : turns x x n = repeat x n.
Proof. induction n; cbn; congruence. Qed.
Definition f70 : float := fdec 70.
Definition f71 : float := fdec 71.
Definition vst7 : vstate float := w_swap f71 f70 (w_add f71 (w_add f70 w_start)).
Lemma vst7_1 : w_swap f71 f71 vst7 = vst7. Proof. vs_comp. Qed.
Lemma pos_check (w : float) : is_finite w && vltb v0 w = true -> finite w /\ 0 < val w.
Proof.
  intro Q. apply andb_prop in Q. destruct Q as [Q1 Q2]. split; [exact Q1|]. assert (F0 : finite (v0 : float)) by reflexivity.
  exact (proj1 (@ltb_iff v0 w F0 Q1) Q2).
Qed.
Definition dev7 : float := Bsqrt mode_NE (calc_var 2 0 vst7).
Lemma dev7_pos : is_finite dev7 && vltb v0 dev7 = true.
Proof. vm_compute. reflexivity. Qed.
Lemma dev_stays (T : NumT float) : rounded_sqrt T -> exists v, finite v /\ 0 < val v /\
  forall i, (2 <= i)%nat -> nth_error (lser (stddev_run 2 0 (raw (f70 :: repeat f71 i)))) i = Some v.
Proof.
  intro HT. exists dev7. destruct (pos_check dev7 dev7_pos) as [Q1 Q2]. split; [exact Q1|]. split; [exact Q2|].
  intros i Hi. destruct i as [|[|n]]; try lia.
  destruct (@walk_turns (fun st => vsqrt (calc_var 2 0 st)) f70 f71 f71 vst7 n eq_refl eq_refl eq_refl eq_refl vst7_1 vst7_1) as (u & v & E).
  rewrite turns_same in E. unfold stddev_run. rewrite E.
  change (nth_error (repeat (vsqrt (calc_var 2 0 vst7)) (S n)) n = Some dev7). rewrite nth_error_repeat' by lia. now rewrite HT.
Qed.
