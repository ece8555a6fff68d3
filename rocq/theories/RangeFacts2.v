(** The directional movement system. *)
From Coq Require Import ZArith QArith List Bool Lia Arith Reals Lra Psatz.
From Verif Require Import Num Series Line Spec RSpec BoundSpec RangeSpec LineFacts ScanFacts RFacts OpFacts
  IndMA MAFacts RLineFacts IndBasic BasicFacts StatFacts BoundFacts IndRange RangeFacts.
Import ListNotations.
Set Implicit Arguments.
Local Open Scope R_scope.

(** ** Monotone smoothers *)

Lemma Rsum_mono (x x' : nat -> R) s :
  (forall j, In j s -> 0 <= x j <= x' j) -> 0 <= Rsum (map x s) <= Rsum (map x' s).
Proof.
  induction s as [|a s IH]; intro H; simpl; [lra|].
  assert (H1 := H a (or_introl eq_refl)). assert (0 <= Rsum (map x s) <= Rsum (map x' s)) by (apply IH; intros; apply H; now right).
  lra.
Qed.
Lemma lastp_mono x x' k n i w :
  (k + w <= S i)%nat -> (i < n)%nat -> (forall j, (k <= j < n)%nat -> 0 <= x j <= x' j) ->
  0 <= Rsum (lastp x i w) <= Rsum (lastp x' i w).
Proof.
  intros Hw Hi H. apply Rsum_mono. intros j Hj. apply in_seq in Hj. apply H. lia.
Qed.

Lemma acc_mono p q n s s' x x' e e' :
  (1 <= p)%nat -> is_accumulation p q s x e -> is_accumulation p q s' x' e' ->
  0 <= s <= s' -> (forall j, (q < j < n)%nat -> 0 <= x j <= x' j) ->
  forall i, (q <= i < n)%nat -> 0 <= e i <= e' i.
Proof.
  intros Hp [E0 E1] [F0 F1] Hs H. assert (P := INR_pos Hp). assert (P1 : 1 <= INR p) by (apply (le_INR 1); lia).
  assert (B : 0 <= 1 - / INR p).
  { assert (/ INR p <= 1) by (rewrite <- Rinv_1; apply Rinv_le_contravar; lra). lra. }
  intros i [Hq Hn]. induction Hq as [|i Hq IH].
  - rewrite E0, F0. exact Hs.
  - rewrite E1, F1 by exact Hq. assert (IH' := IH ltac:(lia)). assert (X := H (S i) ltac:(lia)).
    unfold Rdiv. replace (e i - e i * / INR p) with (e i * (1 - / INR p)) by ring.
    replace (e' i - e' i * / INR p) with (e' i * (1 - / INR p)) by ring.
    split; [apply Rplus_le_le_0_compat; [apply Rmult_le_pos|]; lra|].
    apply Rplus_le_compat; [apply Rmult_le_compat_r|]; lra.
Qed.

Lemma smma_mono p k n x x' e e' :
  (1 <= p)%nat -> (k + p <= n)%nat -> is_smma p k x e -> is_smma p k x' e' ->
  (forall j, (k <= j < n)%nat -> 0 <= x j <= x' j) ->
  forall i, (k + p - 1 <= i < n)%nat -> 0 <= e i <= e' i.
Proof.
  intros Hp Hn [E0 E1] [F0 F1] H. assert (P := INR_pos Hp). assert (P1 : 1 <= INR p) by (apply (le_INR 1); lia).
  assert (I : 0 < / INR p) by now apply Rinv_0_lt_compat.
  intros i [Hq Hi]. induction Hq as [|i Hq IH].
  - rewrite E0, F0. unfold Rmean, lastp. rewrite !win_length.
    assert (M := @lastp_mono x x' k n (k + p - 1) p ltac:(lia) ltac:(lia) H). unfold lastp in M.
    unfold Rdiv. split; [apply Rmult_le_pos|apply Rmult_le_compat_r]; lra.
  - rewrite E1, F1 by exact Hq. assert (IH' := IH ltac:(lia)). assert (X := H (S i) ltac:(lia)).
    unfold Rdiv. split; [apply Rmult_le_pos; [nra|lra]|apply Rmult_le_compat_r; [lra|nra]].
Qed.

Lemma smooths_smma p : (1 <= p)%nat -> smooths (smma p) (fun k => k + p - 1)%nat.
Proof.
  intro Hp. split.
  - intros a n k x Ha Hk Hn. destruct (@smma_fin a n k x p (delivers_feeds Ha) Hp ltac:(lia)) as (y & e & E & _ & D). eauto.
  - intros a a' y y' n k x x' e e' Ha Ha' Hk Hn Ey Dy Ey' Dy' H i Hi.
    destruct (@smma_fin a n k x p (delivers_feeds Ha) Hp ltac:(lia)) as (y1 & e1 & E1 & S1 & D1).
    destruct (@smma_fin a' n k x' p (delivers_feeds Ha') Hp ltac:(lia)) as (y2 & e2 & E2 & S2 & D2).
    rewrite Ey in E1. injection E1 as <-. rewrite Ey' in E2. injection E2 as <-.
    rewrite (fin_unique Dy D1 Hi), (fin_unique Dy' D2 Hi).
    refine (@smma_mono p k n x x' e1 e2 Hp _ S1 S2 H i Hi). lia.
Qed.

Lemma smooths_smacc p : (1 <= p)%nat -> smooths (smacc p false SEED_SUM) (fun k => k + p - 1)%nat.
Proof.
  intro Hp. split.
  - intros a n k x Ha Hk Hn. destruct (@smacc_fin a n k x p (delivers_feeds Ha) Hp ltac:(lia)) as (y & e & E & _ & D). eauto.
  - intros a a' y y' n k x x' e e' Ha Ha' Hk Hn Ey Dy Ey' Dy' H i Hi.
    destruct (@smacc_fin a n k x p (delivers_feeds Ha) Hp ltac:(lia)) as (y1 & e1 & E1 & S1 & D1).
    destruct (@smacc_fin a' n k x' p (delivers_feeds Ha') Hp ltac:(lia)) as (y2 & e2 & E2 & S2 & D2).
    rewrite Ey in E1. injection E1 as <-. rewrite Ey' in E2. injection E2 as <-.
    rewrite (fin_unique Dy D1 Hi), (fin_unique Dy' D2 Hi).
    refine (@acc_mono p _ n _ _ x x' e1 e2 Hp S1 S2 _ _ i Hi).
    + eapply lastp_mono with (k := k) (n := n); eauto; lia.
    + intros j Hj. apply H. lia.
Qed.

Lemma smooths_smacc_early p : (1 <= p)%nat -> smooths (smacc p true SEED_SUM) (fun k => k + p - 2)%nat.
Proof.
  intro Hp. split.
  - intros a n k x Ha Hk Hn. destruct (@smacc_early_fin a n k x p Ha Hk Hp ltac:(lia)) as (y & e & E & _ & D). eauto.
  - intros a a' y y' n k x x' e e' Ha Ha' Hk Hn Ey Dy Ey' Dy' H i Hi.
    destruct (@smacc_early_fin a n k x p Ha Hk Hp ltac:(lia)) as (y1 & e1 & E1 & S1 & D1).
    destruct (@smacc_early_fin a' n k x' p Ha' Hk Hp ltac:(lia)) as (y2 & e2 & E2 & S2 & D2).
    rewrite Ey in E1. injection E1 as <-. rewrite Ey' in E2. injection E2 as <-.
    rewrite (fin_unique Dy D1 Hi), (fin_unique Dy' D2 Hi).
    refine (@acc_mono p _ n _ _ x x' e1 e2 Hp S1 S2 _ _ i Hi).
    + eapply lastp_mono with (k := k) (n := n); eauto; lia.
    + intros j Hj. apply H. lia.
Qed.

Lemma smooths_dm alt pearly p :
  (1 <= p)%nat ->
  smooths (dm_smoother alt pearly smma p)
    (fun k => if negb alt && pearly then (k + p - 2)%nat else (k + p - 1)%nat).
Proof.
  intro Hp. destruct alt, pearly; simpl.
  - now apply smooths_smma.
  - now apply smooths_smma.
  - now apply smooths_smacc_early.
  - now apply smooths_smacc.
Qed.

(** ** The movements *)

Lemma vmul_bool (r : R) (b : bool) : vmul (Fin r) (vofbool b) = Fin (if b then r else 0).
Proof.
  destruct b; simpl vofbool; rewrite ?v1_fin, ?v0_fin, vmul_fin; f_equal; lra.
Qed.

Section Moves.
  Variables (h l c : lineR) (n k q : nat) (xh xl xc : nat -> R).
  Hypothesis Hh : feeds h n k (fin xh).
  Hypothesis Hl : feeds l n k (fin xl).
  Hypothesis Hq : (1 <= q)%nat.

  Lemma upmove_fin : delivers (upmove q h) n (k + q) (fin (up_move xh q)).
  Proof. unfold upmove. exact (diff_fin q Hh). Qed.
  Lemma downmove_fin : delivers (downmove q l) n (k + q) (fin (down_move xl q)).
  Proof.
    eapply fin_ext; [| |eapply lsub_fin; [apply ago_any_fin; [exact Hq|exact Hl]|exact Hl]]; [lia|]. reflexivity.
  Qed.

  Lemma pdm1_fin : delivers (pdm1 q h l) n (k + q) (fin (plus_move xh xl q)).
  Proof.
    unfold pdm1. cbv zeta.
    assert (U := delivers_feeds upmove_fin). assert (D := delivers_feeds downmove_fin).
    eapply del_ext; [| |eapply mul_b_delivers;
      [eapply delivers_feeds; rewrite v0_fin; apply lclip_lo_fin; exact U
      |eapply bdelivers_bfeeds, cmpop_bdelivers; [exact U|exact D]]]; [lia|].
    intros i _. cbv beta. unfold fin. rewrite vltb_fin, vmul_bool. unfold plus_move. f_equal.
    destruct (Rltb_spec (down_move xl q i) (up_move xh q i)), (Rlt_dec (down_move xl q i) (up_move xh q i)); try lra; reflexivity.
  Qed.
  Lemma mdm1_fin : delivers (mdm1 q h l) n (k + q) (fin (minus_move xh xl q)).
  Proof.
    unfold mdm1. cbv zeta.
    assert (U := delivers_feeds upmove_fin). assert (D := delivers_feeds downmove_fin).
    eapply del_ext; [| |eapply mul_b_delivers;
      [eapply delivers_feeds; rewrite v0_fin; apply lclip_lo_fin; exact D
      |eapply bdelivers_bfeeds, cmpop_bdelivers; [exact D|exact U]]]; [lia|].
    intros i _. cbv beta. unfold fin. rewrite vltb_fin, vmul_bool. unfold minus_move. f_equal.
    destruct (Rltb_spec (up_move xh q i) (down_move xl q i)), (Rlt_dec (up_move xh q i) (down_move xl q i)); try lra; reflexivity.
  Qed.
End Moves.

Lemma move_exclusive h l q i :
  0 <= plus_move h l q i /\ 0 <= minus_move h l q i /\
  (plus_move h l q i = 0 \/ minus_move h l q i = 0).
Proof.
  unfold plus_move, minus_move.
  pose proof (Rmax_r (up_move h q i) 0). pose proof (Rmax_r (down_move l q i) 0).
  destruct (Rlt_dec (down_move l q i) (up_move h q i)), (Rlt_dec (up_move h q i) (down_move l q i)); lra.
Qed.

Lemma plus_move_range h l c q i :
  l (i - q)%nat <= c (i - q)%nat <= h (i - q)%nat -> l i <= h i ->
  0 <= plus_move h l q i <= true_range h l c q i.
Proof.
  intros Hc Hi. split; [apply move_exclusive|].
  pose proof (true_range_nonneg h l c q i) as N. unfold plus_move.
  destruct (Rlt_dec (down_move l q i) (up_move h q i)); [|exact N]. unfold Rmax at 1.
  destruct (Rle_dec (up_move h q i) 0); [exact N|]. unfold up_move, true_range.
  pose proof (Rmax_l (h i) (c (i - q)%nat)). pose proof (Rmin_r (l i) (c (i - q)%nat)). lra.
Qed.
Lemma minus_move_range h l c q i :
  l (i - q)%nat <= c (i - q)%nat <= h (i - q)%nat -> l i <= h i ->
  0 <= minus_move h l q i <= true_range h l c q i.
Proof.
  intros Hc Hi. split; [apply move_exclusive|].
  pose proof (true_range_nonneg h l c q i) as N. unfold minus_move.
  destruct (Rlt_dec (up_move h q i) (down_move l q i)); [|exact N]. unfold Rmax at 1.
  destruct (Rle_dec (down_move l q i) 0); [exact N|]. unfold down_move, true_range.
  pose proof (Rmax_r (h i) (c (i - q)%nat)). pose proof (Rmin_l (l i) (c (i - q)%nat)). lra.
Qed.

(** ** Pointwise bounds *)

Lemma quot_in a b lo hi : 0 <= b -> (b = 0 -> a = 0) -> lo * b <= a <= hi * b -> num_in lo hi (quot a b).
Proof.
  intros Hb H0 H. destruct (Req_EM_T b 0) as [->|Hne].
  - rewrite H0 by reflexivity. rewrite quot_00. now left.
  - rewrite quot_fin by exact Hne. apply num_in_fin. assert (0 < b) by lra.
    assert (0 < / b) by now apply Rinv_0_lt_compat.
    split; [apply Rmult_le_reg_r with b|apply Rmult_le_reg_r with b]; auto;
      unfold Rdiv; rewrite Rmult_assoc, Rinv_l, Rmult_1_r by lra; lra.
Qed.

Lemma dx_point P M T :
  0 <= P <= T -> 0 <= M <= T ->
  vdiv (vmul (Fin 100) (vabs (vsub (quot (100 * P) T) (quot (100 * M) T))))
       (vadd (quot (100 * P) T) (quot (100 * M) T)) = quot (100 * Rabs (P - M)) (P + M).
Proof.
  intros HP HM. destruct (Req_EM_T T 0) as [->|HT].
  - replace P with 0 by lra. replace M with 0 by lra. rewrite Rmult_0_r, quot_00.
    simpl. rewrite Rminus_0_r, Rabs_R0, Rmult_0_r, Rplus_0_r. now rewrite quot_00.
  - rewrite !quot_fin by exact HT. rewrite vsub_fin, vadd_fin, vabs_fin, vmul_fin, vdiv_quot.
    assert (0 < T) by lra. assert (0 < / T) by now apply Rinv_0_lt_compat.
    replace (100 * P / T - 100 * M / T) with ((P - M) * (100 / T)) by (unfold Rdiv; ring).
    replace (100 * P / T + 100 * M / T) with ((P + M) * (100 / T)) by (unfold Rdiv; ring).
    assert (0 < 100 / T) by (unfold Rdiv; nra).
    rewrite Rabs_mult, (Rabs_right (100 / T)) by lra.
    rewrite <- Rmult_assoc. unfold quot.
    destruct (Req_EM_T (P + M) 0) as [Z|Z], (Req_EM_T ((P + M) * (100 / T)) 0) as [Z'|Z'].
    + replace P with 0 by lra. replace M with 0 by lra. rewrite Rminus_0_r, Rabs_R0.
      rewrite !Rmult_0_r, !Rmult_0_l. reflexivity.
    + exfalso. apply Z'. rewrite Z. ring.
    + exfalso. apply Rmult_integral in Z'. lra.
    + f_equal. field. lra.
Qed.

Lemma dx_in P M : 0 <= P -> 0 <= M -> num_in 0 100 (quot (100 * Rabs (P - M)) (P + M)).
Proof.
  intros HP HM. apply quot_in; [lra| |].
  - intro E. replace P with 0 by lra. replace M with 0 by lra. rewrite Rminus_0_r, Rabs_R0. ring.
  - split; [rewrite Rmult_0_l; apply Rmult_le_pos; [lra|apply Rabs_pos]|].
    apply Rmult_le_compat_l; [lra|]. apply Rabs_le. lra.
Qed.

(** ** The indicators *)

Section DI.
  Variables (h l c : lineR) (n k q : nat) (xh xl xc : nat -> R).
  Variables (sm : lineR -> res lineR) (first : nat -> nat).
  Hypothesis Hh : feeds h n k (fin xh).
  Hypothesis Hl : feeds l n k (fin xl).
  Hypothesis Hc : feeds c n k (fin xc).
  Hypothesis Hq : (1 <= q)%nat.
  Hypothesis Hsm : smooths sm first.
  Hypothesis Hn : (first (k + q) < n)%nat.
  Hypothesis Hbar : forall i, (k <= i < n)%nat -> xl i <= xc i <= xh i.

  Lemma di_fin :
    exists p m pd md P M T,
      plus_dm sm q h l = Ok p /\ minus_dm sm q h l = Ok m /\ dm sm q h l = Ok (p, m) /\
      plus_di sm q h l c = Ok pd /\ minus_di sm q h l c = Ok md /\ di sm q h l c = Ok (pd, md) /\
      delivers p n (first (k + q)) (fin P) /\ delivers m n (first (k + q)) (fin M) /\
      (exists t, sm (truerange q h l c) = Ok t /\ delivers t n (first (k + q)) (fin T)) /\
      delivers pd n (S (first (k + q))) (fun i => quot (100 * P i) (T i)) /\
      delivers md n (S (first (k + q))) (fun i => quot (100 * M i) (T i)) /\
      forall i, (first (k + q) <= i < n)%nat -> 0 <= P i <= T i /\ 0 <= M i <= T i.
  Proof.
    destruct Hsm as [Hrun Hmono].
    assert (Dp := @pdm1_fin h l n k q xh xl Hh Hl Hq). assert (Dm := @mdm1_fin h l n k q xh xl Hh Hl Hq).
    assert (Dt := @truerange_fin h l c n k q xh xl xc Hq Hh Hl Hc).
    destruct (Hrun _ _ _ _ Dp ltac:(lia) Hn) as (p & P & Ep & FP).
    destruct (Hrun _ _ _ _ Dm ltac:(lia) Hn) as (m & M & Em & FM).
    destruct (Hrun _ _ _ _ Dt ltac:(lia) Hn) as (t & T & Et & FT).
    assert (F1 : feeds (mkLine (lmp t + 1) (lser t)) n (S (first (k + q))) (fin T)).
    { destruct FT as [[A [B C]] _]. split; [|split]; simpl.
      - rewrite A. lia.
      - exact B.
      - intros i Hi. apply C. lia. }
    exists p, m, (ldiv (rbinop_s vmul (vofZ 100) p) (mkLine (lmp t + 1) (lser t))),
      (ldiv (rbinop_s vmul (vofZ 100) m) (mkLine (lmp t + 1) (lser t))), P, M, T.
    assert (Eq : forall (r : lineR) X, delivers r n (first (k + q)) (fin X) ->
       delivers (ldiv (rbinop_s vmul (vofZ 100) r) (mkLine (lmp t + 1) (lser t))) n (S (first (k + q)))
         (fun i => quot (100 * X i) (T i))).
    { intros r X D. eapply del_ext; [| |eapply ldiv_quot; [eapply delivers_feeds; rewrite vofZ_fin; apply rmuls_fin;
        eapply delivers_feeds; exact D|exact F1]]; [lia|]. reflexivity. }
    unfold dm, di, plus_di, minus_di, dm, di_range, plus_dm, minus_dm.
    rewrite ?Ep, ?Em, ?Et. simpl bind.
    do 6 (split; [reflexivity|]). split; [exact FP|]. split; [exact FM|].
    split; [exists t; split; [first [exact Et|reflexivity]|exact FT]|]. split; [now apply Eq|]. split; [now apply Eq|].
    intros i Hi. split.
    - refine (Hmono _ _ _ _ _ _ _ _ _ _ Dp Dt ltac:(lia) Hn Ep FP Et FT _ i Hi).
      intros j Hj. apply plus_move_range; [apply Hbar; lia|]. assert (B := @Hbar j ltac:(lia)). lra.
    - refine (Hmono _ _ _ _ _ _ _ _ _ _ Dm Dt ltac:(lia) Hn Em FM Et FT _ i Hi).
      intros j Hj. apply minus_move_range; [apply Hbar; lia|]. assert (B := @Hbar j ltac:(lia)). lra.
  Qed.
End DI.
