(** True range, smoothed accumulation and directional movement on finite lines. *)
From Coq Require Import ZArith QArith List Bool Lia Arith Reals Lra Psatz.
From Verif Require Import Num Series Line Spec RSpec BoundSpec RangeSpec LineFacts ScanFacts RFacts OpFacts
  IndMA MAFacts RLineFacts IndBasic BasicFacts BoundFacts IndRange.
Import ListNotations.
Set Implicit Arguments.
Local Open Scope R_scope.

(** ** Preliminaries *)

(** looking back [q] bars *)
Lemma ago_any_fin n (a : lineR) k x q :
  (1 <= q)%nat ->
  feeds a n k (fin x) -> feeds (at_ago a (- Z.of_nat q)) n (k + q) (fin (fun i => x (i - q)%nat)).
Proof. intros Hq H. apply delivers_feeds. apply ago_fin; auto. Qed.

Lemma fin_unique n (y : lineR) k e e' :
  delivers y n k (fin e) -> delivers y n k (fin e') -> forall i, (k <= i < n)%nat -> e i = e' i.
Proof.
  intros [[_ [_ H]] _] [[_ [_ H']] _] i Hi. assert (E := H i Hi). rewrite (H' i Hi) in E.
  unfold fin in E. now injection E.
Qed.

(** ** True range *)

Section TR.
  Variables (h l c : lineR) (n k q : nat) (xh xl xc : nat -> R).
  Hypothesis Hq : (1 <= q)%nat.
  Hypothesis Hh : feeds h n k (fin xh).
  Hypothesis Hl : feeds l n k (fin xl).
  Hypothesis Hc : feeds c n k (fin xc).

  Lemma truelow_fin :
    delivers (truelow q l c) n (k + q) (fin (fun i => Rmin (xl i) (xc (i - q)%nat))).
  Proof.
    eapply fin_ext; [| |eapply lclip_hi_l_fin; [apply ago_any_fin; [exact Hq|exact Hc]|exact Hl]]; [lia|].
    intros i _. cbv beta. apply Rmin_comm.
  Qed.

  Lemma truerange_fin : delivers (truerange q h l c) n (k + q) (fin (true_range xh xl xc q)).
  Proof.
    unfold truerange. cbv zeta.
    eapply fin_ext; [| |eapply lsub_fin;
      [eapply delivers_feeds, lclip_lo_l_fin; [apply ago_any_fin; [exact Hq|exact Hc]|exact Hh]
      |eapply delivers_feeds, lclip_hi_l_fin; [apply ago_any_fin; [exact Hq|exact Hc]|exact Hl]]]; [lia|].
    intros i _. cbv beta. unfold true_range. now rewrite (Rmax_comm (xh i)), (Rmin_comm (xl i)).
  Qed.
End TR.

Lemma true_range_nonneg h l c q i : 0 <= true_range h l c q i.
Proof.
  unfold true_range. pose proof (Rmax_r (h i) (c (i - q)%nat)). pose proof (Rmin_r (l i) (c (i - q)%nat)). lra.
Qed.

Lemma true_range_max h l c q i :
  l i <= h i ->
  is_max (true_range h l c q i)
    [h i - l i; Rabs (h i - c (i - q)%nat); Rabs (c (i - q)%nat - l i)].
Proof.
  intro H. unfold true_range. set (p := c (i - q)%nat). unfold is_max.
  unfold Rmax, Rmin, Rabs.
  destruct (Rle_dec (h i) p), (Rle_dec (l i) p), (Rcase_abs (h i - p)), (Rcase_abs (p - l i));
    (split; [|intros v [<-|[<-|[<-|[]]]]; lra]); simpl; try lra;
    try (left; lra); try (right; left; lra); try (right; right; left; lra).
Qed.

(** ** Smoothed accumulation *)

Fixpoint acc (b s : R) (x : nat -> R) (j d : nat) : R :=
  match d with
  | 0%nat => s
  | S d' => b * acc b s x j d' + x (j + S d')%nat
  end.

Lemma mean_exp_step_fin b s x :
  mean_exp_step (Fin 1) (Fin b) (Fin s) (Fin x) = (Fin (b * s + x), Fin (b * s + x)).
Proof. unfold mean_exp_step. rewrite !vmul_fin, vadd_fin. now rewrite Rmult_1_l. Qed.

Lemma acc_st b s x j d :
  scan_st (mean_exp_step (Fin 1) (Fin b)) (fin x) (S j) (Fin s) d = Fin (acc b s x j d).
Proof.
  induction d as [|d IH]; [reflexivity|]. cbn [scan_st]. rewrite IH.
  change (fin x (S j + d)) with (Fin (x (S j + d)%nat)). rewrite mean_exp_step_fin. simpl. do 3 f_equal. lia.
Qed.

Lemma eff_beta_p p : (1 <= p)%nat ->
  eff_beta (Fin 1 : ext R) (Some (vdiv (vofZ (Z.of_nat p - 1)) (vofZ (Z.of_nat p)))) =
  Fin ((INR p - 1) / INR p).
Proof.
  intro Hp. assert (0 < INR p) by now apply INR_pos.
  rewrite !vofZ_fin, minus_IZR, IZR_nat, vdiv_fin by lra.
  unfold eff_beta. rewrite v0_fin, veqb_fin, ?v1_fin. destruct (beqb_spec ((INR p - 1) / INR p) 0) as [E|E]; [|reflexivity].
  rewrite vsub_fin, E. f_equal. lra.
Qed.

Lemma lfilter_acc p s x j m : (1 <= p)%nat ->
  lfilter (v1 : ext R) (Some (vdiv (vofZ (Z.of_nat p - 1)) (vofZ (Z.of_nat p))))
    (Fin s :: map (fin x) (seq (S j) m)) =
  map (fun i => Fin (acc ((INR p - 1) / INR p) s x j (i - j))) (seq j (S m)).
Proof.
  intro Hp. rewrite v1_fin at 1. rewrite lfilter_mean_exp by lra. unfold mean_exp.
  rewrite eff_beta_p by exact Hp.
  simpl map. rewrite prep_fin. rewrite Nat.sub_diag. f_equal.
  rewrite map_map, mean_exp_scan.
  rewrite (map_ext (fun x0 => prep (fin x x0)) (fin x)) by (intro; reflexivity).
  rewrite scan_seq. apply map_ext_seq. intros i Hi. rewrite acc_st. unfold fin.
  rewrite mean_exp_step_fin. simpl snd. replace (i - j)%nat with (S (i - S j)) by lia. simpl acc.
  do 3 f_equal. lia.
Qed.

Lemma acc_is p q s x : (1 <= p)%nat ->
  is_accumulation p q s x (fun i => acc ((INR p - 1) / INR p) s x q (i - q)).
Proof.
  intro Hp. assert (0 < INR p) by now apply INR_pos. split.
  - now rewrite Nat.sub_diag.
  - intros i Hi. replace (S i - q)%nat with (S (i - q)) by lia. simpl acc.
    replace (q + S (i - q))%nat with (S i) by lia. field. lra.
Qed.

Lemma sum_slice (a : lineR) n k x i w :
  feeds a n k (fin x) -> (k + w <= S i)%nat -> (i < n)%nat ->
  slice (lser a) (Z.of_nat (S i) - Z.of_nat w) (Z.of_nat (S i)) = map Fin (lastp x i w).
Proof.
  intros Ha Hw Hi. replace (Z.of_nat (S i) - Z.of_nat w)%Z with (Z.of_nat (S i - w)) by lia.
  rewrite slice_nat. rewrite (@feeds_skipn _ a n k (fin x) (S i - w)) by (auto; lia).
  rewrite firstn_map, firstn_seq. unfold lastp, win. rewrite map_map.
  replace (Nat.min (S i - (S i - w)) (n - (S i - w))) with w by lia. reflexivity.
Qed.

(** the sum of all [p] first values is the seed *)
Lemma smacc_fin (a : lineR) n k x p :
  feeds a n k (fin x) -> (1 <= p)%nat -> (k + p <= n)%nat ->
  exists y e, smacc p false SEED_SUM a = Ok y /\
    is_accumulation p (k + p - 1) (Rsum (lastp x (k + p - 1) p)) x e /\
    delivers y n (k + p - 1) (fin e).
Proof.
  intros Ha Hp Hn. set (q := (k + p - 1)%nat). unfold smacc.
  destruct (@ewm_call_ok _ _ a n k (fin x) (Z.of_nat p) 0 0 1 SEED_SUM
    (fun t => Ok (lfilter v1 (Some (vdiv (vofZ (Z.of_nat p - 1)) (vofZ (Z.of_nat p)))) t))
    (Z.of_nat p) q q
    (fin (fun i => acc ((INR p - 1) / INR p) (Rsum (lastp x q p)) x q (i - q)))) as (y & E & Hmp & Hs);
    try (subst q; lia); auto.
  - simpl. destruct (Z.ltb_spec (Z.of_nat p) 1); [lia|]. now rewrite andb_false_r.
  - unfold seed_of. rewrite (@sum_slice a n k x q p) by (auto; subst q; lia).
    rewrite ser_sum_fin, lfilter_acc by exact Hp. f_equal.
    replace (n - q)%nat with (S (n - S q)) by (subst q; lia). reflexivity.
  - exists y. eexists. split; [exact E|]. split; [apply acc_is; exact Hp|].
    eapply line_delivers_eq; eauto.
Qed.

Lemma skipn_cons {A} (l : list A) : forall i v, nth_error l i = Some v -> skipn i l = v :: skipn (S i) l.
Proof.
  induction l as [|a l IH]; intros [|i] v H; try discriminate.
  - now injection H as ->.
  - simpl in H. exact (IH i v H).
Qed.

Lemma sum_early (a : lineR) n k x w :
  delivers a n k (fin x) -> (1 <= k)%nat -> (k + w <= n)%nat ->
  ser_sum (slice (lser a) (Z.of_nat (k + w) - Z.of_nat (S w)) (Z.of_nat (k + w))) =
  Fin (Rsum (lastp x (k + w - 1) w)).
Proof.
  intros [Ha Hnan] Hk Hn.
  assert (E : slice (lser a) (Z.of_nat (k + w) - Z.of_nat (S w)) (Z.of_nat (k + w)) =
              NaN :: map Fin (lastp x (k + w - 1) w)).
  { replace (Z.of_nat (k + w) - Z.of_nat (S w))%Z with (Z.of_nat (k - 1)) by lia.
    rewrite slice_nat. replace (k + w - (k - 1))%nat with (S w) by lia.
    assert (Hs : skipn (k - 1) (lser a) = NaN :: skipn k (lser a)).
    { assert (X := Hnan (k - 1)%nat ltac:(lia) ltac:(lia)).
      rewrite (skipn_cons _ _ X). do 2 f_equal. lia. }
    rewrite Hs. rewrite firstn_cons. f_equal. rewrite (@feeds_skipn _ a n k (fin x) k Ha) by lia.
    rewrite firstn_map, firstn_seq. unfold lastp, win. rewrite map_map.
    replace (Nat.min w (n - k)) with w by lia. replace (S (k + w - 1) - w)%nat with k by lia. reflexivity. }
  rewrite E. change (ser_sum (NaN :: map Fin (lastp x (k + w - 1) w))) with (ser_sum (map Fin (lastp x (k + w - 1) w))).
  apply ser_sum_fin.
Qed.

(** early start on a line with a warm-up: one bar earlier, the sum of [p - 1] values *)
Lemma smacc_early_fin (a : lineR) n k x p :
  delivers a n k (fin x) -> (1 <= k)%nat -> (1 <= p)%nat -> (k + p - 1 <= n)%nat ->
  exists y e, smacc p true SEED_SUM a = Ok y /\
    is_accumulation p (k + p - 2) (Rsum (lastp x (k + p - 2) (p - 1))) x e /\
    delivers y n (k + p - 2) (fin e).
Proof.
  intros D Hk Hp Hn. assert (Ha := delivers_feeds D). set (q := (k + p - 2)%nat). unfold smacc.
  destruct (@ewm_call_ok _ _ a n k (fin x) (Z.of_nat p) 0 1 1 SEED_SUM
    (fun t => Ok (lfilter v1 (Some (vdiv (vofZ (Z.of_nat p - 1)) (vofZ (Z.of_nat p)))) t))
    (Z.of_nat p) q q
    (fin (fun i => acc ((INR p - 1) / INR p) (Rsum (lastp x q (p - 1))) x q (i - q)))) as (y & E & Hmp & Hs);
    try (subst q; lia); auto.
  - simpl. destruct (Z.ltb_spec (Z.of_nat p) 1); [lia|]. now rewrite andb_false_r.
  - unfold seed_of. assert (S1 := @sum_early a n k x (p - 1) D Hk ltac:(lia)).
    replace (k + (p - 1))%nat with (S q) in S1 by (subst q; lia).
    replace (S (p - 1)) with p in S1 by lia. rewrite S1.
    replace (S q - 1)%nat with q by lia.
    rewrite lfilter_acc by exact Hp. f_equal.
    replace (n - q)%nat with (S (n - S q)) by (subst q; lia). reflexivity.
  - exists y. eexists. split; [exact E|]. split; [apply acc_is; exact Hp|].
    eapply line_delivers_eq; eauto.
Qed.

(** early start on a line without warm-up: the slice of the seed starts at -1 and is empty *)
Lemma smacc_early_raw (a : lineR) n x p :
  feeds a n 0 (fin x) -> (2 <= p)%nat -> (p <= n)%nat ->
  exists y e, smacc p true SEED_SUM a = Ok y /\
    is_accumulation p (p - 2) 0 x e /\
    delivers y n (p - 2) (fin e).
Proof.
  intros Ha Hp Hn. set (q := (p - 2)%nat). unfold smacc.
  destruct (@ewm_call_ok _ _ a n 0 (fin x) (Z.of_nat p) 0 1 1 SEED_SUM
    (fun t => Ok (lfilter v1 (Some (vdiv (vofZ (Z.of_nat p - 1)) (vofZ (Z.of_nat p)))) t))
    (Z.of_nat p) q q
    (fin (fun i => acc ((INR p - 1) / INR p) 0 x q (i - q)))) as (y & E & Hmp & Hs);
    try (subst q; lia); auto.
  - simpl. destruct (Z.ltb_spec (Z.of_nat p) 1); [lia|]. now rewrite andb_false_r.
  - unfold seed_of. assert (L := feeds_len Ha).
    assert (S0 : slice (lser a) (Z.of_nat (S q) - Z.of_nat p) (Z.of_nat (S q)) = []).
    { unfold slice. rewrite L. rewrite slice_lo_nat. unfold slice_lo.
      destruct (Z.ltb_spec (Z.of_nat (S q) - Z.of_nat p) 0); [|subst q; lia].
      replace (Nat.min (S q) n - Z.to_nat (Z.of_nat n + (Z.of_nat (S q) - Z.of_nat p)))%nat with 0%nat
        by (subst q; lia). reflexivity. }
    rewrite S0. change (ser_sum ([] : list (ext R))) with (v0 : ext R). rewrite v0_fin.
    rewrite lfilter_acc by lia. f_equal.
    replace (n - q)%nat with (S (n - S q)) by (subst q; lia). reflexivity.
  - exists y. eexists. split; [exact E|]. split; [apply acc_is; lia|].
    eapply line_delivers_eq; eauto.
Qed.
