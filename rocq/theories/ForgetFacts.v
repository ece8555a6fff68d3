(** Exponential averages forget old history. *)
From Coq Require Import ZArith QArith List Bool Lia Arith Reals Lra Psatz.
From Verif Require Import Num Series Line Spec RSpec BoundSpec RangeSpec LineFacts ScanFacts RFacts OpFacts
  IndMA MAFacts RLineFacts IndBasic BasicFacts BoundFacts IndRange RangeFacts ForgetSpec.
Import ListNotations.
Set Implicit Arguments.
Local Open Scope R_scope.

Lemma ema_factor p : (1 <= p)%nat -> 0 <= 1 - 2 / (INR p + 1) < 1.
Proof.
  intro Hp. assert (1 <= INR p) by (change 1 with (INR 1); apply le_INR; lia).
  assert (0 < / (INR p + 1)) by (apply Rinv_0_lt_compat; lra).
  assert (E : / (INR p + 1) * (INR p + 1) = 1) by (apply Rinv_l; lra).
  unfold Rdiv. split; nra.
Qed.
Lemma smma_factor p : (1 <= p)%nat -> 0 <= 1 - 1 / INR p < 1.
Proof.
  intro Hp. assert (1 <= INR p) by (change 1 with (INR 1); apply le_INR; lia).
  assert (0 < / INR p) by (apply Rinv_0_lt_compat; lra).
  assert (E : / INR p * INR p = 1) by (apply Rinv_l; lra).
  unfold Rdiv. split; nra.
Qed.

(** the common recurrence of the exponential averages *)
Definition smooths (b : R) (q : nat) (x e : nat -> R) : Prop :=
  forall i, (q <= i)%nat -> e (S i) = b * e i + (1 - b) * x (S i).
Lemma ema_smooths p k x e : is_ema p k x e -> smooths (1 - 2 / (INR p + 1)) (k + p - 1) x e.
Proof. intros [_ H] i Hi. rewrite H by auto. ring. Qed.
Lemma smma_smooths p k x e : (1 <= p)%nat -> is_smma p k x e -> smooths (1 - 1 / INR p) (k + p - 1) x e.
Proof.
  intros Hp [_ H] i Hi. rewrite H by auto.
  assert (1 <= INR p) by (change 1 with (INR 1); apply le_INR; lia). field. lra.
Qed.

(** the exact law: what remains of the difference *)
Lemma forget_exact b q d x x' e e' :
  smooths b q x e -> smooths b q x' e' -> (forall i, (q <= i)%nat -> x' (S i) = x (d + S i)%nat) ->
  forall i, (q <= i)%nat -> e' i - e (d + i)%nat = b ^ (i - q) * (e' q - e (d + q)%nat).
Proof.
  intros H H' Hx i Hi. induction Hi as [|i Hi IH].
  - rewrite Nat.sub_diag. simpl. ring.
  - replace (S i - q)%nat with (S (i - q)) by lia. cbn [pow].
    rewrite H' by lia. rewrite (Nat.add_succ_r d i). rewrite H by lia.
    rewrite Hx by lia. rewrite Nat.add_succ_r. rewrite Rmult_assoc, <- IH. ring.
Qed.

(** with inputs that only agree up to [dl] from bar [s] on *)
Lemma forget_near b s d n x x' e e' B dl :
  0 <= b <= 1 -> 0 <= B -> 0 <= dl ->
  smooths b s x (fun i => e i) -> smooths b s x' e' ->
  (forall i, (s <= i)%nat -> (S i < n)%nat -> Rabs (x' (S i) - x (d + S i)%nat) <= dl) ->
  Rabs (e' s - e (d + s)%nat) <= B ->
  forall m, (s + m < n)%nat -> Rabs (e' (s + m)%nat - e (d + (s + m))%nat) <= b ^ m * B + dl.
Proof.
  intros Hb HB Hdl H H' Hx H0 m. induction m as [|m IH]; intro Hm.
  - rewrite !Nat.add_0_r. simpl. lra.
  - specialize (IH ltac:(lia)).
    replace (s + S m)%nat with (S (s + m)) in * by lia.
    rewrite H' by lia. rewrite (Nat.add_succ_r d (s + m)), H by lia.
    specialize (Hx (s + m)%nat ltac:(lia) ltac:(lia)). rewrite Nat.add_succ_r in Hx.
    replace (b * e' (s + m)%nat + (1 - b) * x' (S (s + m)) -
             (b * e (d + (s + m))%nat + (1 - b) * x (S (d + (s + m)))))
      with (b * (e' (s + m)%nat - e (d + (s + m))%nat) + (1 - b) * (x' (S (s + m)) - x (S (d + (s + m)))))
      by ring.
    eapply Rle_trans; [apply Rabs_triang|]. rewrite !Rabs_mult, (Rabs_pos_eq b), (Rabs_pos_eq (1 - b)) by lra.
    cbn [pow].
    assert (A1 : b * Rabs (e' (s + m)%nat - e (d + (s + m))%nat) <= b * (b ^ m * B + dl))
      by (apply Rmult_le_compat_l; lra).
    assert (A2 : (1 - b) * Rabs (x' (S (s + m)) - x (S (d + (s + m)))) <= (1 - b) * dl)
      by (apply Rmult_le_compat_l; lra).
    nra.
Qed.

(** ** One average *)
Section One.
  Variables (a a' : lineR) (n d k p : nat) (x x' : nat -> R).
  Hypothesis Ha : feeds a (d + n) k (fin x).
  Hypothesis Ha' : feeds a' n k (fin x').
  Hypothesis Hx : forall i, (k <= i)%nat -> x' i = x (d + i)%nat.
  Hypothesis Hp : (1 <= p)%nat.
  Hypothesis Hn : (k + p <= n)%nat.

  Lemma within_drop i lo hi : within x k (d + i) lo hi -> within x' k i lo hi.
  Proof. intros H j Hj. rewrite Hx by lia. apply H. lia. Qed.

  Lemma ema_forgets :
    exists y y' e e', ema p a = Ok y /\ ema p a' = Ok y' /\
      delivers y (d + n) (k + p - 1) (fin e) /\ delivers y' n (k + p - 1) (fin e') /\
      forall i, (k + p - 1 <= i)%nat ->
        e' i - e (d + i)%nat =
          (1 - 2 / (INR p + 1)) ^ (i - (k + p - 1)) * (e' (k + p - 1)%nat - e (d + (k + p - 1))%nat) /\
        forall lo hi, within x k (d + i) lo hi ->
          Rabs (e' i - e (d + i)%nat) <= (1 - 2 / (INR p + 1)) ^ (i - (k + p - 1)) * (hi - lo).
  Proof.
    destruct (ema_fin Ha Hp) as (y & e & E & S & D); [lia|].
    destruct (ema_fin Ha' Hp) as (y' & e' & E' & S' & D'); [lia|].
    exists y, y', e, e'. repeat (split; [assumption|]). intros i Hi.
    assert (HE : e' i - e (d + i)%nat =
          (1 - 2 / (INR p + 1)) ^ (i - (k + p - 1)) * (e' (k + p - 1)%nat - e (d + (k + p - 1))%nat)).
    { refine (forget_exact d (ema_smooths S) (ema_smooths S') _ Hi). intros j Hj. apply Hx. lia. }
    split; auto. intros lo hi Hw. rewrite HE, Rabs_mult.
    pose proof (ema_factor Hp) as Hb.
    rewrite Rabs_pos_eq by (apply pow_le; lra).
    apply Rmult_le_compat_l; [apply pow_le; lra|].
    assert (lo <= e' (k + p - 1)%nat <= hi).
    { refine (is_ema_within Hp S' (Nat.le_refl _) _). apply within_drop. intros j Hj. apply Hw. lia. }
    assert (lo <= e (d + (k + p - 1))%nat <= hi).
    { refine (is_ema_within Hp S _ _); [lia|]. intros j Hj. apply Hw. lia. }
    apply Rabs_le. lra.
  Qed.

  Lemma smma_forgets :
    exists y y' e e', smma p a = Ok y /\ smma p a' = Ok y' /\
      delivers y (d + n) (k + p - 1) (fin e) /\ delivers y' n (k + p - 1) (fin e') /\
      forall i, (k + p - 1 <= i)%nat ->
        e' i - e (d + i)%nat =
          (1 - 1 / INR p) ^ (i - (k + p - 1)) * (e' (k + p - 1)%nat - e (d + (k + p - 1))%nat) /\
        forall lo hi, within x k (d + i) lo hi ->
          Rabs (e' i - e (d + i)%nat) <= (1 - 1 / INR p) ^ (i - (k + p - 1)) * (hi - lo).
  Proof.
    destruct (smma_fin Ha Hp) as (y & e & E & S & D); [lia|].
    destruct (smma_fin Ha' Hp) as (y' & e' & E' & S' & D'); [lia|].
    exists y, y', e, e'. repeat (split; [assumption|]). intros i Hi.
    assert (HE : e' i - e (d + i)%nat =
          (1 - 1 / INR p) ^ (i - (k + p - 1)) * (e' (k + p - 1)%nat - e (d + (k + p - 1))%nat)).
    { refine (forget_exact d (smma_smooths Hp S) (smma_smooths Hp S') _ Hi). intros j Hj. apply Hx. lia. }
    split; auto. intros lo hi Hw. rewrite HE, Rabs_mult.
    pose proof (smma_factor Hp) as Hb.
    rewrite Rabs_pos_eq by (apply pow_le; lra).
    apply Rmult_le_compat_l; [apply pow_le; lra|].
    assert (lo <= e' (k + p - 1)%nat <= hi).
    { refine (is_smma_within Hp S' (Nat.le_refl _) _). apply within_drop. intros j Hj. apply Hw. lia. }
    assert (lo <= e (d + (k + p - 1))%nat <= hi).
    { refine (is_smma_within Hp S _ _); [lia|]. intros j Hj. apply Hw. lia. }
    apply Rabs_le. lra.
  Qed.
End One.

(** ** Chains of averages: nearness is kept *)
Definition near (k n d s : nat) (dl lo hi : R) (x x' : nat -> R) : Prop :=
  (forall j, (k <= j < d + n)%nat -> lo <= x j <= hi) /\
  (forall j, (k <= j < n)%nat -> lo <= x' j <= hi) /\
  (forall i, (k + s <= i < n)%nat -> Rabs (x' i - x (d + i)%nat) <= dl).

Lemma near_weak k n d s dl lo hi x x' k' s' dl' :
  near k n d s dl lo hi x x' -> (k <= k')%nat -> (k + s <= k' + s')%nat -> dl <= dl' ->
  near k' n d s' dl' lo hi x x'.
Proof.
  intros (A & B & C) Hk Hs Hd. split; [|split].
  - intros j Hj. apply A. lia.
  - intros j Hj. apply B. lia.
  - intros i Hi. eapply Rle_trans; [apply C; lia|auto].
Qed.

Lemma near_scale c k n d s dl lo hi x x' :
  near k n d s dl lo hi x x' ->
  near k n d s (Rabs c * dl) (- (Rabs c * Rmax (Rabs lo) (Rabs hi))) (Rabs c * Rmax (Rabs lo) (Rabs hi))
    (fun i => c * x i) (fun i => c * x' i).
Proof.
  intros (A & B & C).
  assert (W : forall z, lo <= z <= hi ->
     - (Rabs c * Rmax (Rabs lo) (Rabs hi)) <= c * z <= Rabs c * Rmax (Rabs lo) (Rabs hi)).
  { intros z Hz. assert (Rabs (c * z) <= Rabs c * Rmax (Rabs lo) (Rabs hi)) as HA.
    { rewrite Rabs_mult. apply Rmult_le_compat_l; [apply Rabs_pos|].
      pose proof (Rmax_l (Rabs lo) (Rabs hi)). pose proof (Rmax_r (Rabs lo) (Rabs hi)).
      pose proof (Rle_abs hi). pose proof (Rle_abs (- lo)) as HL. rewrite Rabs_Ropp in HL.
      apply Rabs_le. lra. }
    pose proof (Rle_abs (c * z)). pose proof (Rle_abs (- (c * z))) as HL. rewrite Rabs_Ropp in HL. lra. }
  split; [|split].
  - intros j Hj. apply W. now apply A.
  - intros j Hj. apply W. now apply B.
  - intros i Hi. replace (c * x' i - c * x (d + i)%nat) with (c * (x' i - x (d + i)%nat)) by ring.
    rewrite Rabs_mult. apply Rmult_le_compat_l; [apply Rabs_pos|]. now apply C.
Qed.
Lemma near_add k n d s dl lo hi x x' dl2 lo2 hi2 z z' :
  near k n d s dl lo hi x x' -> near k n d s dl2 lo2 hi2 z z' ->
  near k n d s (dl + dl2) (lo + lo2) (hi + hi2) (fun i => x i + z i) (fun i => x' i + z' i).
Proof.
  intros (A & B & C) (A2 & B2 & C2). split; [|split].
  - intros j Hj. specialize (A j Hj). specialize (A2 j Hj). lra.
  - intros j Hj. specialize (B j Hj). specialize (B2 j Hj). lra.
  - intros i Hi. specialize (C i Hi). specialize (C2 i Hi).
    replace (x' i + z' i - (x (d + i)%nat + z (d + i)%nat))
      with ((x' i - x (d + i)%nat) + (z' i - z (d + i)%nat)) by ring.
    eapply Rle_trans; [apply Rabs_triang|]. lra.
Qed.
Lemma near_ext k n d s dl lo hi x x' z z' :
  near k n d s dl lo hi x x' ->
  (forall j, (k <= j < d + n)%nat -> z j = x j) -> (forall j, (k <= j < n)%nat -> z' j = x' j) ->
  near k n d s dl lo hi z z'.
Proof.
  intros (A & B & C) H H'. split; [|split].
  - intros j Hj. rewrite H by auto. now apply A.
  - intros j Hj. rewrite H' by auto. now apply B.
  - intros i Hi. rewrite H, H' by lia. now apply C.
Qed.

Lemma near_ema p k n d s m dl lo hi eps x x' e e' :
  (1 <= p)%nat -> near k n d s dl lo hi x x' -> is_ema p k x e -> is_ema p k x' e' -> 0 <= dl -> lo <= hi ->
  (1 - 2 / (INR p + 1)) ^ m * (hi - lo) <= eps ->
  near (k + p - 1) n d (s + m) (dl + eps) lo hi e e'.
Proof.
  intros Hp (A & B & C) He He' Hd Hlh Hm. pose proof (ema_factor Hp) as Hb.
  assert (We : forall j, (k + p - 1 <= j < d + n)%nat -> lo <= e j <= hi).
  { intros j Hj. refine (is_ema_within Hp He _ _); [lia|]. intros i Hi. apply A. lia. }
  assert (We' : forall j, (k + p - 1 <= j < n)%nat -> lo <= e' j <= hi).
  { intros j Hj. refine (is_ema_within Hp He' _ _); [lia|]. intros i Hi. apply B. lia. }
  split; [|split]; auto. intros i Hi.
  set (q := (k + p - 1 + s)%nat).
  assert (Hq : Rabs (e' (q + (i - q))%nat - e (d + (q + (i - q)))%nat) <=
               (1 - 2 / (INR p + 1)) ^ (i - q) * (hi - lo) + dl).
  { apply forget_near with (n := n) (x := x) (x' := x'); try lra; try (unfold q; lia).
    - intros j Hj. apply (ema_smooths He). unfold q in Hj. lia.
    - intros j Hj. apply (ema_smooths He'). unfold q in Hj. lia.
    - intros j Hj Hjn. apply C. unfold q in Hj. lia.
    - assert (W1 := We (d + q)%nat ltac:(unfold q; lia)). assert (W2 := We' q ltac:(unfold q; lia)).
      apply Rabs_le. lra. }
  replace (q + (i - q))%nat with i in Hq by (unfold q; lia).
  eapply Rle_trans; [exact Hq|]. rewrite Rplus_comm. apply Rplus_le_compat_l.
  eapply Rle_trans; [|exact Hm]. apply Rmult_le_compat_r; [lra|].
  replace (i - q)%nat with (m + (i - q - m))%nat by (unfold q; lia). rewrite pow_add.
  rewrite <- (Rmult_1_r (_ ^ m)) at 2. apply Rmult_le_compat_l; [apply pow_le; lra|].
  eapply Rle_trans; [apply (pow_incr _ 1); lra|]. rewrite pow1. lra.
Qed.

Lemma near_smma p k n d s m dl lo hi eps x x' e e' :
  (1 <= p)%nat -> near k n d s dl lo hi x x' -> is_smma p k x e -> is_smma p k x' e' -> 0 <= dl -> lo <= hi ->
  (1 - 1 / INR p) ^ m * (hi - lo) <= eps ->
  near (k + p - 1) n d (s + m) (dl + eps) lo hi e e'.
Proof.
  intros Hp (A & B & C) He He' Hd Hlh Hm. pose proof (smma_factor Hp) as Hb.
  assert (We : forall j, (k + p - 1 <= j < d + n)%nat -> lo <= e j <= hi).
  { intros j Hj. refine (is_smma_within Hp He _ _); [lia|]. intros i Hi. apply A. lia. }
  assert (We' : forall j, (k + p - 1 <= j < n)%nat -> lo <= e' j <= hi).
  { intros j Hj. refine (is_smma_within Hp He' _ _); [lia|]. intros i Hi. apply B. lia. }
  split; [|split]; auto. intros i Hi.
  set (q := (k + p - 1 + s)%nat).
  assert (Hq : Rabs (e' (q + (i - q))%nat - e (d + (q + (i - q)))%nat) <=
               (1 - 1 / INR p) ^ (i - q) * (hi - lo) + dl).
  { apply forget_near with (n := n) (x := x) (x' := x'); try lra; try (unfold q; lia).
    - intros j Hj. apply (smma_smooths Hp He). unfold q in Hj. lia.
    - intros j Hj. apply (smma_smooths Hp He'). unfold q in Hj. lia.
    - intros j Hj Hjn. apply C. unfold q in Hj. lia.
    - assert (W1 := We (d + q)%nat ltac:(unfold q; lia)). assert (W2 := We' q ltac:(unfold q; lia)).
      apply Rabs_le. lra. }
  replace (q + (i - q))%nat with i in Hq by (unfold q; lia).
  eapply Rle_trans; [exact Hq|]. rewrite Rplus_comm. apply Rplus_le_compat_l.
  eapply Rle_trans; [|exact Hm]. apply Rmult_le_compat_r; [lra|].
  replace (i - q)%nat with (m + (i - q - m))%nat by (unfold q; lia). rewrite pow_add.
  rewrite <- (Rmult_1_r (_ ^ m)) at 2. apply Rmult_le_compat_l; [apply pow_le; lra|].
  eapply Rle_trans; [apply (pow_incr _ 1); lra|]. rewrite pow1. lra.
Qed.

Lemma steps_enough b B eps : 0 <= b < 1 -> 0 <= B -> 0 < eps -> exists m, b ^ m * B <= eps.
Proof.
  intros Hb HB He. destruct (pow_lt_1_zero b ltac:(rewrite Rabs_pos_eq; lra) (eps / (B + 1))) as [m Hm].
  { apply Rdiv_lt_0_compat; lra. }
  exists m. specialize (Hm m (Nat.le_refl m)). rewrite Rabs_pos_eq in Hm by (apply pow_le; lra).
  apply Rle_trans with (eps / (B + 1) * B).
  - apply Rmult_le_compat_r; lra.
  - unfold Rdiv. apply Rmult_le_reg_r with (B + 1); [lra|].
    rewrite !Rmult_assoc. rewrite (Rmult_comm B), <- (Rmult_assoc (/ (B + 1))), Rinv_l by lra. nra.
Qed.
