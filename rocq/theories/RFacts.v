(** Finite values: the [ext R] operations on real numbers. *)
From Coq Require Import ZArith List Bool Lia Arith Reals Lra.
From Verif Require Import Num Series Line Spec RSpec LineFacts ScanFacts.
Import ListNotations.
Set Implicit Arguments.
Local Open Scope R_scope.

Lemma Rltb_true a b : Rltb a b = true <-> a < b.
Proof. unfold Rltb. destruct (Rlt_dec a b); split; intros; auto; congruence. Qed.
Lemma Rltb_false a b : Rltb a b = false <-> b <= a.
Proof.
  unfold Rltb. destruct (Rlt_dec a b); split; intros; auto; try congruence; lra.
Qed.
Lemma Rltb_spec a b : BoolSpec (a < b) (b <= a) (Rltb a b).
Proof. unfold Rltb. destruct (Rlt_dec a b); constructor; lra. Qed.

Lemma beqb_spec (a b : R) : BoolSpec (a = b) (a <> b) (beqb a b).
Proof.
  unfold beqb. cbn. destruct (Rltb_spec a b); destruct (Rltb_spec b a); simpl;
    constructor; lra.
Qed.

Lemma vadd_fin (a b : R) : vadd (Fin a) (Fin b) = Fin (a + b).
Proof. reflexivity. Qed.
Lemma vsub_fin (a b : R) : vsub (Fin a) (Fin b) = Fin (a - b).
Proof. reflexivity. Qed.
Lemma vmul_fin (a b : R) : vmul (Fin a) (Fin b) = Fin (a * b).
Proof. reflexivity. Qed.
Lemma vdiv_fin (a b : R) : b <> 0 -> vdiv (Fin a) (Fin b) = Fin (a / b).
Proof.
  intro H. change (vdiv (Fin a) (Fin b)) with (if beqb b 0 then inf_signed a else Fin (a / b)).
  destruct (beqb_spec b 0) as [E|E]; [now elim H|reflexivity].
Qed.
Lemma vdiv_fin0 (a : R) : vdiv (Fin a) (Fin 0) = inf_signed a.
Proof.
  change (vdiv (Fin a) (Fin 0)) with (if beqb 0 0 then inf_signed a else Fin (a / 0)).
  destruct (beqb_spec 0 0) as [E|E]; [reflexivity|now elim E].
Qed.
Lemma inf_signed0 : inf_signed 0 = NaN (F:=R).
Proof.
  unfold inf_signed, bpos, bneg, b0. cbn. destruct (Rltb_spec 0 0); [lra|]. reflexivity.
Qed.
Lemma inf_signed_pos a : 0 < a -> inf_signed a = PInf (F:=R).
Proof.
  intro H. unfold inf_signed, bpos, b0. cbn. destruct (Rltb_spec 0 a); auto; lra.
Qed.
Lemma inf_signed_neg a : a < 0 -> inf_signed a = NInf (F:=R).
Proof.
  intro H. unfold inf_signed, bpos, bneg, b0. cbn. destruct (Rltb_spec 0 a); [lra|].
  destruct (Rltb_spec a 0); auto; lra.
Qed.
Lemma vabs_fin (a : R) : vabs (Fin a) = Fin (Rabs a).
Proof.
  cbn. unfold bneg, b0. cbn. f_equal.
  destruct (Rltb_spec a 0); unfold Rabs; destruct (Rcase_abs a); lra.
Qed.
Lemma vltb_fin (a b : R) : vltb (Fin a) (Fin b) = Rltb a b.
Proof. reflexivity. Qed.
Lemma veqb_fin (a b : R) : veqb (Fin a) (Fin b) = beqb a b.
Proof. reflexivity. Qed.
Lemma vleb_fin (a b : R) : vleb (Fin a) (Fin b) = negb (Rltb b a).
Proof.
  change (vleb (Fin a) (Fin b)) with (Rltb a b || beqb a b). destruct (beqb_spec a b); destruct (Rltb_spec a b);
  destruct (Rltb_spec b a); simpl; auto; lra.
Qed.
Lemma v0_fin : v0 = Fin 0 :> ext R.
Proof. reflexivity. Qed.
Lemma v1_fin : v1 = Fin 1 :> ext R.
Proof. reflexivity. Qed.
Lemma vofZ_fin z : vofZ z = Fin (IZR z) :> ext R.
Proof. reflexivity. Qed.
Lemma visnan_fin (a : R) : visnan (Fin a) = false.
Proof. reflexivity. Qed.
Lemma visinf_fin (a : R) : visinf (Fin a) = false.
Proof. reflexivity. Qed.
Lemma prep_fin (a : R) : prep (Fin a) = Fin a.
Proof. reflexivity. Qed.

Lemma nan_sub : nan_r (V:=ext R) vsub.
Proof. intros [| | |x]; reflexivity. Qed.
Lemma nan_div : nan_r (V:=ext R) vdiv.
Proof. intros [| | |x]; reflexivity. Qed.
Lemma nan_add : nan_r (V:=ext R) vadd.
Proof. intros [| | |x]; reflexivity. Qed.
Lemma nan_mul : nan_r (V:=ext R) vmul.
Proof. intros [| | |x]; reflexivity. Qed.

Lemma IZR_nat n : IZR (Z.of_nat n) = INR n.
Proof. symmetry. apply INR_IZR_INZ. Qed.

(** ** Sums *)

Lemma Rsum_app l m : Rsum (l ++ m) = Rsum l + Rsum m.
Proof. unfold Rsum. induction l as [|a l IH]; simpl; [lra|]. rewrite IH. lra. Qed.

Lemma fold_left_vadd_fin l a :
  fold_left vadd (map Fin l) (Fin a) = Fin (a + Rsum l).
Proof.
  revert a; induction l as [|x l IH]; intro a; simpl.
  - now rewrite Rplus_0_r.
  - change (eadd (Fin a) (Fin x)) with (Fin (a + x)). rewrite IH. f_equal. lra.
Qed.

Lemma vsum_fin l : vsum (map Fin l) = Fin (Rsum l).
Proof. unfold vsum. rewrite v0_fin, fold_left_vadd_fin. f_equal. lra. Qed.

Lemma prep_map_fin l : map prep (map (@Fin R) l) = map Fin l.
Proof. rewrite map_map. apply map_ext. reflexivity. Qed.

Lemma existsb_nan_fin l : existsb visnan (map (@Fin R) l) = false.
Proof. induction l; simpl; auto. Qed.

Lemma guard_win_fin G l : guard_win G (map (@Fin R) l) = G (map Fin l).
Proof. unfold guard_win. now rewrite prep_map_fin, existsb_nan_fin. Qed.

Lemma win_fin x i w : win (fin x) i w = map Fin (win x i w).
Proof. unfold win, fin. now rewrite map_map. Qed.

Lemma notnan_fin l : notnan (map (@Fin R) l) = map Fin l.
Proof. unfold notnan. induction l as [|a l IH]; simpl; [reflexivity|]. f_equal. exact IH. Qed.

Lemma win_length {A} (f : nat -> A) i w : length (win f i w) = w.
Proof. unfold win. now rewrite map_length, seq_length. Qed.

Lemma INR_pos p : (1 <= p)%nat -> 0 < INR p.
Proof. intro H. apply lt_0_INR. lia. Qed.

Lemma win_mean_fin l : l <> [] -> win_mean (map (@Fin R) l) = Fin (Rmean l).
Proof.
  intro H. unfold win_mean. rewrite vsum_fin, map_length, vofZ_fin, IZR_nat.
  apply vdiv_fin. destruct l; [congruence|]. apply not_0_INR. simpl; lia.
Qed.

Lemma ser_mean_fin l : l <> [] -> ser_mean (map (@Fin R) l) = Fin (Rmean l).
Proof.
  intro H. unfold ser_mean. rewrite notnan_fin. destruct l as [|a l]; [congruence|].
  cbn [map]. change (Fin a :: map Fin l) with (map (@Fin R) (a :: l)).
  rewrite vsum_fin, map_length, vofZ_fin, IZR_nat.
  apply vdiv_fin. apply not_0_INR. simpl; lia.
Qed.

Lemma ser_sum_fin l : ser_sum (map (@Fin R) l) = Fin (Rsum l).
Proof. unfold ser_sum. now rewrite notnan_fin, vsum_fin. Qed.

Lemma win_nonnil {A} (f : nat -> A) i w : (1 <= w)%nat -> win f i w <> [].
Proof. intros H E. pose proof (win_length f i w) as L. rewrite E in L. simpl in L. lia. Qed.

Lemma Rsum_bounds l lo hi :
  (forall v, In v l -> lo <= v <= hi) ->
  INR (length l) * lo <= Rsum l <= INR (length l) * hi.
Proof.
  induction l as [|a l IH]; intro H.
  - unfold Rsum. simpl. lra.
  - change (Rsum (a :: l)) with (a + Rsum l). cbn [length]. rewrite S_INR.
    pose proof (H a (or_introl eq_refl)).
    specialize (IH (fun v Hv => H v (or_intror Hv))). lra.
Qed.

Lemma Rmean_bounds l lo hi :
  l <> [] -> (forall v, In v l -> lo <= v <= hi) -> lo <= Rmean l <= hi.
Proof.
  intros Hl H. pose proof (Rsum_bounds l H) as [H1 H2].
  assert (Hp : 0 < INR (length l)) by (destruct l; [congruence|apply lt_0_INR; simpl; lia]).
  unfold Rmean. split.
  - apply Rmult_le_reg_l with (INR (length l)); auto. field_simplify; lra.
  - apply Rmult_le_reg_l with (INR (length l)); auto. field_simplify; lra.
Qed.

Lemma in_win {A} (x : nat -> A) i w v :
  In v (win x i w) <-> exists j, (S i - w <= j < S i - w + w)%nat /\ v = x j.
Proof.
  unfold win. rewrite in_map_iff. split.
  - intros (j & E & Hj). apply in_seq in Hj. exists j; split; auto.
  - intros (j & Hj & E). exists j; split; auto. apply in_seq; auto.
Qed.

Lemma win_S_within x k i w lo hi :
  (k + w <= S i)%nat -> within x k i lo hi ->
  forall v, In v (win x i w) -> lo <= v <= hi.
Proof.
  intros H Hw v Hv. apply in_win in Hv. destruct Hv as (j & Hj & ->). apply Hw. lia.
Qed.

(** ** Exponential smoothing of finite values *)

(** seed [w] at bar [j], then y(i) = (1 - al) y(i-1) + al x(i) *)
Fixpoint es (al w : R) (x : nat -> R) (j d : nat) : R :=
  match d with
  | 0%nat => w
  | S d' => (1 - al) * es al w x j d' + al * x (j + S d')%nat
  end.

Lemma ewma_step_fin al wa x :
  ewma_step (Fin al) false (Fin wa, v1) (Fin x) =
  ((Fin ((1 - al) * wa + al * x), v1), Fin ((1 - al) * wa + al * x)).
Proof.
  unfold ewma_step. rewrite !visnan_fin, v1_fin, veqb_fin.
  rewrite !vsub_fin, !vmul_fin, !vadd_fin.
  destruct (beqb_spec wa x) as [->|E].
  - replace ((1 - al) * x + al * x) with x by ring. reflexivity.
  - rewrite vdiv_fin by lra.
    replace ((1 * (1 - al) * wa + al * x) / (1 * (1 - al) + al))
      with ((1 - al) * wa + al * x) by (field; lra). reflexivity.
Qed.

Lemma ewma_st_fin al wa x j d :
  scan_st (ewma_step (Fin al) false) (fun i => prep (fin x i)) (S j) (Fin wa, v1) d =
  (Fin (es al wa x j d), v1).
Proof.
  induction d as [|d IH]; auto. cbn [scan_st]. rewrite IH.
  unfold fin at 1. rewrite prep_fin, ewma_step_fin. cbn [fst es].
  now replace (j + S d)%nat with (S j + d)%nat by lia.
Qed.

Lemma ewma_val_fin al wa x j d :
  ewma_val (Fin al) false (Fin wa) (fin x) j d = Fin (es al wa x j d).
Proof.
  destruct d as [|d]; auto. cbn [ewma_val]. rewrite ewma_st_fin.
  unfold fin. rewrite prep_fin, ewma_step_fin. reflexivity.
Qed.

Lemma alpha_span_fin p :
  (1 <= p)%nat -> alpha_span (vofZ (Z.of_nat p)) = Fin (2 / (INR p + 1)) :> ext R.
Proof.
  intro Hp. unfold alpha_span, alpha_com.
  rewrite !vofZ_fin, v1_fin, vsub_fin, IZR_nat, vdiv_fin, vadd_fin by lra.
  pose proof (INR_pos Hp). rewrite vdiv_fin by lra. f_equal. field. lra.
Qed.

Lemma alpha_com_fin p :
  (1 <= p)%nat -> alpha_com (vofZ (Z.of_nat p - 1)) = Fin (1 / INR p) :> ext R.
Proof.
  intro Hp. unfold alpha_com.
  rewrite vofZ_fin, v1_fin, vadd_fin. pose proof (INR_pos Hp).
  rewrite minus_IZR, IZR_nat. rewrite vdiv_fin by lra. f_equal. field. lra.
Qed.

Lemma es_bounds al w x j d lo hi :
  0 <= al <= 1 -> lo <= w <= hi -> within x (S j) (j + d) lo hi -> lo <= es al w x j d <= hi.
Proof.
  intros Hal Hw. induction d as [|d IH]; intro Hx; [exact Hw|].
  cbn [es]. assert (H1 : lo <= es al w x j d <= hi).
  { apply IH. intros i Hi. apply Hx. lia. }
  assert (H2 : lo <= x (j + S d)%nat <= hi) by (apply Hx; lia).
  split; nra.
Qed.
