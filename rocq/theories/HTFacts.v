(** The Hilbert transform loop on finite prices follows the equations of HTSpec. *)
From Coq Require Import ZArith QArith List Bool Lia Arith Reals Lra Psatz.
From Verif Require Import Num Series Line Spec RSpec HTSpec LineFacts ScanFacts RFacts OpFacts RLineFacts
  Apply IndSar SarFacts IndHT.
Import ListNotations.
Set Implicit Arguments.
Local Open Scope R_scope.

(** ** literals *)
Lemma lit_fin n d : vofQ (n # d) = Fin (IZR n / IZR (Zpos d)) :> ext R.
Proof.
  cbn [vofQ NumExt bofQ BaseR]. unfold RofQ. cbn [Qden Qnum]. f_equal.
  destruct d; try reflexivity. field.
Qed.
Lemma atan_zero x : atan x = 0 -> x = 0.
Proof. intro H. rewrite <- (tan_atan x), H. apply tan_0. Qed.
Lemma rad2deg_fin : RAD2DEG = Fin degrees.
Proof.
  unfold RAD2DEG, degrees. rewrite !vofZ_fin. change (vatan (Fin 1)) with (Fin (atan 1)).
  rewrite vmul_fin, atan_1. rewrite vdiv_fin; [|pose proof PI_RGT_0; lra]. f_equal.
  pose proof PI_RGT_0. field. lra.
Qed.
Lemma degrees_pos : 0 < degrees.
Proof. unfold degrees. pose proof PI_RGT_0. apply Rdiv_lt_0_compat; lra. Qed.
Lemma deg2rad_fin : DEG2RAD = Fin (PI / 180).
Proof.
  unfold DEG2RAD. rewrite rad2deg_fin, vofZ_fin, vdiv_fin; [|pose proof degrees_pos; lra].
  f_equal. unfold degrees. pose proof PI_RGT_0. field. lra.
Qed.
Lemma circle_fin : DEG2RADBY360 = Fin (2 * PI).
Proof.
  unfold DEG2RADBY360. rewrite rad2deg_fin, vofZ_fin, vdiv_fin; [|pose proof degrees_pos; lra].
  f_equal. unfold degrees. pose proof PI_RGT_0. field. lra.
Qed.
Lemma mix_fin a p x b q y :
  mix (a # p) (Fin x) (b # q) (Fin y) = Fin (IZR a / IZR (Zpos p) * x + IZR b / IZR (Zpos q) * y).
Proof. unfold mix. rewrite !lit_fin, !vmul_fin, vadd_fin. reflexivity. Qed.
Lemma truthy_fin x : truthy (Fin x) = negb (beqb x 0).
Proof. unfold truthy. now rewrite v0_fin, veqb_fin. Qed.

Lemma raw_period_fin re im p : raw_period (Fin re) (Fin im) (Fin p) = Fin (rotation_period re im p).
Proof.
  unfold raw_period, rotation_period. rewrite !truthy_fin.
  destruct (beqb_spec re 0), (Req_EM_T re 0); try contradiction; [reflexivity|].
  destruct (beqb_spec im 0), (Req_EM_T im 0); try contradiction; [reflexivity|].
  cbn [negb andb]. rewrite vdiv_fin by assumption.
  change (vatan (Fin (im / re))) with (Fin (atan (im / re))).
  rewrite rad2deg_fin, vmul_fin, vofZ_fin, vdiv_fin; [reflexivity|].
  intro Z. apply Rmult_integral in Z. destruct Z as [Z|Z]; [pose proof degrees_pos; lra|].
  apply atan_zero in Z. apply Rmult_integral in Z. destruct Z as [Z|Z]; [contradiction|].
  apply Rinv_neq_0_compat in Z; [exact Z|assumption].
Qed.
Lemma limit_period_fin p l : limit_period (Fin p) (Fin l) = Fin (limited p l).
Proof.
  unfold limit_period, limited. rewrite !lit_fin, !vofZ_fin, !vmul_fin. repeat rewrite ?pymin_fin, ?pymax_fin.
  replace (l * (15 / 10)) with (1.5 * l) by lra. replace (l * (67 / 100)) with (0.67 * l) by lra. reflexivity.
Qed.

(** ** states *)
Definition d7 {A B} (f : A -> B) (d : deque7 A) : deque7 B :=
  D7 (f (x0 d)) (f (x1 d)) (f (x2 d)) (f (x3 d)) (f (x4 d)) (f (x5 d)) (f (x6 d)).
Definition emb (st : htst R) : htst (ext R) :=
  mkHt (d7 Fin (h_price st)) (d7 Fin (h_det st)) (d7 Fin (h_i1 st)) (d7 Fin (h_q1 st))
       (Fin (h_i2 st)) (Fin (h_q2 st)) (Fin (h_re st)) (Fin (h_im st)) (Fin (h_period st)) (Fin (h_sp st)).

Definition rht (x : deque7 R) : R :=
  0.0962 * x6 x + 0.5769 * x4 x - 0.5769 * x2 x - 0.0962 * x0 x.

Lemma ht_fin d adj : ht_ (d7 Fin d) (Fin adj) = Fin (rht d * adj).
Proof.
  unfold ht_, d7, rht. cbn [x0 x2 x4 x6]. rewrite !lit_fin, !vmul_fin, vadd_fin, !vsub_fin, vmul_fin.
  f_equal; lra.
Qed.
Lemma dappend_fin d x : dappend (d7 (@Fin R) d) (Fin x) = d7 Fin (dappend d x).
Proof. reflexivity. Qed.

Definition rstep (st : htst R) (p : R) : htst R :=
  let adj := 0.075 * h_period st + 0.54 in
  let price := dappend (h_price st) p in
  let det := dappend (h_det st) (rht price * adj) in
  let i10 := x3 det in
  let q10 := rht det * adj in
  let i1 := dappend (h_i1 st) i10 in
  let q1 := dappend (h_q1 st) q10 in
  let i2 := 0.2 * (i10 - rht q1 * adj) + 0.8 * h_i2 st in
  let q2 := 0.2 * (q10 + rht i1 * adj) + 0.8 * h_q2 st in
  let re := 0.2 * (i2 * h_i2 st + q2 * h_q2 st) + 0.8 * h_re st in
  let im := 0.2 * (i2 * h_q2 st - q2 * h_i2 st) + 0.8 * h_im st in
  let period := 0.2 * limited (rotation_period re im (h_period st)) (h_period st) + 0.8 * h_period st in
  mkHt price det i1 q1 i2 q2 re im period (0.33 * period + 0.67 * h_sp st).

Lemma mix_eq a p x b q y r :
  r = IZR a / IZR (Zpos p) * x + IZR b / IZR (Zpos q) * y ->
  mix (a # p) (Fin x) (b # q) (Fin y) = Fin r.
Proof. intros ->. apply mix_fin. Qed.

Lemma ht_step_fin st p : ht_step (emb st) (Fin p) = emb (rstep st p).
Proof.
  unfold ht_step. cbn [emb h_price h_det h_i1 h_q1 h_i2 h_q2 h_re h_im h_period h_sp].
  assert (EA : vadd (vmul (vofQ (75 # 1000)) (Fin (h_period st))) (vofQ (54 # 100))
               = Fin (0.075 * h_period st + 0.54)).
  { rewrite !lit_fin, vmul_fin, vadd_fin. f_equal; lra. }
  rewrite EA. set (adj := 0.075 * h_period st + 0.54).
  rewrite dappend_fin, ht_fin, dappend_fin.
  set (det := dappend (h_det st) (rht (dappend (h_price st) p) * adj)).
  change (x3 (d7 Fin det)) with (@Fin R (x3 det)). rewrite ht_fin, !dappend_fin, !ht_fin.
  set (i1 := dappend (h_i1 st) (x3 det)). set (q1 := dappend (h_q1 st) (rht det * adj)).
  rewrite vsub_fin, vadd_fin.
  set (i2 := 0.2 * (x3 det - rht q1 * adj) + 0.8 * h_i2 st).
  set (q2 := 0.2 * (rht det * adj + rht i1 * adj) + 0.8 * h_q2 st).
  rewrite (@mix_eq 2 10 _ 8 10 _ i2) by (unfold i2; lra).
  rewrite (@mix_eq 2 10 _ 8 10 _ q2) by (unfold q2; lra).
  rewrite !vmul_fin, vadd_fin, vsub_fin.
  set (re := 0.2 * (i2 * h_i2 st + q2 * h_q2 st) + 0.8 * h_re st).
  set (im := 0.2 * (i2 * h_q2 st - q2 * h_i2 st) + 0.8 * h_im st).
  rewrite (@mix_eq 2 10 _ 8 10 _ re) by (unfold re; lra).
  rewrite (@mix_eq 2 10 _ 8 10 _ im) by (unfold im; lra).
  rewrite raw_period_fin, limit_period_fin.
  set (pe := 0.2 * limited (rotation_period re im (h_period st)) (h_period st) + 0.8 * h_period st).
  rewrite (@mix_eq 2 10 _ 8 10 _ pe) by (unfold pe; lra).
  rewrite (@mix_eq 33 100 _ 67 100 _ (0.33 * pe + 0.67 * h_sp st)) by lra.
  reflexivity.
Qed.

Definition dz : deque7 R := D7 0 0 0 0 0 0 0.
Definition rht0 : htst R := mkHt dz dz dz dz 0 0 0 0 0 0.
Lemma ht0_fin : ht0 = emb rht0.
Proof. unfold ht0, dzero. rewrite v0_fin. reflexivity. Qed.

(** ** the sequence of states and the equations *)
Section Seq.
  Variables (start : nat) (s : nat -> R).
  Hypothesis Hstart : (1 <= start)%nat.

  Fixpoint hst (d : nat) : htst R :=
    match d with 0%nat => rht0 | S d' => rstep (hst d') (s (start + d')) end.

  Definition col (f : htst R -> R) (i : nat) : R := from start (fun i => f (hst (S i - start))) i.
  Definition the_cycle : cycle :=
    mkCycle (col (fun st => x6 (h_det st))) (col (fun st => x6 (h_i1 st))) (col (fun st => x6 (h_q1 st)))
            (col (@h_i2 R)) (col (@h_q2 R)) (col (@h_re R)) (col (@h_im R)) (col (@h_period R)) (col (@h_sp R)).

  Definition W (f : nat -> R) (d : nat) : deque7 R :=
    D7 (f (start + d - 7)%nat) (f (start + d - 6)%nat) (f (start + d - 5)%nat) (f (start + d - 4)%nat)
       (f (start + d - 3)%nat) (f (start + d - 2)%nat) (f (start + d - 1)%nat).

  Lemma W_append f d x : x = f (start + d)%nat -> dappend (W f d) x = W f (S d).
  Proof.
    intros ->. unfold dappend, W. cbn [x1 x2 x3 x4 x5 x6].
    replace (start + S d - 7)%nat with (start + d - 6)%nat by lia.
    replace (start + S d - 6)%nat with (start + d - 5)%nat by lia.
    replace (start + S d - 5)%nat with (start + d - 4)%nat by lia.
    replace (start + S d - 4)%nat with (start + d - 3)%nat by lia.
    replace (start + S d - 3)%nat with (start + d - 2)%nat by lia.
    replace (start + S d - 2)%nat with (start + d - 1)%nat by lia.
    now replace (start + S d - 1)%nat with (start + d)%nat by lia.
  Qed.
  Lemma from_lt (f : nat -> R) i : (i < start)%nat -> from start f i = 0.
  Proof. intro H. unfold from. apply Nat.ltb_lt in H. now rewrite H. Qed.
  Lemma from_ge (f : nat -> R) i : (start <= i)%nat -> from start f i = f i.
  Proof. intro H. unfold from. apply Nat.ltb_ge in H. now rewrite H. Qed.
  Lemma W_zero f : (forall i, (i < start)%nat -> f i = 0) -> W f 0 = dz.
  Proof. intro H. unfold W. now rewrite !H by lia. Qed.
  Lemma col_lt f i : (i < start)%nat -> col f i = 0.
  Proof. apply from_lt. Qed.
  Lemma col_at f d : col f (start + d) = f (hst (S d)).
  Proof. unfold col. rewrite from_ge by lia. now replace (S (start + d) - start)%nat with (S d) by lia. Qed.

  Lemma hst_price d : h_price (hst d) = W (from start s) d.
  Proof.
    induction d as [|d IH].
    - cbn. symmetry. apply W_zero. intros. now apply from_lt.
    - cbn [hst]. unfold rstep. cbn [h_price]. rewrite IH. apply W_append. rewrite from_ge; [reflexivity|lia].
  Qed.
  Lemma hst_det d : h_det (hst d) = W (c_det the_cycle) d.
  Proof.
    induction d as [|d IH].
    - cbn. symmetry. apply W_zero. intros. now apply col_lt.
    - rewrite <- (@W_append _ _ (x6 (h_det (hst (S d))))), <- IH; [reflexivity|]. cbn [c_det the_cycle].
      now rewrite col_at.
  Qed.
  Lemma hst_i1 d : h_i1 (hst d) = W (c_i1 the_cycle) d.
  Proof.
    induction d as [|d IH].
    - cbn. symmetry. apply W_zero. intros. now apply col_lt.
    - rewrite <- (@W_append _ _ (x6 (h_i1 (hst (S d))))), <- IH; [reflexivity|]. cbn [c_i1 the_cycle].
      now rewrite col_at.
  Qed.
  Lemma hst_q1 d : h_q1 (hst d) = W (c_q1 the_cycle) d.
  Proof.
    induction d as [|d IH].
    - cbn. symmetry. apply W_zero. intros. now apply col_lt.
    - rewrite <- (@W_append _ _ (x6 (h_q1 (hst (S d))))), <- IH; [reflexivity|]. cbn [c_q1 the_cycle].
      now rewrite col_at.
  Qed.
  Lemma hst_col f d : f rht0 = 0 -> f (hst d) = col f (start + d - 1)%nat.
  Proof.
    intro H. destruct d as [|d].
    - rewrite col_lt by lia. exact H.
    - replace (start + S d - 1)%nat with (start + d)%nat by lia. now rewrite col_at.
  Qed.
  Lemma rht_W f d : rht (W f (S d)) = hilbert f (start + d).
  Proof.
    unfold rht, hilbert, W. cbn [x0 x2 x4 x6].
    replace (start + S d - 1)%nat with (start + d)%nat by lia.
    replace (start + S d - 3)%nat with (start + d - 2)%nat by lia.
    replace (start + S d - 5)%nat with (start + d - 4)%nat by lia.
    now replace (start + S d - 7)%nat with (start + d - 6)%nat by lia.
  Qed.

  Lemma the_cycle_ok : is_cycle start s the_cycle.
  Proof.
    assert (K : forall P : nat -> Prop, (forall d, P (start + d)%nat) -> forall i, (start <= i)%nat -> P i).
    { intros P H i Hi. replace i with (start + (i - start))%nat by lia. apply H. }
    assert (D : forall d, x6 (h_det (hst (S d))) = rht (h_price (hst (S d))) * (0.075 * h_period (hst d) + 0.54))
      by reflexivity.
    assert (I1 : forall d, x6 (h_i1 (hst (S d))) = x3 (h_det (hst (S d)))) by reflexivity.
    assert (Q1 : forall d, x6 (h_q1 (hst (S d))) = rht (h_det (hst (S d))) * (0.075 * h_period (hst d) + 0.54))
      by reflexivity.
    assert (I2 : forall d, h_i2 (hst (S d)) = 0.2 * (x6 (h_i1 (hst (S d))) - rht (h_q1 (hst (S d))) * (0.075 * h_period (hst d) + 0.54)) + 0.8 * h_i2 (hst d))
      by reflexivity.
    assert (Q2 : forall d, h_q2 (hst (S d)) = 0.2 * (x6 (h_q1 (hst (S d))) + rht (h_i1 (hst (S d))) * (0.075 * h_period (hst d) + 0.54)) + 0.8 * h_q2 (hst d))
      by reflexivity.
    assert (RE : forall d, h_re (hst (S d)) = 0.2 * (h_i2 (hst (S d)) * h_i2 (hst d) + h_q2 (hst (S d)) * h_q2 (hst d)) + 0.8 * h_re (hst d))
      by reflexivity.
    assert (IM : forall d, h_im (hst (S d)) = 0.2 * (h_i2 (hst (S d)) * h_q2 (hst d) - h_q2 (hst (S d)) * h_i2 (hst d)) + 0.8 * h_im (hst d))
      by reflexivity.
    assert (PE : forall d, h_period (hst (S d)) = 0.2 * limited (rotation_period (h_re (hst (S d))) (h_im (hst (S d))) (h_period (hst d))) (h_period (hst d)) + 0.8 * h_period (hst d))
      by reflexivity.
    assert (SP : forall d, h_sp (hst (S d)) = 0.33 * h_period (hst (S d)) + 0.67 * h_sp (hst d))
      by reflexivity.
    constructor.
    - intros i Hi. cbn [the_cycle c_det c_i1 c_q1 c_i2 c_q2 c_re c_im c_period c_smooth].
      now rewrite !col_lt by exact Hi.
    - apply K. intro d. cbn [the_cycle c_det c_period]. rewrite col_at, <- hst_col by reflexivity.
      rewrite D, hst_price, rht_W. reflexivity.
    - apply K. intro d. change (c_i1 the_cycle (start + d)) with (col (fun st => x6 (h_i1 st)) (start + d)).
      rewrite col_at, I1, hst_det. unfold W. cbn [x3].
      now replace (start + S d - 4)%nat with (start + d - 3)%nat by lia.
    - apply K. intro d. change (c_q1 the_cycle (start + d)) with (col (fun st => x6 (h_q1 st)) (start + d)).
      change (c_period the_cycle) with (col (@h_period R)).
      rewrite col_at, <- hst_col by reflexivity. rewrite Q1, hst_det, rht_W. reflexivity.
    - apply K. intro d.
      change (c_i2 the_cycle) with (col (@h_i2 R)).
      change (c_i1 the_cycle (start + d)) with (col (fun st => x6 (h_i1 st)) (start + d)).
      change (c_period the_cycle) with (col (@h_period R)).
      rewrite !col_at, <- !hst_col by reflexivity. rewrite I2, hst_q1, rht_W. reflexivity.
    - apply K. intro d.
      change (c_q2 the_cycle) with (col (@h_q2 R)).
      change (c_q1 the_cycle (start + d)) with (col (fun st => x6 (h_q1 st)) (start + d)).
      change (c_period the_cycle) with (col (@h_period R)).
      rewrite !col_at, <- !hst_col by reflexivity. rewrite Q2, hst_i1, rht_W. reflexivity.
    - apply K. intro d. cbn [the_cycle c_re c_i2 c_q2]. rewrite !col_at, <- !hst_col by reflexivity. apply RE.
    - apply K. intro d. cbn [the_cycle c_im c_i2 c_q2]. rewrite !col_at, <- !hst_col by reflexivity. apply IM.
    - apply K. intro d. cbn [the_cycle c_re c_im c_period]. rewrite !col_at, <- !hst_col by reflexivity. apply PE.
    - apply K. intro d. cbn [the_cycle c_smooth c_period]. rewrite !col_at, <- !hst_col by reflexivity. apply SP.
  Qed.
End Seq.

(** ** the equations determine the measurement; values at a bar only depend on earlier bars *)
Lemma cycle_prefix start s s' c c' m :
  (1 <= start)%nat ->
  is_cycle start s c -> is_cycle start s' c' ->
  (forall i, (i <= m)%nat -> s i = s' i) ->
  forall i, (i <= m)%nat ->
    c_det c i = c_det c' i /\ c_i1 c i = c_i1 c' i /\ c_q1 c i = c_q1 c' i /\ c_i2 c i = c_i2 c' i /\
    c_q2 c i = c_q2 c' i /\ c_re c i = c_re c' i /\ c_im c i = c_im c' i /\
    c_period c i = c_period c' i /\ c_smooth c i = c_smooth c' i.
Proof.
  intros Hs C C' E i. induction i as [i IH] using lt_wf_ind. intro Hi.
  destruct (Nat.ltb_spec i start) as [L|L].
  - destruct (cy_zero C L) as (-> & -> & -> & -> & -> & -> & -> & -> & ->).
    destruct (cy_zero C' L) as (-> & -> & -> & -> & -> & -> & -> & -> & ->). now repeat split.
  - assert (P : (i - 1 < i)%nat) by lia. assert (P2 : (i - 2 < i)%nat) by lia.
    assert (P3 : (i - 3 < i)%nat) by lia. assert (P4 : (i - 4 < i)%nat) by lia. assert (P6 : (i - 6 < i)%nat) by lia.
    destruct (IH _ P) as (_ & _ & _ & A4 & A5 & A6 & A7 & A8 & A9); [lia|].
    destruct (IH _ P2) as (B1 & B2 & B3 & _); [lia|].
    destruct (IH _ P3) as (C1 & _); [lia|].
    destruct (IH _ P4) as (D1 & D2 & D3 & _); [lia|].
    destruct (IH _ P6) as (E1 & E2 & E3 & _); [lia|].
    assert (F1 : c_det c i = c_det c' i).
    { rewrite (cy_det C L), (cy_det C' L), A8. f_equal. unfold hilbert, from.
      rewrite !E by lia. reflexivity. }
    assert (F2 : c_i1 c i = c_i1 c' i) by now rewrite (cy_i1 C L), (cy_i1 C' L).
    assert (F3 : c_q1 c i = c_q1 c' i).
    { rewrite (cy_q1 C L), (cy_q1 C' L), A8. unfold hilbert. now rewrite F1, B1, D1, E1. }
    assert (F4 : c_i2 c i = c_i2 c' i).
    { rewrite (cy_i2 C L), (cy_i2 C' L), A8, A4, F2. unfold hilbert. now rewrite F3, B3, D3, E3. }
    assert (F5 : c_q2 c i = c_q2 c' i).
    { rewrite (cy_q2 C L), (cy_q2 C' L), A8, A5, F3. unfold hilbert. now rewrite F2, B2, D2, E2. }
    assert (F6 : c_re c i = c_re c' i) by now rewrite (cy_re C L), (cy_re C' L), F4, F5, A4, A5, A6.
    assert (F7 : c_im c i = c_im c' i) by now rewrite (cy_im C L), (cy_im C' L), F4, F5, A4, A5, A7.
    assert (F8 : c_period c i = c_period c' i) by now rewrite (cy_period C L), (cy_period C' L), F6, F7, A8.
    assert (F9 : c_smooth c i = c_smooth c' i) by now rewrite (cy_smooth C L), (cy_smooth C' L), F8, A9.
    now repeat split.
Qed.

(** ** bounds on the period *)
Lemma limited_bounds p l : 6 <= limited p l <= 50.
Proof.
  unfold limited. split.
  - apply Rmin_glb; [apply Rmax_r|lra].
  - apply Rmin_r.
Qed.
Lemma limited_growth p l : 0 <= l -> limited p l <= Rmax (1.5 * l) 6.
Proof.
  intro H. unfold limited. eapply Rle_trans; [apply Rmin_l|]. apply Rmax_lub; [|apply Rmax_r].
  eapply Rle_trans; [|apply Rmax_l]. apply Rmax_lub; [apply Rmin_r|lra].
Qed.

Section Bounds.
  Variables (start : nat) (s : nat -> R) (c : cycle).
  Hypothesis Hstart : (1 <= start)%nat.
  Hypothesis C : is_cycle start s c.
  Let P d := c_period c (start + d).
  Let SP d := c_smooth c (start + d).

  Lemma period_rule d :
    exists l, 6 <= l <= 50 /\ (0 <= P d -> l <= Rmax (1.5 * P d) 6) /\ P (S d) = 0.2 * l + 0.8 * P d.
  Proof.
    unfold P. pose proof (@cy_period _ _ _ C (start + S d)) as H. specialize (H ltac:(lia)).
    replace (start + S d - 1)%nat with (start + d)%nat in H by lia.
    exists (limited (rotation_period (c_re c (start + S d)) (c_im c (start + S d)) (c_period c (start + d))) (c_period c (start + d))).
    split; [apply limited_bounds|]. split; [apply limited_growth|exact H].
  Qed.
  Lemma period_first : P 0 = 1.2.
  Proof.
    unfold P. rewrite (@cy_period _ _ _ C (start + 0)) by lia.
    destruct (@cy_zero _ _ _ C (start + 0 - 1)) as (_ & _ & _ & _ & _ & _ & _ & -> & _); [lia|].
    assert (E : forall p, limited p 0 = 6).
    { intro p. pose proof (limited_growth p (Rle_refl 0)) as H. pose proof (limited_bounds p 0) as H'.
      rewrite Rmax_right in H by lra. lra. }
    rewrite E. lra.
  Qed.
  Lemma smooth_rule d : SP (S d) = 0.33 * P (S d) + 0.67 * SP d.
  Proof.
    unfold SP, P. rewrite (@cy_smooth _ _ _ C (start + S d)) by lia.
    now replace (start + S d - 1)%nat with (start + d)%nat by lia.
  Qed.
  Lemma smooth_first : SP 0 = 0.396.
  Proof.
    unfold SP. rewrite (@cy_smooth _ _ _ C (start + 0)) by lia. fold (P 0). rewrite period_first.
    destruct (@cy_zero _ _ _ C (start + 0 - 1)) as (_ & _ & _ & _ & _ & _ & _ & _ & ->); [lia|]. lra.
  Qed.

  Lemma period_range d : 1.2 <= P d <= 50.
  Proof.
    induction d as [|d IH]; [rewrite period_first; lra|].
    destruct (period_rule d) as (l & Hl & _ & ->). lra.
  Qed.
  Lemma smooth_range d : 0.396 <= SP d <= 50.
  Proof.
    induction d as [|d IH]; [rewrite smooth_first; lra|].
    rewrite smooth_rule. pose proof (period_range (S d)). lra.
  Qed.

  (** lower bounds that increase with the number of bars *)
  Lemma period_low d e v : v <= P d -> v <= 6 -> v <= P (d + e).
  Proof.
    intros H Hv. induction e as [|e IH]; [now rewrite Nat.add_0_r|].
    rewrite Nat.add_succ_r. destruct (period_rule (d + e)) as (l & Hl & _ & ->). lra.
  Qed.
  Lemma period_low1 d v : v <= P d -> 0.8 * v + 1.2 <= P (S d).
  Proof. intro H. destruct (period_rule d) as (l & Hl & _ & ->). lra. Qed.
  Lemma smooth_low1 d u v : u <= P (S d) -> v <= SP d -> 0.33 * u + 0.67 * v <= SP (S d).
  Proof. intros. rewrite smooth_rule. lra. Qed.

  (** the exact lower envelope: the period of a flat price *)
  Fixpoint lowP (d : nat) : R := match d with 0%nat => 1.2 | S d' => 0.8 * lowP d' + 1.2 end.
  Fixpoint lowS (d : nat) : R := match d with 0%nat => 0.396 | S d' => 0.33 * lowP (S d') + 0.67 * lowS d' end.
  Lemma low_env d : lowP d <= P d /\ lowS d <= SP d.
  Proof.
    induction d as [|d [H1 H2]].
    - rewrite period_first, smooth_first. cbn; lra.
    - assert (H3 : lowP (S d) <= P (S d)) by (cbn [lowP]; now apply period_low1). split; [exact H3|].
      cbn [lowS]. now apply smooth_low1.
  Qed.

  (** from turn [m] on, the smoothed period stays above [v] *)
  Lemma smooth_low m v : v <= 6 -> v <= lowP m -> v <= lowS m -> forall d, (m <= d)%nat -> v <= SP d.
  Proof.
    intros H6 HP HS d Hd. destruct (low_env m) as [E1 E2].
    assert (forall e, v <= SP (m + e)) as A.
    { induction e as [|e IH]; [rewrite Nat.add_0_r; lra|].
      rewrite Nat.add_succ_r, smooth_rule.
      pose proof (@period_low m (S e) v ltac:(lra) H6) as B. rewrite Nat.add_succ_r in B. lra. }
    replace d with (m + (d - m))%nat by lia. apply A.
  Qed.

  (** upper bounds: the period grows by at most a tenth per bar *)
  Lemma period_grow d : P d <= 6 * 1.1 ^ d.
  Proof.
    induction d as [|d IH]; [rewrite period_first; cbn; lra|].
    destruct (period_rule d) as (l & Hl & G & E). pose proof (period_range d) as B.
    specialize (G ltac:(lra)). assert (O : 1 <= 1.1 ^ d) by (apply pow_R1_Rle; lra).
    rewrite E. cbn [pow]. destruct (Rle_dec 6 (1.5 * P d)) as [L|L].
    - rewrite Rmax_left in G by lra. nra.
    - rewrite Rmax_right in G by lra. nra.
  Qed.
  Lemma smooth_grow d : SP d <= 6 * 1.1 ^ d.
  Proof.
    induction d as [|d IH]; [rewrite smooth_first; cbn; lra|].
    rewrite smooth_rule. pose proof (period_grow (S d)) as G.
    assert (6 * 1.1 ^ d <= 6 * 1.1 ^ S d). { cbn [pow]. assert (1 <= 1.1 ^ d) by (apply pow_R1_Rle; lra). lra. }
    lra.
  Qed.

  (** the number of bars of a cycle: never more than 50, and never more than the bars seen *)
  Lemma bars_le d m : SP d < INR m + 0.5 -> (bars_of (SP d) <= m)%nat.
  Proof.
    intro H. unfold bars_of. destruct (base_Int_part (SP d + 0.5)) as [B1 B2].
    assert (IZR (Int_part (SP d + 0.5)) < IZR (Z.of_nat m + 1)).
    { rewrite plus_IZR, <- INR_IZR_INZ. lra. }
    apply lt_IZR in H0. lia.
  Qed.
  Lemma bars_50 d : (bars_of (SP d) <= 50)%nat.
  Proof.
    apply bars_le. pose proof (smooth_range d).
    replace (INR 50) with 50 by (rewrite INR_IZR_INZ; reflexivity). lra.
  Qed.
  Lemma bars_avail d : (bars_of (SP d) <= 31 + d)%nat.
  Proof.
    destruct (le_lt_dec 19 d) as [L|L]; [pose proof (bars_50 d); lia|].
    apply bars_le. pose proof (smooth_grow d) as G. rewrite plus_INR.
    replace (INR 31) with 31 by (rewrite INR_IZR_INZ; reflexivity).
    assert (H0 : 0 <= INR d) by apply pos_INR.
    destruct (le_lt_dec d 16) as [L'|L'].
    - assert (1.1 ^ d <= 1.1 ^ 16) by (apply Rle_pow; [lra|lia]).
      assert (1.1 ^ 16 <= 5) by (cbn [pow]; lra). lra.
    - assert (1.1 ^ d <= 1.1 ^ 18) by (apply Rle_pow; [lra|lia]).
      assert (1.1 ^ 18 <= 6) by (cbn [pow]; lra).
      assert (17 <= INR d). { apply le_INR in L'. replace (INR 17) with 17 in L' by (rewrite INR_IZR_INZ; reflexivity). exact L'. }
      lra.
  Qed.
  Lemma bars_pos d : 0.5 <= SP d -> (1 <= bars_of (SP d))%nat.
  Proof.
    intro H. unfold bars_of. destruct (base_Int_part (SP d + 0.5)) as [B1 B2].
    assert (IZR 0 < IZR (Int_part (SP d + 0.5))) by lra. apply lt_IZR in H0. lia.
  Qed.
End Bounds.
