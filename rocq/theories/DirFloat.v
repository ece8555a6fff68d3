(** The directional indicators and cmo in float64: facts for Prop_DirFloat.v. *)
From Coq Require Import ZArith Reals List Bool Lia Lra Psatz.
From Flocq Require Import Core IEEE754.BinarySingleNaN.
From Verif Require Import Num Series Line Spec LineFacts OpFacts ScanFacts RLineFacts RFacts IndMA IndBasic IndRange IndOsc Float64 FloatSpec FloatFacts
  FloatAvg PropFloatFacts FilterFloat EmaFloat RunSpec.
Import ListNotations.
Set Implicit Arguments.
Local Open Scope R_scope.

Notation B900 := (bpow radix2 900).
Notation B1000 := (bpow radix2 1000).

Lemma fmt_scaled z e : (Z.abs z < 2 ^ 53)%Z -> (0 <= e)%Z -> fmt (IZR z * bpow radix2 e).
Proof.
  intros Hz He. apply generic_format_FLT with (emin := (3 - emax - prec)%Z).
  exists (Float radix2 z e); cbn [Fnum Fexp].
  - reflexivity.
  - unfold prec. change (radix_val radix2) with 2%Z. lia.
  - unfold emax, prec. lia.
Qed.
Lemma fmt_1000 : fmt B1000.
Proof. rewrite <- (Rmult_1_l B1000). apply (fmt_scaled 1); [reflexivity|lia]. Qed.
Lemma fmt_900 : fmt B900.
Proof. rewrite <- (Rmult_1_l B900). apply (fmt_scaled 1); [reflexivity|lia]. Qed.

(** two numbers, the first at most the second, and that at most [m] *)
Definition under (m : R) (x t : float) : Prop := finite x /\ finite t /\ 0 <= val x <= val t /\ val t <= m.

Lemma under_add A B C x t x' t' : under A x t -> under B x' t' -> A + B <= C -> fmt C -> C <= B1000 ->
  under C (vadd x x') (vadd t t').
Proof.
  intros (Fx & Ft & L & U) (Fx' & Ft' & L' & U') S FC HC. destruct big1000 as (b & Fb & Vb).
  destruct (@add_in (vofZ 0) b x x' Fx Fx') as (E1 & F1 & _); [rewrite val0, Vb; lra|].
  destruct (@add_in (vofZ 0) b t t' Ft Ft') as (E2 & F2 & _); [rewrite val0, Vb; lra|].
  split; [exact F1|]. split; [exact F2|]. rewrite E1, E2. split; [split; [apply rn_nonneg; lra|apply rn_le; lra]|].
  apply rn_le_fmt; [exact FC|lra].
Qed.
Lemma under_mul A C be x t : finite be -> 0 <= val be -> under A x t -> val be * A <= C -> fmt C -> C <= B1000 ->
  under C (vmul be x) (vmul be t).
Proof.
  intros Fb Pb (Fx & Ft & L & U) S FC HC. destruct big1000 as (b & Fb' & Vb).
  assert (0 <= val be * val x <= val be * val t) by nra. assert (val be * val t <= C) by nra.
  destruct (@mul_in (vofZ 0) b be x Fb Fx) as (E1 & F1 & _); [rewrite val0, Vb; lra|].
  destruct (@mul_in (vofZ 0) b be t Fb Ft) as (E2 & F2 & _); [rewrite val0, Vb; lra|].
  split; [exact F1|]. split; [exact F2|]. rewrite E1, E2. split; [split; [apply rn_nonneg; lra|apply rn_le; lra]|].
  apply rn_le_fmt; [exact FC|lra].
Qed.
Lemma under_weak A C x t : A <= C -> under A x t -> under C x t.
Proof. intros H (Fx & Ft & L & U). repeat split; auto; lra. Qed.
Lemma under_0 : under 0 v0 v0.
Proof. repeat split; try reflexivity; cbn; lra. Qed.

Lemma n940 i : (Z.of_nat i <= 2 ^ 40)%Z -> fmt (INR i * B900) /\ INR i * B900 <= bpow radix2 940 /\ INR i * B900 <= B1000.
Proof.
  intro H. rewrite INR_IZR_INZ. split; [apply fmt_scaled; [|lia]|].
  - assert (2 ^ 40 < 2 ^ 53)%Z by reflexivity. lia.
  - assert (A : IZR (Z.of_nat i) * B900 <= bpow radix2 940).
    { change 940%Z with (40 + 900)%Z. rewrite bpow_plus. apply Rmult_le_compat_r; [apply bpow_ge_0|].
      change (bpow radix2 40) with (IZR (2 ^ 40)). now apply IZR_le. }
    split; [exact A|]. eapply Rle_trans; [exact A|]. apply bpow_le. lia.
Qed.
Lemma fold_under xs ts : Forall2 (under B900) xs ts -> forall i s s', (Z.of_nat (i + length xs) <= 2 ^ 40)%Z ->
  under (INR i * B900) s s' -> under (INR (i + length xs) * B900) (fold_left vadd xs s) (fold_left vadd ts s').
Proof.
  induction 1 as [|x t xs ts H _ IH]; intros i s s' Hi Hs.
  - cbn [length fold_left]. now rewrite Nat.add_0_r.
  - cbn [length fold_left] in *. replace (i + S (length xs))%nat with (S i + length xs)%nat in * by lia.
    apply IH; [exact Hi|]. apply under_add with (A := INR i * B900) (B := B900); auto.
    + rewrite S_INR. lra.
    + apply n940. lia.
    + apply n940. lia.
Qed.
Lemma vsum_under xs ts : Forall2 (under B900) xs ts -> (Z.of_nat (length xs) <= 2 ^ 40)%Z ->
  under (INR (length xs) * B900) (vsum xs) (vsum ts).
Proof.
  intros H L. pose proof (@fold_under xs ts H 0 v0 v0 L) as G. apply G. cbn [INR]. rewrite Rmult_0_l. exact under_0.
Qed.

(** ** The accumulation of directionalmove.py *)
Section Acc.
  Variable p : nat.
  Hypothesis Hp : (1 <= p)%nat.
  Hypothesis Hp40 : (Z.of_nat p <= 2 ^ 40)%Z.
  Let be0 : float := vdiv (vofZ (Z.of_nat p - 1)) (vofZ (Z.of_nat p)).
  Let be : float := eff_beta v1 (Some be0).

  Lemma top40 : bpow radix2 1000 * (1 - bpow radix2 (-40)) = IZR (2 ^ 40 - 1) * bpow radix2 960.
  Proof.
    rewrite minus_IZR. change (IZR (2 ^ 40)) with (bpow radix2 40). replace (bpow radix2 1000) with (bpow radix2 40 * bpow radix2 960)
      by (rewrite <- bpow_plus; reflexivity).
    assert (E : bpow radix2 40 * bpow radix2 (-40) = 1) by (rewrite <- bpow_plus; reflexivity).
    transitivity (bpow radix2 40 * bpow radix2 960 - bpow radix2 40 * bpow radix2 (-40) * bpow radix2 960); [ring|rewrite E; ring].
  Qed.
  Lemma be_range : finite be /\ 0 <= val be <= 1 - bpow radix2 (-40).
  Proof.
    assert (Q : (2 ^ 40 < 2 ^ 53)%Z) by reflexivity.
    destruct (@fofZ_exact (Z.of_nat p - 1)) as [F1 V1]; [lia|]. destruct (@fofZ_exact (Z.of_nat p)) as [F2 V2]; [lia|].
    destruct val1 as [Fo Vo]. assert (P : 1 <= IZR (Z.of_nat p) <= bpow radix2 40).
    { change (bpow radix2 40) with (IZR (2 ^ 40)). split; apply IZR_le; lia. }
    assert (D : 0 <= val (vofZ (Z.of_nat p - 1)) / val (vofZ (Z.of_nat p)) <= 1 - bpow radix2 (-40)).
    { rewrite V1, V2, minus_IZR. split.
      - apply Rle_mult_inv_pos; lra.
      - replace ((IZR (Z.of_nat p) - 1) / IZR (Z.of_nat p)) with (1 - / IZR (Z.of_nat p)) by (field; lra).
        change (bpow radix2 (-40)) with (/ bpow radix2 40). pose proof (bpow_gt_0 radix2 40).
        assert (/ bpow radix2 40 <= / IZR (Z.of_nat p)) by (apply Rinv_le_contravar; lra). lra. }
    assert (N0 : 0 <= 1 - bpow radix2 (-40)).
    { pose proof (bpow_le radix2 (-40) 0 ltac:(lia)). cbn [bpow] in H. lra. }
    destruct (@div_in (vofZ 0) (vofZ 1) (vofZ (Z.of_nat p - 1)) (vofZ (Z.of_nat p)) F1) as (E & F & V).
    - rewrite V2. lra.
    - rewrite val0, Vo. pose proof (bpow_gt_0 radix2 (-40)). lra.
    - fold be0 in E, F, V. unfold be, eff_beta. destruct (veqb be0 v0).
      + split; [reflexivity|]. change (val (vsub v1 v1)) with 0. lra.
      + split; [exact F|]. rewrite E. split; [apply rn_nonneg; lra|]. apply rn_le_fmt; [|lra].
        replace (1 - bpow radix2 (-40)) with (IZR (2 ^ 40 - 1) * bpow radix2 (-40)).
        * apply generic_format_FLT with (emin := (3 - emax - prec)%Z).
          exists (Float radix2 (2 ^ 40 - 1) (-40)); [reflexivity|reflexivity|unfold emax, prec; cbn; lia].
        * rewrite minus_IZR. change (IZR (2 ^ 40)) with (bpow radix2 40).
          assert (E1 : bpow radix2 40 * bpow radix2 (-40) = 1) by (rewrite <- bpow_plus; reflexivity). lra.
  Qed.

  (** the running value [d] bars after the seed *)
  Fixpoint accf (w : float) (f : nat -> float) (j d : nat) : float :=
    match d with O => vadd w v0 | S d' => vadd (f (j + S d')%nat) (vmul be (accf w f j d')) end.
  Fixpoint accg (y : float) (f : nat -> float) (j d : nat) : float :=
    match d with O => y | S d' => vadd (f (j + S d')%nat) (vmul be (accg y f j d')) end.
  Lemma accf_g w f j d : accf w f j d = accg (vadd w v0) f j d.
  Proof. induction d as [|d IH]; [reflexivity|]. cbn [accf accg]. now rewrite IH. Qed.
  Lemma accg_shift f d : forall y j, accg y f j (S d) = accg (vadd (f (S j)) (vmul be y)) f (S j) d.
  Proof.
    induction d as [|d IH]; intros y j.
    - cbn [accg]. do 2 f_equal. lia.
    - change (accg y f j (S (S d))) with (vadd (f (j + S (S d))%nat) (vmul be (accg y f j (S d)))). rewrite IH. cbn [accg].
      do 2 f_equal. lia.
  Qed.
  Lemma lf_seq f m : forall j y, (forall i, (j < i <= j + m)%nat -> prep (f i) = f i) ->
    lfilter_from v1 be (vmul be y) (map prep (map f (seq (S j) m))) = map (fun i => accg y f j (i - j)) (seq (S j) m).
  Proof.
    induction m as [|m IH]; intros j y Hf; [reflexivity|]. cbn [seq map lfilter_from]. rewrite Hf by lia.
    rewrite fmul_one. cbv zeta. replace (S j - j)%nat with 1%nat by lia. f_equal.
    - cbn [accg]. do 2 f_equal. lia.
    - rewrite IH by (intros i Hi; apply Hf; lia). apply map_ext_in. intros i Hi. apply in_seq in Hi.
      replace (i - j)%nat with (S (i - S j)) by lia. now rewrite accg_shift.
  Qed.
  Lemma lfilter_acc w f j m : prep w = w -> (forall i, (j < i <= j + m)%nat -> prep (f i) = f i) ->
    lfilter v1 (Some be0) (w :: map f (seq (S j) m)) = map (fun i => accf w f j (i - j)) (seq j (S m)).
  Proof.
    intros Hw Hf. unfold lfilter. cbn [map]. rewrite Hw. cbn [lfilter_from]. rewrite fdiv_one, fmul_one. cbv zeta. fold be.
    cbn [seq map]. rewrite Nat.sub_diag. cbn [accf]. f_equal. rewrite (@lf_seq f m j (vadd w v0) Hf).
    apply map_ext. intro i. now rewrite accf_g.
  Qed.
  Lemma acc_under w w' f g j n : under (bpow radix2 940) w w' ->
    (forall i, (j < i < n)%nat -> under B900 (f i) (g i)) ->
    forall d, (j + d < n)%nat -> under B1000 (accf w f j d) (accf w' g j d).
  Proof.
    intros Hw Hf. destruct be_range as [Fb [L U]]. pose proof (bpow_gt_0 radix2 1000) as P10.
    induction d as [|d IH]; intro Hd; cbn [accf].
    - apply under_add with (A := bpow radix2 940) (B := 0); auto using under_0, fmt_1000, Rle_refl.
      rewrite Rplus_0_r. apply bpow_le. lia.
    - assert (C : IZR (2 ^ 40 - 1) * bpow radix2 960 + B900 <= B1000).
      { rewrite <- top40, Rmult_minus_distr_l, <- bpow_plus. change (1000 + -40)%Z with 960%Z.
        pose proof (bpow_le radix2 900 960 ltac:(lia)). lra. }
      pose proof (bpow_gt_0 radix2 900) as P9.
      apply under_add with (A := B900) (B := IZR (2 ^ 40 - 1) * bpow radix2 960).
      + apply Hf. lia.
      + apply under_mul with (A := B1000); auto.
        * apply IH. lia.
        * rewrite <- top40, Rmult_comm. apply Rmult_le_compat_l; lra.
        * apply fmt_scaled; [reflexivity|lia].
        * lra.
      + lra.
      + exact fmt_1000.
      + lra.
  Qed.
End Acc.
