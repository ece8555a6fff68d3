(** The two recursive filters of lines.py in float64. *)
From Coq Require Import ZArith List Bool Lia Reals Lra.
From Flocq Require Import Core IEEE754.BinarySingleNaN.
From Verif Require Import Num Series Line Float64 FloatSpec FloatFacts.
Import ListNotations.
Local Open Scope Z_scope.

Lemma fadd_comm (x y : float) : vadd x y = vadd y x.
Proof.
  change (Bplus mode_NE x y = Bplus mode_NE y x).
  destruct x as [sx|sx| |sx mx ex Hx], y as [sy|sy| |sy my ey Hy]; try reflexivity; unfold Bplus.
  - destruct sx, sy; reflexivity.
  - destruct sx, sy; reflexivity.
  - rewrite (Z.min_comm ey ex). cbv zeta. f_equal.
    unfold Fplus_naive. apply Z.add_comm.
Qed.
Lemma one_finite : is_finite (v1 : float) = true /\ B2R (v1 : float) = 1%R /\ Bsign (v1 : float) = false.
Proof. destruct val1 as [H E]. split; [exact H|]. split; [exact E|reflexivity]. Qed.
Lemma round_self (x : float) : round radix2 (SpecFloat.fexp prec emax) (round_mode mode_NE) (B2R x) = B2R x.
Proof. apply round_generic; [apply valid_rnd_round_mode|]. apply generic_format_B2R. Qed.
Lemma fmul_one (x : float) : vmul v1 x = x.
Proof.
  destruct (is_finite x) eqn:Fx.
  - destruct one_finite as (F1 & E1 & S1). pose proof (Bmult_correct prec emax _ _ mode_NE (v1 : float) x) as H.
    rewrite E1, Rmult_1_l, round_self, Rlt_bool_true in H by apply abs_B2R_lt_emax.
    destruct H as (HR & HF & HS). change (Bmult mode_NE (v1 : float) x = x). rewrite F1, Fx in HF.
    apply B2R_Bsign_inj; [exact HF|exact Fx|exact HR|]. rewrite HS; [rewrite S1; now destruct (Bsign x)|].
    destruct (Bmult mode_NE (v1 : float) x); try discriminate; reflexivity.
  - destruct x as [s|s| |s m e B]; try discriminate Fx; [|reflexivity]. now destruct s.
Qed.
Lemma fdiv_one (x : float) : vdiv x v1 = x.
Proof.
  destruct (is_finite x) eqn:Fx.
  - destruct one_finite as (F1 & E1 & S1). pose proof (Bdiv_correct prec emax _ _ mode_NE x (v1 : float)) as H.
    rewrite E1 in H. specialize (H R1_neq_R0). unfold Rdiv in H. rewrite Rinv_1, Rmult_1_r, round_self, Rlt_bool_true in H by apply abs_B2R_lt_emax.
    destruct H as (HR & HF & HS). change (Bdiv mode_NE x (v1 : float) = x). rewrite Fx in HF.
    apply B2R_Bsign_inj; [exact HF|exact Fx|exact HR|]. rewrite HS; [rewrite S1; now destruct (Bsign x)|].
    destruct (Bdiv mode_NE x (v1 : float)); try discriminate; reflexivity.
  - destruct x as [s|s| |s m e B]; try discriminate Fx; [|reflexivity]. now destruct s.
Qed.
Lemma fadd_zero (x : float) : x <> B754_zero true -> vadd x v0 = x.
Proof. intro H. destruct x as [[]|[]| |]; try reflexivity. now elim H. Qed.
Lemma filters_from (al be : float) s : forall y, lfilter_from al be (vmul be y) s = mean_exp_from al be y s.
Proof.
  induction s as [|x s IH]; intro y; cbn [lfilter_from mean_exp_from]; [reflexivity|].
  rewrite (fadd_comm (vmul be y)). cbv zeta. now rewrite IH.
Qed.
Lemma filters_float be (s : list float) : hd vnan s <> B754_zero true -> lfilter v1 be s = mean_exp v1 be s.
Proof.
  intro H. unfold lfilter, mean_exp. destruct s as [|x s]; cbn [map]; [reflexivity|]. cbn [hd] in H.
  assert (P : prep x <> B754_zero true) by (destruct x as [[]|[]| |]; try exact H; discriminate).
  revert P. generalize (prep x). intros z P. cbn [lfilter_from]. rewrite fdiv_one, fmul_one, fadd_zero by exact P.
  cbv zeta. now rewrite filters_from.
Qed.
(** the same number: equal, or zeros of any sign *)
Definition alike (x y : float) : Prop := x = y \/ exists s t, x = B754_zero s /\ y = B754_zero t.
Lemma alike_mul b x y : alike x y -> alike (vmul b x) (vmul b y).
Proof.
  intros [->|(s & t & -> & ->)]; [now left|]. destruct b as [u|u| |u m e B]; try (now left).
  - right. eexists _, _. split; reflexivity.
  - right. eexists _, _. split; reflexivity.
Qed.
Lemma alike_add x y z : alike x y -> alike (vadd z x) (vadd z y).
Proof.
  intros [->|(s & t & -> & ->)]; [now left|]. destruct z as [u|u| |u m e B]; try (now left).
  right. destruct u, s, t; eexists _, _; split; reflexivity.
Qed.
Lemma filters_alike (al be : float) s : forall y y', alike y y' ->
  Forall2 alike (lfilter_from al be (vmul be y) s) (mean_exp_from al be y' s).
Proof.
  induction s as [|x s IH]; intros y y' H; cbn [lfilter_from mean_exp_from]; constructor.
  - rewrite (fadd_comm (vmul be y')). apply alike_add, alike_mul, H.
  - apply IH. rewrite (fadd_comm (vmul be y')). apply alike_add, alike_mul, H.
Qed.
Lemma filters_float_all be (s : list float) : Forall2 alike (lfilter v1 be s) (mean_exp v1 be s).
Proof.
  unfold lfilter, mean_exp. destruct s as [|x s]; cbn [map]; [constructor|]. generalize (prep x). intro z.
  cbn [lfilter_from]. rewrite fdiv_one, fmul_one. cbv zeta.
  assert (Q : alike (vadd z v0) z).
  { destruct z as [[]|[]| |]; try (now left). right. eexists _, _. split; reflexivity. }
  constructor; [exact Q|]. apply filters_alike, Q.
Qed.
Lemma filters_exact be (s : list float) : map exact (lfilter v1 be s) = map exact (mean_exp v1 be s).
Proof.
  induction (filters_float_all be s) as [|x y l m H _ IH]; cbn [map]; [reflexivity|]. rewrite IH. f_equal.
  destruct H as [->|(u & t & -> & ->)]; reflexivity.
Qed.
(** with other factors the first value is divided and multiplied again, and rounded twice *)
Lemma filters_differ : let al : float := vofQ (QArith_base.Qmake 3 10) in lfilter al None [vofZ 7] <> mean_exp al None [vofZ 7].
Proof. intros al H. apply (f_equal (fun l => veqb (hd vnan l) (vofZ 7 : float))) in H. vm_compute in H. discriminate H. Qed.
