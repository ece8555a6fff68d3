(** The measured cycle in double precision is not longer than the number of bars seen, so the Hilbert transform
    indicators that index with it do not repaint (CatalogHTGen.v). *)
From Coq Require Import ZArith QArith List Bool Reals Lia Lra.
From Flocq Require Import Core IEEE754.BinarySingleNaN.
From Verif Require Import Num Series Line Spec LineFacts Catalog CatalogSpec Float64 FloatSpec FloatFacts FloatLine
  IndSar Apply IndHT CatalogHTGen FloatHT.
Import ListNotations.
Local Open Scope R_scope.

(** missing, or between 0 and the double [h] *)
Definition upto (h x : float) : Prop := missing x \/ (finite x /\ 0 <= val x <= val h).
(** a finite double between 0 and 100, as a computation *)
Definition fit (h : float) : bool := is_finite h && vleb v0 h && vleb h (vofZ 100).
Lemma fit_iff h : fit h = true -> finite h /\ 0 <= val h <= 100.
Proof.
  unfold fit. rewrite !andb_true_iff. intros [[A B] C]. split; [exact A|]. destruct val100 as [F V].
  apply leb_iff in B; [|reflexivity|exact A]. apply leb_iff in C; [|exact A|exact F]. change (val v0) with 0 in B. rewrite V in C. lra.
Qed.
Lemma val10k : finite (vofZ 10000 : float) /\ val (vofZ 10000 : float) = 10000.
Proof. apply fofZ_exact. vm_compute. discriminate. Qed.

Lemma mul_up (c h x : float) : fit c = true -> fit h = true -> upto h x -> upto (vmul c h) (vmul c x).
Proof.
  intros C H [M|[Fx X]]; [left; destruct x; try discriminate; now destruct c|right].
  destruct (fit_iff _ C) as [Fc Vc]. destruct (fit_iff _ H) as [Fh Vh]. destruct val10k as [F1 V1].
  destruct (@mul_in (vofZ 0) (vofZ 10000) c h Fc Fh) as (A1 & A2 & _); [rewrite val0, V1; nra|].
  destruct (@mul_in (vofZ 0) (vofZ 10000) c x Fc Fx) as (B1 & B2 & B3 & _); [rewrite val0, V1; nra|].
  split; [exact B2|]. rewrite val0 in B3. split; [exact B3|]. rewrite A1, B1. apply rn_le. nra.
Qed.
Lemma add_up (h k x y : float) : fit h = true -> fit k = true -> upto h x -> upto k y -> upto (vadd h k) (vadd x y).
Proof.
  intros H K [M|[Fx X]]; [intros _; left; destruct x; try discriminate; now destruct y|].
  intros [M|[Fy Y]].
  - left. destruct y; try discriminate. now destruct x as [[]|[]| |].
  - right. destruct (fit_iff _ H) as [Fh Vh]. destruct (fit_iff _ K) as [Fk Vk]. destruct val10k as [F1 V1].
    destruct (@add_in (vofZ 0) (vofZ 10000) h k Fh Fk) as (A1 & A2 & _); [rewrite val0, V1; lra|].
    destruct (@add_in (vofZ 0) (vofZ 10000) x y Fx Fy) as (B1 & B2 & B3 & _); [rewrite val0, V1; lra|].
    split; [exact B2|]. rewrite val0 in B3. split; [exact B3|]. rewrite A1, B1. apply rn_le. lra.
Qed.
Lemma mix_up (a b : Q) (h k x y : float) :
  fit (vofQ a) = true -> fit (vofQ b) = true -> fit h = true -> fit k = true ->
  fit (vmul (vofQ a) h) = true -> fit (vmul (vofQ b) k) = true ->
  upto h x -> upto k y -> upto (mix a h b k) (mix a x b y).
Proof. intros. unfold mix. apply add_up; auto; apply mul_up; auto. Qed.

(** ** The limits of one turn *)
Definition rise (h : float) : float := let m := vmul h (vofQ (15 # 10)) in if vltb m (vofZ 6) then vofZ 6 else m.
Lemma limit_up (h raw p : float) : fit h = true -> finite p -> 0 <= val p <= val h -> upto (rise h) (limit_period raw p).
Proof.
  intros H Fp P. destruct (fit_iff _ H) as [Fh Vh].
  assert (C : fit (vofQ (15 # 10)) = true) by (vm_compute; reflexivity). destruct (fit_iff _ C) as [Fc Vc].
  assert (D : fit (vofQ (67 # 100)) = true) by (vm_compute; reflexivity). destruct (fit_iff _ D) as [Fd Vd].
  assert (CD : val (vofQ (67 # 100)) <= val (vofQ (15 # 10))).
  { apply leb_iff; [exact Fd|exact Fc|]. vm_compute. reflexivity. }
  destruct val10k as [F1 V1]. destruct val6 as [F6 V6]. destruct val50 as [F5 V5].
  destruct (@mul_in (vofZ 0) (vofZ 10000) h (vofQ (15 # 10)) Fh Fc) as (A1 & A2 & A3 & _); [rewrite val0, V1; nra|].
  destruct (@mul_in (vofZ 0) (vofZ 10000) p (vofQ (15 # 10)) Fp Fc) as (B1 & B2 & B3 & _); [rewrite val0, V1; nra|].
  destruct (@mul_in (vofZ 0) (vofZ 10000) p (vofQ (67 # 100)) Fp Fd) as (E1 & E2 & E3 & _); [rewrite val0, V1; nra|].
  rewrite val0 in *.
  assert (M : val (vmul p (vofQ (15 # 10))) <= val (vmul h (vofQ (15 # 10)))) by (rewrite A1, B1; apply rn_le; nra).
  assert (Q : val (vmul p (vofQ (67 # 100))) <= val (vmul p (vofQ (15 # 10)))) by (rewrite E1, B1; apply rn_le; nra).
  assert (HR : val (vmul h (vofQ (15 # 10))) <= val (rise h) /\ 6 <= val (rise h)).
  { unfold rise. cbv zeta. destruct (vltb (vmul h (vofQ (15 # 10))) (vofZ 6)) eqn:E.
    - apply ltb_iff in E; [|exact A2|exact F6]. rewrite V6 in *. lra.
    - apply ltb_false in E; [|exact A2|exact F6]. rewrite V6 in *. lra. }
  unfold upto. remember (val (rise h)) as up eqn:EU. clear EU.
  set (m := vmul p (vofQ (15 # 10))) in *. set (q := vmul p (vofQ (67 # 100))) in *.
  pose (low := fun x : float => missing x \/ x = B754_infinity true \/ (finite x /\ val x <= up)).
  assert (LA : low (pymin raw m)).
  { unfold pymin, low. destruct (vltb m raw) eqn:E; [right; right; split; [exact B2|lra]|].
    assert (CC : is_nan raw = true \/ raw = B754_infinity false \/ raw = B754_infinity true \/ finite raw).
    { destruct raw as [s|[]| |]; unfold finite; auto. }
    destruct CC as [CC|[CC|[CC|CC]]]; [left; exact CC| |right; left; exact CC|].
    - exfalso. subst raw. clear -E B2. destruct m as [?|[]| |]; try discriminate.
    - right. right. split; [exact CC|]. apply ltb_false in E; [|exact B2|exact CC]. lra. }
  unfold limit_period. fold m q. generalize dependent (pymin raw m). intros a LA.
  assert (LB : missing (pymax a q) \/ (finite (pymax a q) /\ val (pymax a q) <= up)).
  { unfold pymax. destruct LA as [LA|[LA|[LA LA']]].
    - left. clear -LA. destruct a; try discriminate. reflexivity.
    - right. subst a. replace (vltb (B754_infinity true) q) with true by (clear -E2; destruct q as [?|[]| |]; try discriminate; reflexivity).
      split; [exact E2|lra].
    - right. destruct (vltb a q); split; auto. lra. }
  generalize dependent (pymax a q). intros b LB.
  destruct (clamp_in b) as [W|[W1 W2]]; [now left|]. right. split; [exact W1|]. split; [lra|].
  assert (LC : missing (pymax b (vofZ 6)) \/ (finite (pymax b (vofZ 6)) /\ val (pymax b (vofZ 6)) <= up)).
  { unfold pymax. destruct LB as [LB|[LB LB']].
    - left. destruct b; try discriminate; try reflexivity.
    - right. destruct (vltb b (vofZ 6)); split; auto. rewrite V6. lra. }
  generalize dependent (pymax b (vofZ 6)). intros c W1 W2 LC. unfold pymin in *.
  destruct LC as [LC|[LC LC']].
  - destruct c; try discriminate.
  - destruct (vltb (vofZ 50) c) eqn:E; [|lra]. apply ltb_iff in E; [|exact F5|exact LC]. lra.
Qed.

(** ** The first nineteen turns *)
Definition next_q (q : float) : float := mix (2 # 10) (rise q) (8 # 10) q.
Definition next_p (q p : float) : float := mix (33 # 100) q (67 # 100) p.
Fixpoint tops (d : nat) : float * float :=
  match d with
  | O => (v0, v0)
  | S d => let (q, p) := tops d in let q' := next_q q in (q', next_p q' p)
  end.
Definition top_q (d : nat) : float := fst (tops d).
Definition top_p (d : nat) : float := snd (tops d).
Lemma top_qS d : top_q (S d) = next_q (top_q d).
Proof. unfold top_q. cbn [tops]. now destruct (tops d). Qed.
Lemma top_pS d : top_p (S d) = next_p (top_q (S d)) (top_p d).
Proof. rewrite top_qS. unfold top_q, top_p. cbn [tops]. now destruct (tops d). Qed.
Definition fits2 (t : float * float) : bool :=
  let (q, p) := t in let r := rise q in let q' := next_q q in
  fit q && fit r && fit p && fit q' && fit (vmul (vofQ (2 # 10)) r) && fit (vmul (vofQ (8 # 10)) q) &&
  fit (vmul (vofQ (33 # 100)) q') && fit (vmul (vofQ (67 # 100)) p) && vleb p (vofZ 30).
Definition fits (d : nat) : bool :=
  fit (top_q d) && fit (rise (top_q d)) && fit (top_p d) && fit (top_q (S d)) &&
  fit (vmul (vofQ (2 # 10)) (rise (top_q d))) && fit (vmul (vofQ (8 # 10)) (top_q d)) &&
  fit (vmul (vofQ (33 # 100)) (top_q (S d))) && fit (vmul (vofQ (67 # 100)) (top_p d)) && vleb (top_p d) (vofZ 30).
Lemma all_fit d : (d <= 19)%nat -> fits d = true.
Proof.
  assert (H : forallb fits2 (map tops (seq 0 20)) = true) by (vm_compute; reflexivity).
  intro L. rewrite forallb_forall in H. specialize (H (tops d)). unfold fits. rewrite top_qS. unfold top_q, top_p.
  unfold fits2 in H. destruct (tops d) eqn:E. apply H. rewrite <- E. apply in_map, in_seq. lia.
Qed.

Definition okq (d : nat) (v : float) : Prop := nan_or_within 0 50 v /\ ((d <= 19)%nat -> upto (top_q d) v).
Definition okp (d : nat) (v : float) : Prop := nan_or_within 0 50 v /\ ((d <= 19)%nat -> upto (top_p d) v).

Lemma vofQ_fits : fit (vofQ (2 # 10)) = true /\ fit (vofQ (8 # 10)) = true /\ fit (vofQ (33 # 100)) = true /\ fit (vofQ (67 # 100)) = true.
Proof. vm_compute. auto. Qed.

Section C.
  Context {T : NumT float}.
  Lemma ht0_okc : CatalogHTGen.st_ok okp okq 0 ht0.
  Proof.
    split; (split; [exact zero_in|]); intros _; right; (split; [reflexivity|]); change (0 <= 0 <= 0); lra.
  Qed.
  Lemma mix_nan (a b : Q) (x y : float) : missing y -> missing (mix a x b y).
  Proof.
    intro M. unfold mix. replace (vmul (vofQ b) y) with (B754_nan : float).
    - now destruct (vmul (vofQ a) x).
    - destruct y; try discriminate. destruct (vofQ b : float); reflexivity.
  Qed.
  Lemma step_okc d (s : htst float) p : CatalogHTGen.st_ok okp okq d s -> CatalogHTGen.st_ok okp okq (S d) (ht_step s p).
  Proof.
    intros [[Q QU] [P PU]]. destruct vofQ_fits as (C1 & C2 & C3 & C4).
    destruct (@step_ok T s p (conj Q P)) as [K1 K2]. unfold ht_step in *. cbv zeta in *. cbn [h_period h_sp] in *.
    set (raw := raw_period _ _ _) in *. clearbody raw.
    assert (A : okq (S d) (mix (2 # 10) (limit_period raw (h_period s)) (8 # 10) (h_period s))).
    { split; [exact K1|]. intro L. specialize (QU ltac:(lia)). pose proof (@all_fit d ltac:(lia)) as F. unfold fits in F.
      rewrite !andb_true_iff in F. destruct F as [[[[[[[[F1 F2] F3] F4] F5] F6] F7] F8] F9].
      destruct QU as [M|[Fq Vq]]; [left; apply mix_nan; exact M|].
      rewrite top_qS. apply mix_up; auto; [apply limit_up; auto|right; auto]. }
    split; [exact A|]. split; [exact K2|]. intro L.
    pose proof (@all_fit d ltac:(lia)) as F. unfold fits in F.
    rewrite !andb_true_iff in F. destruct F as [[[[[[[[F1 F2] F3] F4] F5] F6] F7] F8] F9].
    rewrite top_pS.
    apply mix_up; auto; [apply A; exact L|apply PU; lia].
  Qed.
  Lemma bars_seenc d (v : float) z : okp (S d) v -> pyint (vadd v (vofQ (5 # 10))) = Ok z -> exists w, z = Z.of_nat w /\ (w <= 31 + d)%nat.
  Proof.
    intros [W U] E. destruct (int_ok v W) as [[_ R]|[[Fv Vv] (k & E' & K & K1 & K2)]]; [rewrite R in E; discriminate|].
    rewrite E' in E. assert (z = k) by congruence. subst z. exists (Z.to_nat k). split; [rewrite Z2Nat.id; lia|].
    destruct (le_lt_dec (S d) 19) as [L|L]; [|lia].
    specialize (U L). pose proof (@all_fit (S d) L) as F. unfold fits in F. rewrite !andb_true_iff in F.
    destruct F as [[[[[[[[_ _] F3] _] _] _] _] _] F9]. destruct (fit_iff _ F3) as [Ft _].
    destruct (fofZ_exact 30 ltac:(vm_compute; discriminate)) as [F30 V30].
    destruct (fofZ_exact 31 ltac:(vm_compute; discriminate)) as [F31 V31].
    apply leb_iff in F9; [|exact Ft|exact F30]. rewrite V30 in F9.
    destruct U as [M|[_ U]]; [exfalso; unfold finite, missing in *; destruct v; discriminate|].
    assert (H : fit (vofQ (5 # 10)) = true /\ vleb (vofQ (5 # 10)) (vofZ 1 : float) = true) by (vm_compute; auto).
    destruct H as [H H1]. destruct (fit_iff _ H) as [FH VH]. destruct val1 as [F1 V1]. apply leb_iff in H1; [|exact FH|exact F1]. rewrite V1 in H1.
    destruct (@add_in (vofZ 0) (vofZ 31) v (vofQ (5 # 10)) Fv FH) as (_ & _ & B); [rewrite val0, V31; lra|].
    rewrite V31 in B. assert (IZR k <= 31) by lra. apply le_IZR in H0. lia.
  Qed.
End C.

Lemma float_agree (T : NumT float) n n' (env env' : list (line float)) steps outs outs' :
  (n <= n')%nat ->
  Forall2 (fun x x' => (1 <= lmp x)%Z /\ length (lser x) = n /\ length (lser x') = n' /\
                       extends x x') env env' ->
  Forall (fun s => valid (fst s)) steps ->
  session env steps = Ok outs -> session env' steps = Ok outs' -> Forall2 extends outs outs'.
Proof. exact (@CatalogHTGen.session_agree float _ T okp okq bars_seenc ht0_okc step_okc n n' env env' steps outs outs'). Qed.
