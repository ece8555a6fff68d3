(** Oscillators on finite lines. *)
From Coq Require Import ZArith QArith List Bool Lia Arith Reals Lra Psatz.
From Verif Require Import Num Series Line Spec RSpec BoundSpec RangeSpec LineFacts ScanFacts RFacts OpFacts
  IndMA MAFacts RLineFacts IndBasic BasicFacts StatFacts BoundFacts IndRange RangeFacts RangeFacts2 IndOsc.
Import ListNotations.
Set Implicit Arguments.
Local Open Scope R_scope.

(** ** Accumulators *)

Lemma Rsum_zero_iff (x : nat -> R) s :
  (forall j, In j s -> 0 <= x j) -> 0 <= Rsum (map x s) /\ (Rsum (map x s) = 0 <-> forall j, In j s -> x j = 0).
Proof.
  induction s as [|a s IH]; intro H; simpl.
  - split; [lra|]. split; [intros _ j []|reflexivity].
  - destruct IH as [P E]; [intros; apply H; now right|]. assert (A := H a (or_introl eq_refl)). split; [lra|].
    split.
    + intro Z. assert (Z1 : Rsum (map x s) = 0) by lra. assert (Z2 : x a = 0) by lra.
      intros j [<-|Hj]; [exact Z2|]. now apply E.
    + intro Z. rewrite (Z a) by now left. rewrite (proj2 E); [lra|]. intros j Hj. apply Z. now right.
Qed.

Lemma lastp_zero_iff x k n i p :
  (k + p <= S i)%nat -> (i < n)%nat -> (forall j, (k <= j < n)%nat -> 0 <= x j) ->
  0 <= Rsum (lastp x i p) /\
  (Rsum (lastp x i p) = 0 <-> forall j, (last_bars p k i <= j <= i)%nat -> x j = 0).
Proof.
  intros Hp Hi H. unfold lastp, win, last_bars.
  destruct (@Rsum_zero_iff x (seq (S i - p) p)) as [A B].
  - intros j Hj. apply in_seq in Hj. apply H. lia.
  - split; [exact A|]. rewrite B. split; intros Z j Hj; apply Z; [apply in_seq; lia|apply in_seq in Hj; lia].
Qed.

Lemma acc_sumn : accumulates sumn_ last_bars.
Proof.
  intros p a n k x Ha Hp Hn Hx. exists (sumn p a), (fun i => Rsum (lastp x i p)).
  split; [reflexivity|]. split; [now apply sumn_fin|]. intros i Hi.
  eapply lastp_zero_iff with (n := n); eauto; lia.
Qed.

Lemma div_zero_iff a b : 0 < b -> 0 <= a -> 0 <= a / b /\ (a / b = 0 <-> a = 0).
Proof.
  intros Hb Ha. assert (0 < / b) by now apply Rinv_0_lt_compat. unfold Rdiv. split; [nra|].
  split; [|intros ->; ring]. intro E. apply Rmult_integral in E. lra.
Qed.

Lemma acc_sma : accumulates sma_ last_bars.
Proof.
  intros p a n k x Ha Hp Hn Hx. exists (sma p a), (fun i => Rmean (lastp x i p)).
  split; [reflexivity|]. split; [now apply sma_fin|]. intros i Hi.
  destruct (@lastp_zero_iff x k n i p ltac:(lia) ltac:(lia) Hx) as [A B].
  unfold Rmean, lastp. rewrite win_length. fold (lastp x i p).
  destruct (@div_zero_iff (Rsum (lastp x i p)) (INR p) (INR_pos Hp) A) as [C D].
  split; [exact C|]. now rewrite D.
Qed.

(** a seed (mean of the first p values) followed by e' = u e + v x *)
Lemma recur_zero p k n x e u v :
  (1 <= p)%nat -> (k + p <= n)%nat -> (forall j, (k <= j < n)%nat -> 0 <= x j) ->
  0 <= u -> (p <> 1%nat -> 0 < u) -> (p = 1%nat -> u = 0) -> 0 < v ->
  e (k + p - 1)%nat = Rmean (lastp x (k + p - 1) p) ->
  (forall i, (k + p - 1 <= i)%nat -> e (S i) = u * e i + v * x (S i)) ->
  forall i, (k + p - 1 <= i < n)%nat ->
    0 <= e i /\ (e i = 0 <-> forall j, (all_bars p k i <= j <= i)%nat -> x j = 0).
Proof.
  intros Hp Hn Hx Hu Hu1 Hu0 Hv E0 E1 i [Hk Hi]. unfold all_bars.
  induction Hk as [|i Hk IH].
  - rewrite E0. destruct (@lastp_zero_iff x k n (k + p - 1) p ltac:(lia) ltac:(lia) Hx) as [A B].
    unfold Rmean, lastp. rewrite win_length. fold (lastp x (k + p - 1) p).
    destruct (@div_zero_iff (Rsum (lastp x (k + p - 1) p)) (INR p) (INR_pos Hp) A) as [C D].
    split; [exact C|]. rewrite D, B. unfold last_bars.
    destruct (Nat.eqb_spec p 1) as [->|Hne].
    + split; intros Z j Hj; apply Z; lia.
    + split; intros Z j Hj; apply Z; lia.
  - destruct (IH ltac:(lia)) as [A B]. rewrite E1 by exact Hk. assert (X := Hx (S i) ltac:(lia)).
    assert (P1 : 0 <= u * e i) by now apply Rmult_le_pos. assert (P2 : 0 <= v * x (S i)) by (apply Rmult_le_pos; lra).
    split; [lra|]. destruct (Nat.eqb_spec p 1) as [Hp1|Hne].
    + rewrite (Hu0 Hp1). split.
      * intros Z j Hj. replace j with (S i) by lia. assert (v * x (S i) = 0) by lra.
        apply Rmult_integral in H. lra.
      * intro Z. rewrite (Z (S i)) by lia. ring.
    + assert (U := Hu1 Hne). split.
      * intro Z. assert (Z1 : u * e i = 0) by lra. assert (Z2 : v * x (S i) = 0) by lra.
        apply Rmult_integral in Z1. apply Rmult_integral in Z2.
        assert (Ei : e i = 0) by lra. assert (Xi : x (S i) = 0) by lra.
        intros j Hj. destruct (Nat.eq_dec j (S i)) as [->|Hj']; [exact Xi|]. apply (proj1 B Ei). lia.
      * intro Z. rewrite (proj2 B), (Z (S i)) by (lia || (intros j Hj; apply Z; lia)). ring.
Qed.

Lemma acc_smma : accumulates smma all_bars.
Proof.
  intros p a n k x Ha Hp Hn Hx. destruct (smma_fin Ha Hp Hn) as (y & e & E & [S0 S1] & D).
  exists y, e. split; [exact E|]. split; [exact D|].
  assert (P := INR_pos Hp). assert (I : 0 < / INR p) by now apply Rinv_0_lt_compat.
  assert (P1 : 1 <= INR p) by (apply (le_INR 1); lia).
  apply (@recur_zero p k n x e ((INR p - 1) / INR p) (1 / INR p)); auto.
  - unfold Rdiv. apply Rmult_le_pos; lra.
  - intro Hne. unfold Rdiv. apply Rmult_lt_0_compat; [|lra].
    assert (2 <= INR p) by (apply (le_INR 2); lia). lra.
  - intros ->. simpl. field.
  - unfold Rdiv. lra.
  - intros i Hi. rewrite S1 by exact Hi. field. lra.
Qed.
Lemma acc_ema : accumulates ema all_bars.
Proof.
  intros p a n k x Ha Hp Hn Hx. destruct (ema_fin Ha Hp Hn) as (y & e & E & [S0 S1] & D).
  exists y, e. split; [exact E|]. split; [exact D|].
  assert (P1 : 1 <= INR p) by (apply (le_INR 1); lia).
  assert (A := al_span Hp).
  apply (@recur_zero p k n x e (1 - 2 / (INR p + 1)) (2 / (INR p + 1))); auto.
  - lra.
  - intro Hne. assert (2 <= INR p) by (apply (le_INR 2); lia).
    assert (2 / (INR p + 1) < 1); [|lra]. apply Rmult_lt_reg_r with (INR p + 1); [lra|].
    unfold Rdiv. rewrite Rmult_assoc, Rinv_l; lra.
  - intros ->. simpl. field.
  - lra.
Qed.

(** ** Strength *)

Lemma strength_point U D : 0 <= U -> 0 <= D ->
  vsub (Fin 100) (vdiv (Fin 100) (vadd (Fin 1) (quot U D))) = strength_of U D.
Proof.
  intros HU HD. unfold strength_of. destruct (Req_EM_T D 0) as [->|HD0].
  - destruct (Req_EM_T U 0) as [->|HU0].
    + rewrite Rmult_0_r, Rplus_0_r, !quot_00. reflexivity.
    + rewrite quot_pos0 by lra. simpl vadd. simpl vdiv. rewrite Rplus_0_r, quot_fin by exact HU0.
      change (@b0 R BaseR) with 0. rewrite vsub_fin. f_equal. field. exact HU0.
  - rewrite quot_fin by exact HD0. assert (0 < D) by lra. rewrite vadd_fin.
    assert (P : 0 < U + D) by lra. assert (Q : 0 < / D) by now apply Rinv_0_lt_compat.
    assert (1 + U / D <> 0). { unfold Rdiv. assert (0 <= U * / D) by (apply Rmult_le_pos; lra). lra. }
    rewrite vdiv_fin by assumption. rewrite vsub_fin, quot_fin by lra. f_equal. field. lra.
Qed.

Lemma strength_delivers (a b : lineR) n k U D :
  delivers a n k (fin U) -> delivers b n k (fin D) ->
  (forall i, (k <= i < n)%nat -> 0 <= U i /\ 0 <= D i) ->
  delivers (strength (ldiv a b)) n k (fun i => strength_of (U i) (D i)).
Proof.
  intros Ha Hb H. unfold strength.
  eapply del_ext; [| |eapply rbinop_s_delivers, delivers_feeds, rbinop_s_delivers, delivers_feeds, rbinop_s_delivers,
    delivers_feeds, ldiv_quot; eapply delivers_feeds; [exact Ha|exact Hb]].
  - lia.
  - intros i Hi. cbv beta. rewrite !vofZ_fin, v1_fin. now apply strength_point; apply H.
Qed.

Lemma strength_in U D : 0 <= U -> 0 <= D -> num_in 0 100 (strength_of U D).
Proof. intros HU HD. unfold strength_of. apply quot_in; lra. Qed.
Lemma strength_nan U D : 0 <= U -> 0 <= D -> (strength_of U D = NaN <-> U = 0 /\ D = 0).
Proof.
  intros HU HD. unfold strength_of. split.
  - intro E. destruct (Req_EM_T (U + D) 0) as [Z|Z]; [lra|]. rewrite quot_fin in E by exact Z. discriminate.
  - intros [-> ->]. rewrite Rmult_0_r, Rplus_0_r. apply quot_00.
Qed.
Lemma strength_100 U D : 0 <= U -> 0 <= D -> (strength_of U D = Fin 100 <-> D = 0 /\ U <> 0).
Proof.
  intros HU HD. unfold strength_of. destruct (Req_EM_T (U + D) 0) as [Z|Z].
  - replace U with 0 by lra. replace D with 0 by lra. rewrite Rmult_0_r, Rplus_0_r, quot_00.
    split; [discriminate|lra].
  - rewrite quot_fin by exact Z. split.
    + intro E. injection E as E. assert (100 * U = 100 * (U + D)).
      { rewrite <- E at 2. field. exact Z. } lra.
    + intros [-> HU0]. f_equal. field. lra.
Qed.
Lemma strength_0 U D : 0 <= U -> 0 <= D -> (strength_of U D = Fin 0 <-> U = 0 /\ D <> 0).
Proof.
  intros HU HD. unfold strength_of. destruct (Req_EM_T (U + D) 0) as [Z|Z].
  - replace U with 0 by lra. replace D with 0 by lra. rewrite Rmult_0_r, Rplus_0_r, quot_00.
    split; [discriminate|lra].
  - rewrite quot_fin by exact Z. split.
    + intro E. injection E as E. assert (100 * U = 0 * (U + D)).
      { rewrite <- E. field. exact Z. } lra.
    + intros [-> HU0]. f_equal. field. lra.
Qed.

(** ** Gains and losses *)

Section UD.
  Variables (a : lineR) (n k q : nat) (x : nat -> R).
  Hypothesis Ha : feeds a n k (fin x).

  Lemma updays_fin : delivers (updays q a) n (k + q) (fin (fun i => Rmax (x i - x (i - q)%nat) 0)).
  Proof. unfold updays. rewrite v0_fin. apply lclip_lo_fin. apply delivers_feeds. now apply diff_fin. Qed.
  Lemma downdays_fin : delivers (downdays q a) n (k + q) (fin (fun i => Rmax (x (i - q)%nat - x i) 0)).
  Proof.
    unfold downdays. rewrite v0_fin.
    eapply fin_ext; [reflexivity| |apply labs_fin; eapply delivers_feeds, lclip_hi_fin, delivers_feeds, diff_fin; exact Ha].
    intros i _. cbv beta. unfold Rmin, Rmax. destruct (Rle_dec (x i - x (i - q)%nat) 0), (Rle_dec (x (i - q)%nat - x i) 0).
    - rewrite Rabs_left1 by lra. lra.
    - rewrite Rabs_left1 by lra. lra.
    - now rewrite Rabs_R0.
    - lra.
  Qed.

  Lemma rsi_core (ma : ma_fun (ext R)) since p :
    accumulates ma since -> (1 <= p)%nat -> (k + q + p <= n)%nat ->
    exists y up dn U D,
      ma p (updays q a) = Ok up /\ ma p (downdays q a) = Ok dn /\
      delivers up n (k + q + p - 1) (fin U) /\ delivers dn n (k + q + p - 1) (fin D) /\
      rsi ma p q a = Ok y /\
      delivers y n (k + q + p - 1) (fun i => strength_of (U i) (D i)) /\
      forall i, (k + q + p - 1 <= i < n)%nat ->
        0 <= U i /\ 0 <= D i /\
        (U i = 0 <-> forall j, (since p (k + q)%nat i <= j <= i)%nat -> x j <= x (j - q)%nat) /\
        (D i = 0 <-> forall j, (since p (k + q)%nat i <= j <= i)%nat -> x (j - q)%nat <= x j).
  Proof.
    intros Hma Hp Hn.
    destruct (Hma p _ n _ _ (delivers_feeds updays_fin) Hp Hn) as (up & U & Eu & Du & HU).
    { intros i _. apply Rmax_r. }
    destruct (Hma p _ n _ _ (delivers_feeds downdays_fin) Hp Hn) as (dn & D & Ed & Dd & HD).
    { intros i _. apply Rmax_r. }
    exists (strength (ldiv up dn)), up, dn, U, D.
    split; [exact Eu|]. split; [exact Ed|]. split; [exact Du|]. split; [exact Dd|].
    split; [unfold rsi; now rewrite Eu, Ed|].
    split; [apply strength_delivers; auto; intros i Hi; split; [apply (HU i Hi)|apply (HD i Hi)]|].
    assert (M : forall u v, Rmax (u - v) 0 = 0 <-> u <= v).
    { intros u v. unfold Rmax. destruct (Rle_dec (u - v) 0); split; lra. }
    intros i Hi. destruct (HU i Hi) as [U0 UZ]. destruct (HD i Hi) as [D0 DZ].
    split; [exact U0|]. split; [exact D0|]. split.
    - rewrite UZ. split; intros Z j Hj; apply M, Z, Hj.
    - rewrite DZ. split; intros Z j Hj; apply M, Z, Hj.
  Qed.
End UD.

Lemma not_forall_bars (P : nat -> Prop) s i :
  (forall j, {P j} + {~ P j}) -> ~ (forall j, (s <= j <= i)%nat -> P j) <-> exists j, (s <= j <= i)%nat /\ ~ P j.
Proof.
  intro dec. split.
  - intro H. destruct (Nat.le_gt_cases s i) as [Hs|Hs]; [|exfalso; apply H; intros; lia].
    induction i as [|i IH].
    + exists 0%nat. split; [lia|]. intro P0. apply H. intros j Hj. now replace j with 0%nat by lia.
    + destruct (dec (S i)) as [Y|Nn]; [|exists (S i); split; [lia|exact Nn]].
      destruct (Nat.eq_dec s (S i)) as [->|Hne].
      * exfalso. apply H. intros j Hj. now replace j with (S i) by lia.
      * destruct IH as (j & Hj & Pj); [|lia|exists j; split; [lia|exact Pj]].
        intro A. apply H. intros j Hj. destruct (Nat.eq_dec j (S i)) as [->|]; [exact Y|]. apply A. lia.
  - intros (j & Hj & Nj) H. apply Nj, H, Hj.
Qed.

Lemma rsi_all (ma : ma_fun (ext R)) since (a : lineR) n k x p q :
  accumulates ma since -> feeds a n k (fin x) -> (1 <= p)%nat -> (k + q + p <= n)%nat ->
  exists y f, rsi ma p q a = Ok y /\ delivers y n (k + q + p - 1) f /\
    forall i, (k + q + p - 1 <= i < n)%nat ->
      let bar j := (since p (k + q)%nat i <= j <= i)%nat in
      num_in 0 100 (f i) /\
      (f i = NaN <-> forall j, bar j -> x j = x (j - q)%nat) /\
      (f i = Fin 100 <-> (forall j, bar j -> x (j - q)%nat <= x j) /\ exists j, bar j /\ x (j - q)%nat < x j) /\
      (f i = Fin 0 <-> (forall j, bar j -> x j <= x (j - q)%nat) /\ exists j, bar j /\ x j < x (j - q)%nat).
Proof.
  intros Hma Ha Hp Hn. destruct (@rsi_core a n k q x Ha ma since p Hma Hp Hn)
    as (y & up & dn & U & D & _ & _ & _ & _ & E & Dy & H).
  exists y. eexists. split; [exact E|]. split; [exact Dy|].
  intros i Hi bar. cbv beta. destruct (H i Hi) as (U0 & D0 & UZ & DZ).
  split; [now apply strength_in|]. split; [|split].
  - rewrite strength_nan, UZ, DZ by assumption. split.
    + intros [A B] j Hj. apply Rle_antisym; [apply A|apply B]; exact Hj.
    + intro A. split; intros j Hj; rewrite (A j Hj); lra.
  - rewrite strength_100, DZ, UZ by assumption.
    rewrite (not_forall_bars (fun j => x j <= x (j - q)%nat) (since p (k + q)%nat i) i (fun j => Rle_dec (x j) (x (j - q)%nat))).
    split; intros (A & j & Hj & B); (split; [exact A|exists j; split; [exact Hj|lra]]).
  - rewrite strength_0, DZ, UZ by assumption.
    rewrite (not_forall_bars (fun j => x (j - q)%nat <= x j) (since p (k + q)%nat i) i (fun j => Rle_dec (x (j - q)%nat) (x j))).
    split; intros (A & j & Hj & B); (split; [exact A|exists j; split; [exact Hj|lra]]).
Qed.

(** Wilder's index: the textbook value *)
Lemma rsi_wilder (a : lineR) n k x p q :
  feeds a n k (fin x) -> (1 <= p)%nat -> (k + q + p <= n)%nat ->
  exists y U D, rsi smma p q a = Ok y /\
    is_smma p (k + q) (fun i => Rmax (x i - x (i - q)%nat) 0) U /\
    is_smma p (k + q) (fun i => Rmax (x (i - q)%nat - x i) 0) D /\
    delivers y n (k + q + p - 1) (fun i => quot (100 * U i) (U i + D i)).
Proof.
  intros Ha Hp Hn. destruct (@rsi_core a n k q x Ha smma _ p acc_smma Hp Hn)
    as (y & up & dn & U & D & Eu & Ed & Du & Dd & E & Dy & H).
  destruct (@smma_fin _ n (k + q) _ p (delivers_feeds (@updays_fin a n k q x Ha)) Hp Hn) as (up' & U' & Eu' & SU & Du').
  destruct (@smma_fin _ n (k + q) _ p (delivers_feeds (@downdays_fin a n k q x Ha)) Hp Hn) as (dn' & D' & Ed' & SD & Dd').
  rewrite Eu in Eu'. injection Eu' as <-. rewrite Ed in Ed'. injection Ed' as <-.
  exists y, U', D'. split; [exact E|]. split; [exact SU|]. split; [exact SD|].
  eapply delivers_ext; [|exact Dy]. intros i Hi. cbv beta. unfold strength_of.
  now rewrite (fin_unique Du Du' Hi), (fin_unique Dd Dd' Hi).
Qed.

(** ** cmo *)

Lemma cmo_point U D : vdiv (vmul (Fin 100) (vsub (Fin U) (Fin D))) (vadd (Fin U) (Fin D)) = quot (100 * (U - D)) (U + D).
Proof. rewrite vsub_fin, vmul_fin, vadd_fin. apply vdiv_quot. Qed.

Lemma cmo_all (ma : ma_fun (ext R)) since (a : lineR) n k x p :
  accumulates ma since -> feeds a n k (fin x) -> (1 <= p)%nat -> (k + 1 + p <= n)%nat ->
  exists y r f g, cmo ma p a = Ok y /\ rsi ma p 1 a = Ok r /\
    delivers y n (k + 1 + p - 1) f /\ delivers r n (k + 1 + p - 1) g /\
    forall i, (k + 1 + p - 1 <= i < n)%nat ->
      num_in (-100) 100 (f i) /\
      (f i = NaN <-> forall j, (since p (k + 1)%nat i <= j <= i)%nat -> x j = x (j - 1)%nat) /\
      f i = vsub (vmul (Fin 2) (g i)) (Fin 100).
Proof.
  intros Hma Ha Hp Hn. destruct (@rsi_core a n k 1 x Ha ma since p Hma Hp Hn)
    as (r & up & dn & U & D & Eu & Ed & Du & Dd & E & Dr & H).
  exists (ldiv (rbinop_s vmul (vofZ 100) (lsub up dn)) (ladd up dn)), r,
    (fun i => quot (100 * (U i - D i)) (U i + D i)), (fun i => strength_of (U i) (D i)).
  split; [unfold cmo; now rewrite Eu, Ed|]. split; [exact E|]. split.
  { eapply del_ext; [| |eapply binop_delivers;
      [eapply delivers_feeds, rbinop_s_delivers, delivers_feeds, binop_delivers; eapply delivers_feeds; [exact Du|exact Dd]
      |eapply delivers_feeds, binop_delivers; eapply delivers_feeds; [exact Du|exact Dd]]].
    - lia.
    - intros i _. cbv beta. rewrite vofZ_fin. apply cmo_point. }
  split; [exact Dr|]. intros i Hi. destruct (H i Hi) as (U0 & D0 & UZ & DZ).
  split; [|split].
  - apply quot_in; lra.
  - transitivity (U i = 0 /\ D i = 0).
    + split.
      * intro N. destruct (Req_EM_T (U i + D i) 0) as [Z|Z]; [lra|]. rewrite quot_fin in N by exact Z. discriminate.
      * intros [-> ->]. rewrite Rminus_0_r, Rmult_0_r, Rplus_0_r. apply quot_00.
    + rewrite UZ, DZ. split.
      * intros [A B] j Hj. apply Rle_antisym; [apply A|apply B]; exact Hj.
      * intro A. split; intros j Hj; rewrite (A j Hj); lra.
  - unfold strength_of. destruct (Req_EM_T (U i + D i) 0) as [Z|Z].
    + replace (U i) with 0 by lra. replace (D i) with 0 by lra.
      rewrite Rminus_0_r, Rmult_0_r, Rplus_0_r, quot_00. reflexivity.
    + rewrite !quot_fin by exact Z. rewrite vmul_fin, vsub_fin. f_equal. field. exact Z.
Qed.
