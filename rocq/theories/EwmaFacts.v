(** The exponentially weighted mean over the real numbers (ewma.py). *)
From Coq Require Import ZArith List Reals Lra Lia.
From Verif Require Import Num Series Line Spec RSpec LineFacts ScanFacts RFacts IndMA MAFacts RLineFacts.
Import ListNotations.
Set Implicit Arguments.
Local Open Scope R_scope.

(** ** Specification *)

(** the plain recursion, started with the first value *)
Definition is_ewm (p k : nat) (x e : nat -> R) : Prop :=
  e k = x k /\
  forall i, (k <= i)%nat -> e (S i) = (1 - 2 / (INR p + 1)) * e i + 2 / (INR p + 1) * x (S i).

(** the mean of all values so far with weights falling by the factor 1 - 2 / (p + 1) per bar of age *)
Definition is_weighted_history (p k : nat) (x e : nat -> R) : Prop :=
  forall i, (k <= i)%nat ->
    e i = wmean (map (fun age => (1 - 2 / (INR p + 1)) ^ age) (seq 0 (S (i - k))))
                (map (fun age => x (i - age)%nat) (seq 0 (S (i - k)))).

(** ** Facts *)
Lemma Rsum_scal q l : Rsum (map (fun v => q * v) l) = q * Rsum l.
Proof. induction l as [|a l IH]; cbn; [lra|]. unfold Rsum in *. rewrite IH. lra. Qed.
Definition ages (q : R) (m : nat) : list R := map (fun a => q ^ a) (seq 0 m).
Definition hist (x : nat -> R) (i m : nat) : list R := map (fun a => x (i - a)%nat) (seq 0 m).
Lemma ages_S q m : ages q (S m) = 1 :: map (fun v => q * v) (ages q m).
Proof.
  unfold ages. cbn [seq map pow]. f_equal. rewrite <- seq_shift, !map_map. reflexivity.
Qed.
Lemma hist_S x i m : hist x (S i) (S m) = x (S i) :: hist x i m.
Proof.
  unfold hist. cbn [seq map]. f_equal. rewrite <- seq_shift, map_map. reflexivity.
Qed.
Lemma Rdot_scal q w x : Rdot (map (fun v => q * v) w) x = q * Rdot w x.
Proof.
  unfold Rdot. revert x. induction w as [|a w IH]; intros [|b x]; cbn; try lra.
  specialize (IH x). unfold Rsum in IH. rewrite IH. lra.
Qed.
Lemma Rdot_cons a w b x : Rdot (a :: w) (b :: x) = a * b + Rdot w x.
Proof. reflexivity. Qed.
Lemma Rsum_cons a l : Rsum (a :: l) = a + Rsum l.
Proof. reflexivity. Qed.
Lemma ages_pos q m : 0 <= q -> 1 <= Rsum (ages q (S m)).
Proof.
  intro H. induction m as [|m IH].
  - unfold ages. cbn. lra.
  - rewrite ages_S, Rsum_cons, Rsum_scal. nra.
Qed.

Definition wh (q : R) (x : nat -> R) (k d : nat) : R :=
  wmean (ages q (S d)) (hist x (k + d) (S d)).
Lemma adj_st_fin al x j d : 0 <= 1 - al -> 
  scan_st (ewma_step (Fin al) true) (fun i => prep (fin x i)) (S j) (Fin (x j), v1) d =
  (Fin (wh (1 - al) x j d), Fin (Rsum (ages (1 - al) (S d)))).
Proof.
  intro H. induction d as [|d IH].
  - cbn [scan_st]. rewrite v1_fin. unfold wh, wmean, ages, hist, Rdot, Rsum. cbn [seq map combine fold_right pow].
    rewrite Nat.add_0_r, Nat.sub_0_r. f_equal; f_equal; [field|lra].
  - cbn [scan_st]. rewrite IH. change (fin x (S j + d)) with (Fin (x (S j + d)%nat)).
    rewrite prep_fin. unfold ewma_step. rewrite !visnan_fin, v1_fin, veqb_fin.
    rewrite !vsub_fin, !vmul_fin, !vadd_fin.
    assert (Hp := ages_pos d H). set (W := Rsum (ages (1 - al) (S d))) in *.
    assert (EW : Rsum (ages (1 - al) (S (S d))) = W * (1 - al) + 1).
    { rewrite ages_S, Rsum_cons, Rsum_scal. fold W. ring. }
    assert (Hd : W * (1 - al) + 1 <> 0) by nra.
    assert (EH : wh (1 - al) x j (S d) = (W * (1 - al) * wh (1 - al) x j d + 1 * x (S j + d)%nat) / (W * (1 - al) + 1)).
    { unfold wh at 1, wmean. rewrite EW. f_equal. rewrite Nat.add_succ_r, ages_S, hist_S, Rdot_cons, Rdot_scal.
      unfold wh, wmean. fold W. cbn [Nat.add]. field. lra. }
    cbn [fst]. rewrite EH, EW. destruct (beqb_spec (wh (1 - al) x j d) (x (S j + d)%nat)) as [E|E].
    + f_equal. f_equal. rewrite E. field. exact Hd.
    + rewrite vdiv_fin by exact Hd. reflexivity.
Qed.
Lemma adj_val_fin al x j d : 0 <= 1 - al ->
  ewma_val (Fin al) true (Fin (x j)) (fin x) j d = Fin (wh (1 - al) x j d).
Proof.
  intro H. assert (Q := adj_st_fin x j d H). destruct d as [|d].
  - cbn [scan_st] in Q. cbn [ewma_val]. now apply (f_equal fst) in Q.
  - cbn [ewma_val]. cbn [scan_st] in Q. replace (j + S d)%nat with (S j + d)%nat by lia.
    unfold ewma_step at 1. unfold ewma_step at 1 in Q.
    destruct (scan_st (ewma_step (Fin al) true) (fun i => prep (fin x i)) (S j) (Fin (x j), v1) d) as [wa ow].
    cbv beta iota zeta in Q |- *. revert Q.
    match goal with |- fst (let '(_, _) := ?t in _) = _ -> _ => destruct t as [u w] end.
    cbn. intro Q. now apply (f_equal fst) in Q.
Qed.

Lemma alpha_range p : (1 <= p)%nat -> 0 < 2 / (INR p + 1) <= 1.
Proof.
  intro H. apply le_INR in H. cbn in H. split.
  - apply Rdiv_lt_0_compat; lra.
  - apply (Rmult_le_reg_r (INR p + 1)); [lra|]. unfold Rdiv. rewrite Rmult_assoc, Rinv_l; lra.
Qed.

Lemma ewma_plain : forall (a : line (ext R)) n k x p, feeds a n k (fin x) -> (1 <= p)%nat ->
  exists e, is_ewm p k x e /\ lmp (ewma p false a) = Z.of_nat (k + p) /\
    length (lser (ewma p false a)) = n /\
    forall i, (i < n)%nat -> nth_error (lser (ewma p false a)) i = Some (if (i <? k)%nat then NaN else Fin (e i)).
Proof.
  intros a n k x p F Hp. destruct (@ewm_mean_feeds _ _ p false a n k (fin x) Hp F) as [A [B C]].
  exists (fun i => es (2 / (INR p + 1)) (x k) x k (i - k)). split; [split|].
  - now rewrite Nat.sub_diag.
  - intros i Hi. replace (S i - k)%nat with (S (i - k)) by lia. cbn [es]. do 3 f_equal. lia.
  - split; [unfold ewma; rewrite A; f_equal; lia|]. split; [exact B|]. intros i Hi. unfold ewma. rewrite (C i Hi).
    destruct (i <? k)%nat; [reflexivity|]. rewrite (alpha_span_fin Hp).
    change (fin x k) with (Fin (x k)). rewrite prep_fin. now rewrite ewma_val_fin.
Qed.
Lemma ewma_adjusted : forall (a : line (ext R)) n k x p, feeds a n k (fin x) -> (1 <= p)%nat ->
  exists e, is_weighted_history p k x e /\ lmp (ewma p true a) = Z.of_nat (k + p) /\
    length (lser (ewma p true a)) = n /\
    forall i, (i < n)%nat -> nth_error (lser (ewma p true a)) i = Some (if (i <? k)%nat then NaN else Fin (e i)).
Proof.
  intros a n k x p F Hp. destruct (@ewm_mean_feeds _ _ p true a n k (fin x) Hp F) as [A [B C]].
  exists (fun i => wh (1 - 2 / (INR p + 1)) x k (i - k)). split.
  - intros i Hi. unfold wh. replace (k + (i - k))%nat with i by lia. reflexivity.
  - split; [unfold ewma; rewrite A; f_equal; lia|]. split; [exact B|]. intros i Hi. unfold ewma. rewrite (C i Hi).
    destruct (i <? k)%nat; [reflexivity|]. rewrite (alpha_span_fin Hp).
    change (fin x k) with (Fin (x k)). rewrite prep_fin. rewrite adj_val_fin; [reflexivity|].
    pose proof (alpha_range Hp). lra.
Qed.
(** with and without adjustment the values stay in the range of the prices *)
Lemma ewm_within : forall p k x e, (1 <= p)%nat -> is_ewm p k x e ->
  forall i lo hi, (k <= i)%nat -> within x k i lo hi -> lo <= e i <= hi.
Proof.
  intros p k x e Hp [H0 H] i lo hi Hi. pose proof (alpha_range Hp) as A. induction Hi as [|i Hi IH]; intro W.
  - rewrite H0. apply W. lia.
  - rewrite H by exact Hi. assert (B : lo <= e i <= hi) by (apply IH; intros j Hj; apply W; lia).
    assert (D : lo <= x (S i) <= hi) by (apply W; lia). nra.
Qed.
Lemma Rdot_bounds lo hi w x : length w = length x -> (forall v, In v w -> 0 <= v) -> (forall v, In v x -> lo <= v <= hi) ->
  lo * Rsum w <= Rdot w x <= hi * Rsum w.
Proof.
  revert x. induction w as [|a w IH]; intros [|b x] L Hw Hx; cbn in L; try discriminate.
  - unfold Rdot. cbn. lra.
  - rewrite Rdot_cons, Rsum_cons. injection L as L. 
    assert (Q := IH x L (fun v h => Hw v (or_intror h)) (fun v h => Hx v (or_intror h))).
    assert (P := Hw a (or_introl eq_refl)). assert (S := Hx b (or_introl eq_refl)). nra.
Qed.
Lemma weighted_within : forall p k x e, (1 <= p)%nat -> is_weighted_history p k x e ->
  forall i lo hi, (k <= i)%nat -> within x k i lo hi -> lo <= e i <= hi.
Proof.
  intros p k x e Hp H i lo hi Hi W. rewrite H by exact Hi. pose proof (alpha_range Hp) as A.
  set (q := 1 - 2 / (INR p + 1)) in *. fold (ages q (S (i - k))). fold (hist x i (S (i - k))).
  assert (P : 1 <= Rsum (ages q (S (i - k)))) by (apply ages_pos; unfold q; lra).
  assert (B := @Rdot_bounds lo hi (ages q (S (i - k))) (hist x i (S (i - k)))).
  destruct B as [B1 B2].
  - unfold ages, hist. now rewrite !map_length.
  - intros v Hv. unfold ages in Hv. apply in_map_iff in Hv as [a [<- _]]. apply pow_le. unfold q. lra.
  - intros v Hv. unfold hist in Hv. apply in_map_iff in Hv as [a [<- Ha]]. apply in_seq in Ha. apply W. lia.
  - unfold wmean. split.
    + apply (Rmult_le_reg_r (Rsum (ages q (S (i - k))))); [lra|]. unfold Rdiv. rewrite Rmult_assoc, Rinv_l; lra.
    + apply (Rmult_le_reg_r (Rsum (ages q (S (i - k))))); [lra|]. unfold Rdiv. rewrite Rmult_assoc, Rinv_l; lra.
Qed.

(** ** Old prices fade *)
Lemma fade : forall al e e' x x' m q n',
  (forall i, (m <= i)%nat -> e (S i + q)%nat = (1 - al) * e (i + q)%nat + al * x (S i + q)%nat) ->
  (forall i, (m <= i)%nat -> e' (S i) = (1 - al) * e' i + al * x' (S i)) ->
  (forall i, (m < i < n')%nat -> x' i = x (i + q)%nat) ->
  forall i, (m <= i < n')%nat -> e' i - e (i + q)%nat = (1 - al) ^ (i - m) * (e' m - e (m + q)%nat).
Proof.
  intros al e e' x x' m q n' He He' Hx i [Hi Hn]. induction Hi as [|i Hi IH].
  - rewrite Nat.sub_diag. cbn. ring.
  - rewrite He, He' by exact Hi. rewrite Hx by lia. replace (S i - m)%nat with (S (i - m)) by lia.
    cbn [pow]. specialize (IH ltac:(lia)). cbn [Nat.add].
    replace ((1 - al) * e' i + al * x (S (i + q)) - ((1 - al) * e (i + q)%nat + al * x (S (i + q)))) with
      ((1 - al) * (e' i - e (i + q)%nat)) by ring. rewrite IH. ring.
Qed.
Lemma fade_bound : forall b d u v lo hi, 0 <= b -> lo <= u <= hi -> lo <= v <= hi ->
  Rabs (b ^ d * (u - v)) <= b ^ d * (hi - lo).
Proof.
  intros b d u v lo hi Hb Hu Hv. assert (P : 0 <= b ^ d) by now apply pow_le.
  rewrite Rabs_mult, (Rabs_pos_eq (b ^ d)) by exact P. apply Rmult_le_compat_l; [exact P|].
  unfold Rabs. destruct (Rcase_abs (u - v)); lra.
Qed.

Lemma ema_fades : forall (a a' : line (ext R)) n n' k k' x x' p m q,
  feeds a n k (fin x) -> feeds a' n' k' (fin x') -> (1 <= p)%nat -> (k + p <= n)%nat -> (k' + p <= n')%nat ->
  (k' + p - 1 <= m)%nat -> (k + p - 1 <= m + q)%nat -> (forall i, (m < i < n')%nat -> x' i = x (i + q)%nat) ->
  exists y y' e e', ema p a = Ok y /\ ema p a' = Ok y' /\
    delivers y n (k + p - 1) (fin e) /\ delivers y' n' (k' + p - 1) (fin e') /\
    (forall i, (m <= i < n')%nat -> e' i - e (i + q)%nat = (1 - 2 / (INR p + 1)) ^ (i - m) * (e' m - e (m + q)%nat)) /\
    (forall lo hi, (forall j, lo <= x j <= hi) -> (forall j, lo <= x' j <= hi) ->
       forall i, (m <= i < n')%nat -> Rabs (e' i - e (i + q)%nat) <= (1 - 2 / (INR p + 1)) ^ (i - m) * (hi - lo)).
Proof.
  intros a a' n n' k k' x x' p m q F F' Hp Hn Hn' Hm Hq Hx.
  destruct (ema_fin F Hp Hn) as (y & e & E & S & D). destruct (ema_fin F' Hp Hn') as (y' & e' & E' & S' & D').
  pose proof (alpha_range Hp) as A.
  assert (G : forall i, (m <= i < n')%nat ->
    e' i - e (i + q)%nat = (1 - 2 / (INR p + 1)) ^ (i - m) * (e' m - e (m + q)%nat)).
  { apply (@fade (2 / (INR p + 1)) e e' x x' m q n'); [| |exact Hx].
    - intros i Hi. apply S. lia.
    - intros i Hi. apply S'. lia. }
  exists y, y', e, e'. do 4 (split; [assumption|]). split; [exact G|].
  intros lo hi Hlo Hlo' i Hi. rewrite G by exact Hi. apply fade_bound; [lra| |].
  - eapply is_ema_within; eauto. intros j _. apply Hlo'.
  - eapply is_ema_within; eauto. intros j _. apply Hlo.
Qed.
Lemma smma_fades : forall (a a' : line (ext R)) n n' k k' x x' p m q,
  feeds a n k (fin x) -> feeds a' n' k' (fin x') -> (1 <= p)%nat -> (k + p <= n)%nat -> (k' + p <= n')%nat ->
  (k' + p - 1 <= m)%nat -> (k + p - 1 <= m + q)%nat -> (forall i, (m < i < n')%nat -> x' i = x (i + q)%nat) ->
  exists y y' e e', smma p a = Ok y /\ smma p a' = Ok y' /\
    delivers y n (k + p - 1) (fin e) /\ delivers y' n' (k' + p - 1) (fin e') /\
    (forall i, (m <= i < n')%nat -> e' i - e (i + q)%nat = (1 - 1 / INR p) ^ (i - m) * (e' m - e (m + q)%nat)) /\
    (forall lo hi, (forall j, lo <= x j <= hi) -> (forall j, lo <= x' j <= hi) ->
       forall i, (m <= i < n')%nat -> Rabs (e' i - e (i + q)%nat) <= (1 - 1 / INR p) ^ (i - m) * (hi - lo)).
Proof.
  intros a a' n n' k k' x x' p m q F F' Hp Hn Hn' Hm Hq Hx.
  destruct (smma_fin F Hp Hn) as (y & e & E & S & D). destruct (smma_fin F' Hp Hn') as (y' & e' & E' & S' & D').
  assert (P : 1 <= INR p) by (apply le_INR in Hp; exact Hp).
  assert (A : 0 <= 1 - 1 / INR p).
  { assert (1 / INR p <= 1); [|lra]. apply (Rmult_le_reg_r (INR p)); [lra|].
    unfold Rdiv. rewrite Rmult_assoc, Rinv_l; lra. }
  assert (G : forall i, (m <= i < n')%nat ->
    e' i - e (i + q)%nat = (1 - 1 / INR p) ^ (i - m) * (e' m - e (m + q)%nat)).
  { apply (@fade (1 / INR p) e e' x x' m q n'); [| |exact Hx].
    - intros i Hi. cbn [Nat.add]. rewrite (proj2 S) by lia. field. lra.
    - intros i Hi. rewrite (proj2 S') by lia. field. lra. }
  exists y, y', e, e'. do 4 (split; [assumption|]). split; [exact G|].
  intros lo hi Hlo Hlo' i Hi. rewrite G by exact Hi. apply fade_bound; [lra| |].
  - eapply is_smma_within; eauto. intros j _. apply Hlo'.
  - eapply is_smma_within; eauto. intros j _. apply Hlo.
Qed.
(** the factor is below any bound after finitely many bars *)
Lemma fade_vanishes : forall b eps, 0 <= b < 1 -> 0 < eps -> exists d, forall d', (d <= d')%nat -> b ^ d' < eps.
Proof.
  intros b eps [H0 H1] He. destruct (pow_lt_1_zero b) with (y := eps) as [N HN]; [|exact He|].
  - rewrite Rabs_pos_eq; assumption.
  - exists N. intros d' Hd. specialize (HN d' Hd). rewrite Rabs_pos_eq in HN; [exact HN|]. now apply pow_le.
Qed.

(** ** t3 in terms of gdema, trix with zeros *)
Definition is_gdema (p k : nat) (v : R) (x g : nat -> R) : Prop :=
  exists e1 e2, is_ema p k x e1 /\ is_ema p (k + (p - 1)) e1 e2 /\ forall i, g i = (1 + v) * e1 i - v * e2 i.
Lemma t3_gd_fin : forall (a : line (ext R)) n k x p v,
  feeds a n k (fin x) -> (1 <= p)%nat -> (k + 6 * (p - 1) + 1 <= n)%nat ->
  exists y g1 g2 g3, t3_gd ema p (Fin v) a = Ok y /\
    is_gdema p k v x g1 /\ is_gdema p (k + 2 * (p - 1)) v g1 g2 /\ is_gdema p (k + 4 * (p - 1)) v g2 g3 /\
    delivers y n (k + 6 * (p - 1)) (fin g3).
Proof.
  intros a n k x p v F Hp Hn. unfold t3_gd.
  destruct (@gdema_fin a n k x p v F Hp) as (y1 & e1 & e2 & E1 & S1 & S2 & D1); [lia|].
  rewrite E1. cbn [bind].
  destruct (@gdema_fin y1 n _ _ p v (delivers_feeds D1) Hp) as (y2 & e3 & e4 & E2 & S3 & S4 & D2); [lia|].
  rewrite E2. cbn [bind].
  destruct (@gdema_fin y2 n _ _ p v (delivers_feeds D2) Hp) as (y3 & e5 & e6 & E3 & S5 & S6 & D3); [lia|].
  exists y3. do 3 eexists. split; [exact E3|]. split; [exists e1, e2; split; [exact S1|split; [exact S2|reflexivity]]|].
  split; [exists e3, e4; split; [exact S3|split; [exact S4|reflexivity]]|].
  replace (k + 4 * (p - 1))%nat with (k + 2 * (p - 1) + 2 * (p - 1))%nat by lia.
  split; [exists e5, e6; split; [exact S5|split; [exact S6|reflexivity]]|].
  replace (k + 6 * (p - 1))%nat with (k + 2 * (p - 1) + 2 * (p - 1) + 2 * (p - 1))%nat by lia. exact D3.
Qed.
Lemma trix_any : forall (a : line (ext R)) n k x p,
  feeds a n k (fin x) -> (1 <= p)%nat -> (k + 3 * (p - 1) + 1 <= n)%nat ->
  exists y e1 e2 e3, trix ema p a = Ok y /\
    is_ema p k x e1 /\ is_ema p (k + (p - 1)) e1 e2 /\ is_ema p (k + 2 * (p - 1)) e2 e3 /\
    delivers y n (k + 3 * (p - 1) + 1) (fun i =>
      if Req_EM_T (e3 (i - 1)%nat) 0 then quot (e3 i) 0
      else Fin (100 * ((e3 i - e3 (i - 1)%nat) / e3 (i - 1)%nat))).
Proof.
  intros a n k x p F Hp Hn. unfold trix.
  destruct (@ema_fin a n k x p F Hp) as (y1 & e1 & E1 & S1 & D1); [lia|]. rewrite E1. cbn [bind].
  destruct (@ema_fin y1 n _ _ p (delivers_feeds D1) Hp) as (y2 & e2 & E2 & S2 & D2); [lia|]. rewrite E2. cbn [bind].
  destruct (@ema_fin y2 n _ _ p (delivers_feeds D2) Hp) as (y3 & e3 & E3 & S3 & D3); [lia|]. rewrite E3. cbn [bind].
  eexists _, e1, e2, e3. split; [reflexivity|]. split; [exact S1|].
  split; [replace (k + (p - 1))%nat with (k + p - 1)%nat by lia; exact S2|].
  split; [replace (k + 2 * (p - 1))%nat with (k + p - 1 + p - 1)%nat by lia; exact S3|].
  pose proof (at_ago_delivers (p := 1) (delivers_feeds D3) ltac:(lia)) as Ds.
  pose proof (rbinop_s_delivers vmul (vofZ 100) (delivers_feeds (binop_s_delivers vsub (vofZ 1)
    (delivers_feeds (binop_delivers vdiv (delivers_feeds D3) (delivers_feeds Ds)))))) as D.
  match type of D with delivers _ _ ?m _ => replace m with (k + 3 * (p - 1) + 1)%nat in D by lia end.
  eapply delivers_ext; [|exact D]. intros i Hi. cbv beta. unfold fin. rewrite vdiv_quot, !vofZ_fin.
  destruct (Req_EM_T (e3 (i - 1)%nat) 0) as [Z|Z].
  - rewrite Z. unfold quot. destruct (Req_EM_T 0 0) as [_|N]; [|lra].
    assert (P : inf_signed 100 = PInf (F:=R)) by (apply inf_signed_pos; lra).
    assert (M : inf_opp 100 = NInf (F:=R)).
    { unfold inf_opp, bpos. cbn. destruct (Rltb_spec 0 100); [reflexivity|lra]. }
    destruct (Rlt_dec 0 (e3 i)); [exact P|]. destruct (Rlt_dec (e3 i) 0); [exact M|reflexivity].
  - rewrite quot_fin, vsub_fin, vmul_fin by exact Z. f_equal. field. exact Z.
Qed.
