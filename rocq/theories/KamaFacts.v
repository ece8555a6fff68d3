(** Kaufman's adaptive average. *)
From Coq Require Import ZArith List Bool Lia Arith Reals Lra Psatz.
From Verif Require Import Num Series Line Spec RSpec BoundSpec KamaSpec LineFacts ScanFacts RFacts OpFacts
  IndMA MAFacts RLineFacts IndBasic BasicFacts BoundFacts StatFacts IndRange RangeSpec RangeFacts RangeFacts2.
Import ListNotations.
Set Implicit Arguments.

(** ** the dynamic mean *)
Local Open Scope nat_scope.
Section Dyn.
  Context {V : Type} {N : Num V}.

  (** value at bar [j + d - 1] when the mean starts from [prev] just before bar [j] *)
  Fixpoint dynv (prev : V) (al f : nat -> V) (j d : nat) : V :=
    match d with
    | 0 => prev
    | S d' => let v := dynv prev al f j d' in
              vadd v (vmul (al (j + d')) (vsub (f (j + d')) v))
    end.

  Lemma dynv_shift prev al f j d :
    dynv prev al f j (S d) = dynv (vadd prev (vmul (al j) (vsub (f j) prev))) al f (S j) d.
  Proof.
    induction d as [|d IH].
    - cbn [dynv]. now rewrite Nat.add_0_r.
    - change (dynv prev al f j (S (S d))) with
        (let v := dynv prev al f j (S d) in vadd v (vmul (al (j + S d)) (vsub (f (j + S d)) v))).
      rewrite IH. cbn [dynv]. now replace (S j + d) with (j + S d) by lia.
  Qed.

  Lemma dyn_from_seq m : forall prev al f j,
    dyn_from prev (map al (seq j m)) (map f (seq j m)) =
    Ok (map (fun i => dynv prev al f j (S i - j)) (seq j m)).
  Proof.
    induction m as [|m IH]; intros prev al f j; [reflexivity|].
    cbn [seq map dyn_from]. rewrite IH. cbn [bind]. do 2 f_equal.
    - replace (S j - j) with 1 by lia. cbn [dynv]. now rewrite Nat.add_0_r.
    - apply map_ext_seq. intros i Hi. rewrite <- dynv_shift. f_equal. lia.
  Qed.

  Lemma dyn_from_long : forall (al s : list V) prev, length s < length al -> dyn_from prev al s = Raise IndexError.
  Proof.
    induction al as [|a al IH]; intros s prev H; simpl in H; [lia|].
    destruct s as [|x s]; [reflexivity|]. cbn [dyn_from]. rewrite IH by (simpl in H; lia). reflexivity.
  Qed.

  (** line._ewm(span=p, alpha=al, _seed=sd)._mean() on a line without warm-up *)
  Lemma ewm_dyn_delivers (a al : line V) n m p sd f g :
    feeds a n 0 f -> feeds al n (S m) g -> 1 <= p <= S m -> m < n ->
    exists y, ewm_dyn (Z.of_nat p) al sd a = Ok y /\
      delivers y n (S m)
        (fun i => dynv (prep (seed_of (lser a) sd (Z.of_nat (S m) - Z.of_nat p) (Z.of_nat (S m))))
                       g (fun j => prep (f j)) (S m) (i - m)).
  Proof.
    intros Ha Hal Hp Hm. unfold ewm_dyn. rewrite (feeds_mp Hal).
    set (sv := seed_of (lser a) sd (Z.of_nat (S m) - Z.of_nat p) (Z.of_nat (S m))).
    set (D := fun i => dynv (prep sv) g (fun j => prep (f j)) (S m) (i - m)).
    destruct (@ewm_call_ok _ _ a n 0 f (Z.of_nat p) 0 0 (Z.of_nat (S (S m))) sd
                (dyn_mean (slice_from (lser al) (Z.of_nat (S (S m)) - 1))) (Z.of_nat (S m)) m (S m)
                (fun i => if i <=? m then vnan else D i) Ha) as (y & E & M & L); try lia.
    - cbn [Z.eqb]. replace (Z.of_nat p =? 0)%Z with false by (symmetry; apply Z.eqb_neq; lia).
      replace (Z.of_nat p <? Z.of_nat (S (S m)))%Z with true by (symmetry; apply Z.ltb_lt; lia).
      cbn [negb andb]. lia.
    - fold sv. rewrite mp_idx, (@feeds_slice _ al n (S m) g (S m) Hal) by lia.
      unfold dyn_mean. cbn [map]. rewrite map_map, dyn_from_seq. cbn [bind].
      replace (n - m) with (S (n - S m)) by lia. cbn [seq map].
      replace (m <=? m) with true by (symmetry; apply Nat.leb_le; lia). do 2 f_equal.
      apply map_ext_seq. intros i Hi. replace (i <=? m) with false by (symmetry; apply Nat.leb_gt; lia).
      unfold D. f_equal; lia.
    - exists y. split; [exact E|]. apply line_delivers_eq; [exact M|].
      rewrite L. apply map_ext. intro i. fold D.
      destruct (Nat.ltb_spec i m), (Nat.leb_spec i m), (Nat.ltb_spec i (S m)); try lia; reflexivity.
  Qed.

  (** on a line with a warm-up it raises *)
  Lemma ewm_dyn_chained (a al : line V) n k m p sd f g :
    feeds a n k f -> feeds al n m g -> 1 <= k -> 1 <= p <= m -> k <= m ->
    ewm_dyn (Z.of_nat p) al sd a = Raise IndexError.
  Proof.
    intros Ha Hal Hk Hp Hkm. unfold ewm_dyn. rewrite (feeds_mp Hal).
    assert (PO : (let po1 := if (0 =? 0)%Z then Z.of_nat p else 0%Z in
                  if negb (Z.of_nat p =? 0)%Z && (po1 <? Z.of_nat (S m))%Z
                  then po1 + (Z.of_nat (S m) - po1 - 1) else po1)%Z = Z.of_nat m).
    { cbn [Z.eqb]. replace (Z.of_nat p =? 0)%Z with false by (symmetry; apply Z.eqb_neq; lia).
      replace (Z.of_nat p <? Z.of_nat (S m))%Z with true by (symmetry; apply Z.ltb_lt; lia).
      cbn [negb andb]. lia. }
    rewrite mp_idx.
    destruct (Nat.lt_ge_cases (k + m - 1) n) as [C|C].
    - unfold ewm_call. rewrite (@mf_ewm_ok _ _ a (Z.of_nat p) 0 0 (Z.of_nat (S m)) sd (Z.of_nat m) (k + m - 1) PO).
      2:{ rewrite (feeds_mp Ha). lia. }
      2:{ now rewrite (feeds_len Ha). }
      cbn [bind]. unfold mf_call. cbn [mf_trailer snd].
      unfold dyn_mean. cbn [map]. rewrite dyn_from_long; [reflexivity|].
      rewrite map_length, skipn_length, (feeds_len Ha).
      rewrite (@feeds_slice _ al n m g m Hal) by lia. rewrite map_length, seq_length. lia.
    - destruct sd.
      1,2,3,5: unfold ewm_call;
        rewrite (fun sd => @mf_ewm_short _ _ a (Z.of_nat p) 0 0 (Z.of_nat (S m)) sd (Z.of_nat m) (k + m - 1) PO);
        [reflexivity|rewrite (feeds_mp Ha); lia|now rewrite (feeds_len Ha)|tauto].
      all: unfold ewm_call, mf_ewm; cbv zeta in PO |- *; rewrite PO;
        rewrite (feeds_mp Ha);
        replace (Z.of_nat (S k) - 1 + Z.of_nat m - 0)%Z with (Z.of_nat (k + m)) by lia;
        replace (Z.of_nat (k + m) - 1)%Z with (Z.of_nat (k + m - 1)) by lia;
        rewrite slice_nat, slice_from_nat, skipn_all2 by (rewrite (feeds_len Ha); lia);
        rewrite firstn_nil; cbn [map bind app];
        unfold mf_call; cbn [mf_trailer snd];
        rewrite skipn_all2 by (rewrite (feeds_len Ha); lia); reflexivity.
  Qed.
End Dyn.

Local Open Scope R_scope.
Local Notation lineR := (line (ext R)).

(** ** the efficiency ratio *)
Lemma vabs_quot a b : 0 <= b -> vabs (quot a b) = quot (Rabs a) b.
Proof.
  intro Hb. unfold quot. destruct (Req_EM_T b 0) as [->|Hne].
  - destruct (Rlt_dec 0 a), (Rlt_dec 0 (Rabs a)), (Rlt_dec a 0), (Rlt_dec (Rabs a) 0); try reflexivity;
      exfalso; unfold Rabs in *; destruct (Rcase_abs a); lra.
  - rewrite vabs_fin. unfold Rdiv. rewrite Rabs_mult. do 2 f_equal. apply Rabs_pos_eq.
    left. apply Rinv_0_lt_compat. lra.
Qed.

Lemma path_nonneg p q x i : 0 <= path p q x i.
Proof.
  unfold path. apply Rsum_nonneg. intros v Hv. apply in_win in Hv. destruct Hv as (j & _ & ->). apply Rabs_pos.
Qed.

Definition effv p q x i : ext R := quot (Rabs (x i - x (i - p)%nat)) (path p q x i).

Lemma kama_er_fin (a : lineR) n k x p q :
  feeds a n k (fin x) -> (1 <= p)%nat -> (1 <= q)%nat ->
  delivers (kama_er p q a) n (k + (p + q - 1)) (effv p q x).
Proof.
  intros Ha Hp Hq. unfold kama_er.
  assert (D1 := @diff_fin n a k x p Ha). assert (D2 := @diff_fin n a k x q Ha).
  assert (D3 := @labs_fin n _ _ _ (delivers_feeds D2)).
  assert (D4 := @sumn_fin _ n (k + q) _ p (delivers_feeds D3) Hp).
  assert (D5 := @ldiv_quot n _ _ _ _ _ _ (delivers_feeds D1) (delivers_feeds D4)).
  replace (Nat.max (k + p) (k + q + p - 1)) with (k + (p + q - 1))%nat in D5 by lia.
  unfold labs. eapply delivers_ext; [|apply mapop_delivers; exact (delivers_feeds D5)].
  intros i Hi. cbv beta. apply vabs_quot. apply (path_nonneg p q).
Qed.

Lemma walk_bound (x : nat -> R) d : forall j, Rabs (x (j + d)%nat - x j) <=
  Rsum (map (fun i => Rabs (x i - x (i - 1)%nat)) (seq (S j) d)).
Proof.
  induction d as [|d IH]; intro j.
  - rewrite Nat.add_0_r, Rminus_diag_eq, Rabs_R0 by reflexivity. cbn. lra.
  - cbn [seq map]. rewrite Rsum_cons. replace (S j - 1)%nat with j by lia.
    replace (x (j + S d)%nat - x j) with ((x (S j + d)%nat - x (S j)) + (x (S j) - x j)).
    2:{ replace (S j + d)%nat with (j + S d)%nat by lia. ring. }
    eapply Rle_trans; [apply Rabs_triang|]. specialize (IH (S j)). lra.
Qed.

Lemma net_le_path p x i : (p <= i)%nat -> Rabs (x i - x (i - p)%nat) <= path p 1 x i.
Proof.
  intro Hi. unfold path, lastp, win. replace (S i - p)%nat with (S (i - p)) by lia.
  assert (W := walk_bound x p (i - p)). replace (i - p + p)%nat with i in W by lia. exact W.
Qed.

Lemma effv_range p x i : (1 <= p <= i)%nat -> num_in 0 1 (effv p 1 x i).
Proof.
  intro Hi. unfold effv. assert (W := @net_le_path p x i ltac:(lia)). assert (P := path_nonneg p 1 x i).
  assert (A := Rabs_pos (x i - x (i - p)%nat)). apply quot_in; lra.
Qed.
Lemma effv_nan p x i : (1 <= p <= i)%nat -> (effv p 1 x i = NaN <-> path p 1 x i = 0).
Proof.
  intro Hi. unfold effv. assert (W := @net_le_path p x i ltac:(lia)).
  assert (A := Rabs_pos (x i - x (i - p)%nat)). split.
  - intro E. destruct (Req_EM_T (path p 1 x i) 0) as [Z|Z]; [exact Z|]. rewrite quot_fin in E by exact Z. discriminate.
  - intro Z. rewrite Z in *. replace (Rabs (x i - x (i - p)%nat)) with 0 by lra. apply quot_00.
Qed.
Lemma effv_fin p q x i : path p q x i <> 0 -> effv p q x i = Fin (efficiency p q x i).
Proof. intro H. unfold effv. now rewrite quot_fin. Qed.

Lemma path_flat p x i : (1 <= p <= i)%nat ->
  (path p 1 x i = 0 <-> forall j, (i - p <= j <= i)%nat -> x j = x i).
Proof.
  intro Hi. unfold path. split.
  - intro E.
    assert (Z : forall j, (S i - p <= j <= i)%nat -> x j = x (j - 1)%nat).
    { intros j Hj.
      assert (Rabs (x j - x (j - 1)%nat) = 0).
      { eapply (@Rsum_zero (lastp (fun j => Rabs (x j - x (j - 1)%nat)) i p)).
        - intros v Hv. apply in_win in Hv. destruct Hv as (u & _ & ->). apply Rabs_pos.
        - exact E.
        - apply in_win. exists j. split; [lia|reflexivity]. }
      destruct (Req_EM_T (x j - x (j - 1)%nat) 0) as [Q|Q]; [lra|]. now apply Rabs_no_R0 in Q. }
    assert (W : forall d, (d <= p)%nat -> x (i - d)%nat = x i).
    { induction d as [|d IH]; intro Hd; [now rewrite Nat.sub_0_r|].
      rewrite <- IH by lia. symmetry. rewrite (Z (i - d)%nat) by lia. f_equal. lia. }
    intros j Hj. replace j with (i - (i - j))%nat by lia. apply W. lia.
  - intro F. apply Rle_antisym; [|apply (path_nonneg p 1)].
    assert (EQ : lastp (fun j => Rabs (x j - x (j - 1)%nat)) i p = map (fun _ => 0) (seq (S i - p) p)).
    { unfold lastp, win. apply map_ext_in. intros j Hj. apply in_seq in Hj.
      rewrite (F j), (F (j - 1)%nat) by lia. rewrite Rminus_diag_eq by reflexivity. apply Rabs_R0. }
    rewrite EQ. clear. generalize (S i - p)%nat. induction p as [|p IH]; intro s; cbn [seq map].
    + cbn. lra.
    + rewrite Rsum_cons. specialize (IH (S s)). lra.
Qed.

(** ** the smoothing constant *)
Definition scv p q fast slow x i : ext R :=
  let e := effv p q x i in
  let s := vadd (vmul e (Fin (factor fast - factor slow))) (Fin (factor slow)) in vmul s s.

Lemma factor_fin m : m + 1 <> 0 -> vdiv (vofZ 2) (vadd (Fin m) v1) = Fin (factor m).
Proof. intro H. rewrite v1_fin, vadd_fin, vofZ_fin, vdiv_quot, quot_fin by exact H. reflexivity. Qed.

Lemma kama_sc_fin (a : lineR) n k x p q fast slow :
  feeds a n k (fin x) -> (1 <= p)%nat -> (1 <= q)%nat -> fast + 1 <> 0 -> slow + 1 <> 0 ->
  delivers (kama_sc p q (Fin fast) (Fin slow) a) n (k + (p + q - 1)) (scv p q fast slow x).
Proof.
  intros Ha Hp Hq Hf Hs. unfold kama_sc, pow2. rewrite !factor_fin by assumption. rewrite vsub_fin.
  assert (D := kama_er_fin Ha Hp Hq).
  assert (D1 := binop_s_delivers vmul (Fin (factor fast - factor slow)) (delivers_feeds D)).
  assert (D2 := binop_s_delivers vadd (Fin (factor slow)) (delivers_feeds D1)).
  exact (binop_s_delivers (fun x _ => vmul x x) (vofZ 2) (delivers_feeds D2)).
Qed.

Lemma scv_fin p q fast slow x i : path p q x i <> 0 ->
  scv p q fast slow x i = Fin (smoothing fast slow (efficiency p q x i)).
Proof.
  intro H. unfold scv. cbv zeta. rewrite effv_fin by exact H. rewrite !vmul_fin, !vadd_fin, vmul_fin. f_equal.
  unfold smoothing. ring.
Qed.
Lemma scv_nan p q fast slow x i : effv p q x i = NaN -> scv p q fast slow x i = NaN.
Proof. intro H. unfold scv. now rewrite H. Qed.

Lemma factor_range m m' : 0 <= m <= m' -> 0 < factor m' <= factor m.
Proof.
  intro H. unfold factor. split.
  - apply Rmult_lt_0_compat; [lra|]. apply Rinv_0_lt_compat. lra.
  - apply Rmult_le_compat_l; [lra|]. apply Rinv_le_contravar; lra.
Qed.
Lemma factor_le1 m : 1 <= m -> factor m <= 1.
Proof.
  intro H. unfold factor. apply Rmult_le_reg_r with (m + 1); [lra|]. unfold Rdiv.
  rewrite Rmult_assoc, Rinv_l by lra. lra.
Qed.

Lemma smoothing_range fast slow e : 0 <= fast <= slow -> 0 <= e <= 1 ->
  factor slow ^ 2 <= smoothing fast slow e <= factor fast ^ 2.
Proof.
  intros H He. destruct (@factor_range fast slow H). unfold smoothing.
  set (f := factor fast) in *. set (s := factor slow) in *.
  assert (0 <= e * (f - s) <= f - s) by nra. split; apply pow_incr; lra.
Qed.

Lemma efficiency_range p x i : (1 <= p <= i)%nat -> path p 1 x i <> 0 -> 0 <= efficiency p 1 x i <= 1.
Proof.
  intros Hi Hne. destruct (@effv_range p x i Hi) as [E|(r & E & Hr)]; rewrite effv_fin in E by exact Hne.
  - discriminate.
  - injection E as ->. exact Hr.
Qed.

(** ** the average *)
Fixpoint kst (p q : nat) (fast slow sd : R) (x : nat -> R) (m d : nat) : R :=
  match d with
  | 0%nat => sd
  | S d' => let v := kst p q fast slow sd x m d' in
            v + smoothing fast slow (efficiency p q x (S (m + d'))) * (x (S (m + d'))%nat - v)
  end.

Lemma dynv_kst p q fast slow sd x m d :
  (forall j, (m < j <= m + d)%nat -> path p q x j <> 0) ->
  dynv (Fin sd) (scv p q fast slow x) (fun j => prep (fin x j)) (S m) d = Fin (kst p q fast slow sd x m d).
Proof.
  induction d as [|d IH]; intro H; [reflexivity|]. cbn [dynv kst]. rewrite IH by (intros j Hj; apply H; lia).
  replace (S m + d)%nat with (S (m + d)) by lia. rewrite scv_fin by (apply H; lia).
  unfold fin. now rewrite prep_fin, vsub_fin, vmul_fin, vadd_fin.
Qed.

Lemma dynv_nan (sd : ext R) al f j d u : (u < d)%nat -> al (j + u)%nat = NaN -> dynv sd al f j d = NaN.
Proof.
  intros Hu E. induction d as [|d IH]; [lia|]. cbn [dynv].
  destruct (Nat.eq_dec u d) as [->|].
  - rewrite E. destruct (dynv sd al f j d); reflexivity.
  - rewrite IH by lia. reflexivity.
Qed.

Definition kseed (sd : seed) (p m : nat) (x : nat -> R) : option R :=
  match sd with
  | SEED_AVG => Some (Rmean (lastp x m p))
  | SEED_LAST => Some (x m)
  | _ => None
  end.

Lemma kseed_of (a : lineR) n x p m sd s :
  feeds a n 0 (fin x) -> (1 <= p <= S m)%nat -> (m < n)%nat -> kseed sd p m x = Some s ->
  seed_of (lser a) sd (Z.of_nat (S m) - Z.of_nat p) (Z.of_nat (S m)) = Fin s.
Proof.
  intros Ha Hp Hm E. destruct sd; try discriminate E; injection E as <-; cbn [seed_of].
  - rewrite (@slice_win a n 0 (fin x) m p Ha) by lia. rewrite win_fin. apply ser_mean_fin. apply win_nonnil. lia.
  - replace (Z.to_nat (Z.of_nat (S m) - 1)) with m by lia. destruct Ha as (_ & _ & F).
    apply nth_error_nth. apply F. lia.
Qed.

Lemma kama_core (a : lineR) n x p q fast slow sd s :
  feeds a n 0 (fin x) -> (1 <= p)%nat -> (1 <= q)%nat -> fast + 1 <> 0 -> slow + 1 <> 0 ->
  let m := (p + q - 2)%nat in
  (m < n)%nat -> kseed sd p m x = Some s ->
  exists y f e, kama p q (Fin fast) (Fin slow) sd a = Ok y /\
    delivers y n (S m) f /\ is_kama p q m n fast slow s x e /\
    (forall i, (m < i < n)%nat -> (forall j, (m < j <= i)%nat -> path p q x j <> 0) -> f i = Fin (e i)) /\
    (forall i j, (m < j <= i)%nat -> (i < n)%nat -> effv p q x j = NaN -> f i = NaN).
Proof.
  intros Ha Hp Hq Hf Hs m Hm Hsd.
  assert (DS := @kama_sc_fin a n 0 x p q fast slow Ha Hp Hq Hf Hs).
  replace (0 + (p + q - 1))%nat with (S m) in DS by (unfold m; lia).
  destruct (@ewm_dyn_delivers _ _ a _ n m p sd _ _ Ha (delivers_feeds DS) ltac:(unfold m; lia) Hm) as (y & E & D).
  assert (SE := @kseed_of a n x p m sd s Ha ltac:(unfold m; lia) Hm Hsd).
  exists y. eexists. exists (fun i => kst p q fast slow s x m (i - m)).
  split; [exact E|]. split; [exact D|]. split; [|split].
  - split; [now rewrite Nat.sub_diag|]. intros i Hi Hn.
    replace (S i - m)%nat with (S (i - m)) by lia. cbn [kst]. now replace (m + (i - m))%nat with i by lia.
  - intros i Hi Hne. cbv beta. rewrite SE, prep_fin. apply dynv_kst. intros j Hj. apply Hne. lia.
  - intros i j Hj Hi Hnan. cbv beta. apply dynv_nan with (u := (j - S m)%nat); [lia|].
    replace (S m + (j - S m))%nat with j by lia. now apply scv_nan.
Qed.

(** within the range of the prices seen *)
Lemma is_kama_within p m n fast slow s x e lo hi :
  is_kama p 1 m n fast slow s x e -> (1 <= p <= S m)%nat -> 1 <= fast <= slow -> lo <= s <= hi ->
  forall i, (m <= i < n)%nat -> (forall j, (m < j <= i)%nat -> path p 1 x j <> 0) ->
    (forall j, (m < j <= i)%nat -> lo <= x j <= hi) -> lo <= e i <= hi.
Proof.
  intros [E0 ES] Hp Hf Hs.
  assert (G : forall d, (m + d < n)%nat -> (forall j, (m < j <= m + d)%nat -> path p 1 x j <> 0) ->
     (forall j, (m < j <= m + d)%nat -> lo <= x j <= hi) -> lo <= e (m + d)%nat <= hi).
  { induction d as [|d IH]; intros Hn Hpa Hx; [rewrite Nat.add_0_r, E0; exact Hs|].
    replace (m + S d)%nat with (S (m + d)) by lia. rewrite ES by lia.
    assert (I : lo <= e (m + d)%nat <= hi).
    { apply IH; [lia| |]; intros j Hj; [apply Hpa|apply Hx]; lia. }
    assert (X : lo <= x (S (m + d)) <= hi) by (apply Hx; lia).
    assert (EF : 0 <= efficiency p 1 x (S (m + d)) <= 1).
    { apply efficiency_range; [lia|]. apply Hpa. lia. }
    assert (SM := @smoothing_range fast slow _ ltac:(lra) EF).
    set (c := smoothing fast slow (efficiency p 1 x (S (m + d)))) in *.
    assert (F1 := @factor_le1 fast ltac:(lra)). destruct (@factor_range fast slow ltac:(lra)) as [F2 F3].
    assert (0 <= factor slow ^ 2) by apply pow2_ge_0. assert (factor fast ^ 2 <= 1) by nra.
    assert (0 <= c <= 1) by lra. nra. }
  intros i Hi Hpa Hx. specialize (G (i - m)%nat). replace (m + (i - m))%nat with i in G by lia.
  apply G; [lia|assumption|assumption].
Qed.

Lemma kseed_within sd p m x s lo hi : (1 <= p <= S m)%nat -> kseed sd p m x = Some s ->
  (forall j, (j <= m)%nat -> lo <= x j <= hi) -> lo <= s <= hi.
Proof.
  intros Hp E H. destruct sd; try discriminate E; injection E as <-; [|apply H; lia].
  apply Rmean_bounds; [apply lastp_nonnil; lia|].
  intros v Hv. apply in_win in Hv. destruct Hv as (j & Hj & ->). apply H. lia.
Qed.
