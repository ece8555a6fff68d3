(** The statements of C39 and C40. *)
From Coq Require Import ZArith List Bool Lia Arith Reals Lra Psatz.
From Verif Require Import Num Series Line Spec RSpec BoundSpec KamaSpec LineFacts ScanFacts RFacts OpFacts
  IndMA MAFacts RLineFacts BasicFacts KamaFacts.
Import ListNotations.
Set Implicit Arguments.
Local Open Scope R_scope.
Local Notation lineR := (line (ext R)).

Lemma efficiency_all (a : lineR) n k x p :
  feeds a n k (fin x) -> (1 <= p)%nat ->
  exists f, delivers (kama_er p 1 a) n (k + p) f /\
    forall i, (k + p <= i < n)%nat ->
      ((exists j, (i - p <= j <= i)%nat /\ x j <> x i) ->
         f i = Fin (efficiency p 1 x i) /\ 0 <= efficiency p 1 x i <= 1) /\
      ((forall j, (i - p <= j <= i)%nat -> x j = x i) -> f i = NaN).
Proof.
  intros Ha Hp. exists (effv p 1 x). split.
  - assert (D := @kama_er_fin a n k x p 1 Ha Hp ltac:(lia)).
    now replace (k + (p + 1 - 1))%nat with (k + p)%nat in D by lia.
  - intros i Hi. assert (PI : (1 <= p <= i)%nat) by lia. split.
    + intros (j & Hj & Hne). assert (NZ : path p 1 x i <> 0).
      { intro Z. apply Hne. apply (proj1 (@path_flat p x i PI) Z). exact Hj. }
      split; [now apply effv_fin|now apply efficiency_range].
    + intro F. apply (@effv_nan p x i PI). now apply path_flat.
Qed.

Lemma kama_all (a : lineR) n x p fast slow sd s :
  feeds a n 0 (fin x) -> (1 <= p <= n)%nat -> 1 <= fast <= slow ->
  (sd = SEED_AVG /\ s = Rmean (lastp x (p - 1) p) \/ sd = SEED_LAST /\ s = x (p - 1)%nat) ->
  exists y f e, kama p 1 (Fin fast) (Fin slow) sd a = Ok y /\
    delivers y n p f /\ is_kama p 1 (p - 1) n fast slow s x e /\
    forall i, (p <= i < n)%nat ->
      ((forall j, (p <= j <= i)%nat -> exists u, (j - p <= u <= j)%nat /\ x u <> x j) ->
         f i = Fin (e i) /\
         forall lo hi, within x 0 i lo hi -> lo <= e i <= hi) /\
      ((exists j, (p <= j <= i)%nat /\ forall u, (j - p <= u <= j)%nat -> x u = x j) -> f i = NaN).
Proof.
  intros Ha Hp Hf Hsd.
  assert (KS : kseed sd p (p - 1) x = Some s) by (destruct Hsd as [[-> ->]|[-> ->]]; reflexivity).
  replace (p - 1)%nat with (p + 1 - 2)%nat in KS by lia.
  destruct (@kama_core a n x p 1 fast slow sd s Ha ltac:(lia) ltac:(lia) ltac:(lra) ltac:(lra) ltac:(lia) KS)
    as (y & f & e & E & D & IS & F & NF).
  replace (p + 1 - 2)%nat with (p - 1)%nat in * by lia.
  exists y, f, e. split; [exact E|]. split; [now replace p with (S (p - 1)) by lia|]. split; [exact IS|].
  intros i Hi. split.
  - intro V. assert (NZ : forall j, (p - 1 < j <= i)%nat -> path p 1 x j <> 0).
    { intros j Hj Z. destruct (V j ltac:(lia)) as (u & Hu & Hne). apply Hne.
      apply (proj1 (@path_flat p x j ltac:(lia)) Z). exact Hu. }
    split; [apply F; [lia|exact NZ]|]. intros lo hi W.
    apply (@is_kama_within p (p - 1) n fast slow s x e lo hi IS); try lia; try assumption.
    + apply (@kseed_within sd p (p - 1) x s lo hi ltac:(lia) KS). intros j Hj. apply W. lia.
    + intros j Hj. apply W. lia.
  - intros (j & Hj & FL). apply (NF i j); [lia|lia|]. apply (@effv_nan p x j ltac:(lia)).
    apply path_flat; [lia|exact FL].
Qed.

Lemma kama_lookback (a : lineR) n x p q fast slow sd s :
  feeds a n 0 (fin x) -> (1 <= p)%nat -> (1 <= q)%nat -> fast + 1 <> 0 -> slow + 1 <> 0 ->
  let m := (p + q - 2)%nat in
  (m < n)%nat ->
  (sd = SEED_AVG /\ s = Rmean (lastp x m p) \/ sd = SEED_LAST /\ s = x m) ->
  (forall i, (m < i < n)%nat -> exists j, (i - p < j <= i)%nat /\ x j <> x (j - q)%nat) ->
  exists y e, kama p q (Fin fast) (Fin slow) sd a = Ok y /\
    is_kama p q m n fast slow s x e /\ delivers y n (S m) (fin e).
Proof.
  intros Ha Hp Hq Hf Hs m Hm Hsd V.
  assert (KS : kseed sd p m x = Some s) by (destruct Hsd as [[-> ->]|[-> ->]]; reflexivity).
  destruct (@kama_core a n x p q fast slow sd s Ha Hp Hq Hf Hs Hm KS) as (y & f & e & E & D & IS & F & _).
  exists y, e. split; [exact E|]. split; [exact IS|]. fold m in D.
  assert (NZ : forall j, (m < j < n)%nat -> path p q x j <> 0).
  { intros j Hj Z. destruct (V j Hj) as (u & Hu & Hne). apply Hne.
    assert (A : Rabs (x u - x (u - q)%nat) = 0).
    { eapply (@StatFacts.Rsum_zero (lastp (fun j => Rabs (x j - x (j - q)%nat)) j p)).
      - intros v Hv. apply in_win in Hv. destruct Hv as (w & _ & ->). apply Rabs_pos.
      - exact Z.
      - apply in_win. exists u. split; [lia|reflexivity]. }
    destruct (Req_EM_T (x u - x (u - q)%nat) 0) as [Q|Q]; [lra|]. now apply Rabs_no_R0 in Q. }
  destruct D as [(M & L & G) W]. split; [split; [exact M|split; [exact L|]]|exact W].
  intros i Hi. rewrite G by exact Hi. unfold fin. f_equal. apply F; [lia|]. intros j Hj. apply NZ. lia.
Qed.

Lemma kama_smoothing (fast slow e : R) : 0 <= fast <= slow -> 0 <= e <= 1 ->
  factor slow ^ 2 <= smoothing fast slow e <= factor fast ^ 2.
Proof. apply smoothing_range. Qed.

Lemma kama_chained (a : lineR) n k x p q fast slow sd :
  feeds a n k (fin x) -> (1 <= k)%nat -> (1 <= p)%nat -> (1 <= q)%nat -> fast + 1 <> 0 -> slow + 1 <> 0 ->
  kama p q (Fin fast) (Fin slow) sd a = Raise IndexError.
Proof.
  intros Ha Hk Hp Hq Hf Hs. unfold kama.
  assert (DS := @kama_sc_fin a n k x p q fast slow Ha Hp Hq Hf Hs).
  apply (@ewm_dyn_chained _ _ a _ n k (k + (p + q - 1)) p sd _ _ Ha (delivers_feeds DS)); lia.
Qed.

Lemma kama_short (a : lineR) n x p q fast slow sd :
  feeds a n 0 (fin x) -> (1 <= p)%nat -> (1 <= q)%nat -> fast + 1 <> 0 -> slow + 1 <> 0 ->
  (n < p + q - 1)%nat -> (sd = SEED_AVG \/ sd = SEED_LAST) ->
  kama p q (Fin fast) (Fin slow) sd a = Raise IndexError.
Proof.
  intros Ha Hp Hq Hf Hs Hn Hsd. unfold kama, ewm_dyn.
  assert (DS := @kama_sc_fin a n 0 x p q fast slow Ha Hp Hq Hf Hs). set (m := (p + q - 1)%nat) in *.
  rewrite (feeds_mp (delivers_feeds DS)). unfold ewm_call.
  rewrite (@mf_ewm_short _ _ a (Z.of_nat p) 0 0 (Z.of_nat (S (0 + m))) sd (Z.of_nat m) (m - 1)).
  - reflexivity.
  - cbn [Z.eqb]. replace (Z.of_nat p =? 0)%Z with false by (symmetry; apply Z.eqb_neq; lia).
    replace (Z.of_nat p <? Z.of_nat (S (0 + m)))%Z with true by (symmetry; apply Z.ltb_lt; lia).
    cbn [negb andb]. lia.
  - rewrite (feeds_mp Ha). lia.
  - rewrite (feeds_len Ha). lia.
  - tauto.
Qed.
