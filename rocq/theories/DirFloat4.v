(** The upper bound of ADX in float64. *)
From Coq Require Import ZArith Reals List Bool Lia Lra Psatz.
From Flocq Require Import Core IEEE754.BinarySingleNaN.
From Verif Require Import Num Series Line Spec RSpec LineFacts OpFacts ScanFacts RLineFacts RFacts MAFacts IndMA IndBasic IndRange IndOsc Float64 FloatSpec FloatFacts
  FloatAvg PropFloatFacts EmaFloat Running RunSpec RunMean DirFloat DirFloat2 DirFloat3.
Import ListNotations.
Set Implicit Arguments.
Local Open Scope R_scope.

Lemma smma_below B p (a : line float) n k f :
  bpow radix2 (-1000) <= B <= B900 -> (1 <= p)%nat -> (Z.of_nat p <= 2 ^ 46)%Z -> delivers a n k f -> (k + p <= n)%nat ->
  (forall i, (k <= i < n)%nat -> fwithin 0 B (f i)) ->
  exists y g, smma p a = Ok y /\ delivers y n (k + p - 1) g /\
    forall i, (k + p - 1 <= i < n)%nat -> fwithin 0 (B * (1 + 33 * INR p * ulp1)) (g i).
Proof.
  intros HM Hp H46 Da Hn Hf. pose proof (delivers_feeds Da) as Fa.
  set (x := fun i => val (f i)). set (q := (k + p - 1)%nat).
  set (e := fun i => es (1 / INR p) (Rmean (lastp x q p)) x q (i - q)).
  assert (P1 : 1 <= INR p) by (apply (le_INR 1); lia).
  assert (IS : is_smma p k x e).
  { split; [fold q; unfold e; now rewrite Nat.sub_diag|]. fold q. intros i Hi. unfold e. replace (S i - q)%nat with (S (i - q)) by lia.
    cbn [es]. replace (q + S (i - q))%nat with (S i) by lia. field. lra. }
  assert (SZ : forall i, (k <= i < n)%nat -> sized B (f i)).
  { intros i Hi. destruct (Hf i Hi) as [F V]. split; [exact F|]. rewrite Rabs_pos_eq; lra. }
  destruct (@smma_close B p HM Hp H46 a n k f Fa SZ e Hn IS) as (y & g & E & D & C).
  exists y, g. split; [exact E|]. split; [exact D|]. intros i Hi. destruct (C i Hi) as [F Bd]. split; [exact F|].
  assert (EV : every nonneg y).
  { refine (@nonneg_smma _ p a y Hp _ E). eapply delivers_every; [exact Da|exact I|]. intros j Hj. destruct (Hf j Hj) as [Fj Vj]. apply finite_nonneg; [exact Fj|apply Vj]. }
  assert (NN : nonneg (g i)).
  { unfold every in EV. rewrite Forall_forall in EV. apply EV. apply nth_error_In with i. apply D. exact Hi. }
  assert (H : 0 <= val (g i)).
  { apply nonneg_iff in NN. destruct NN as [M|[M|[_ M]]]; [| |exact M].
    - destruct (g i); discriminate.
    - rewrite M in F. discriminate F. }
  split; [exact H|].
  assert (W : 0 <= e i <= B).
  { refine (is_smma_within Hp IS _ _); [lia|]. intros j Hj. unfold x. apply (Hf j). lia. }
  apply Rabs_le_inv in Bd. lra.
Qed.

Lemma adx_below (high low close : line float) n k lb p w xh xl xc (early : bool) :
    feeds high n k xh -> feeds low n k xl -> feeds close n k xc ->
    (1 <= lb)%nat -> (1 <= p)%nat -> (Z.of_nat p <= 2 ^ 40)%Z -> (1 <= w)%nat -> (Z.of_nat w <= 2 ^ 46)%Z ->
    let first := if early then (k + lb + p - 1)%nat else (k + lb + p)%nat in
    (first + w <= n)%nat ->
    (forall i, (k <= i < n)%nat ->
       fwithin (- bpow radix2 899) (bpow radix2 899) (xh i) /\ fwithin (- bpow radix2 899) (bpow radix2 899) (xl i) /\
       fwithin (- bpow radix2 899) (bpow radix2 899) (xc i)) ->
    (forall i, (k <= i < n)%nat -> val (xl i) <= val (xc i) <= val (xh i)) ->
    let sm := smacc p early SEED_SUM : line float -> res (line float) in
    (forall x i v, dx sm lb high low close = Ok x -> (first <= i)%nat -> nth_error (lser x) i = Some v -> ~ missing v) ->
    exists y g, adx smma w sm lb high low close = Ok y /\ delivers y n (first + w - 1) g /\
      forall i, (first + w - 1 <= i < n)%nat -> fwithin 0 ((100 + bpow radix2 (-46)) * (1 + 33 * INR w * bpow radix2 (-53))) (g i).
Proof.
  intros Hh Hl Hc Hlb Hp H40 Hw H46 first Hn Ht Hb sm Hx.
  destruct (@di_range_float high low close n k lb p xh xl xc early Hh Hl Hc Hlb Hp H40 ltac:(fold first; lia) Ht Hb)
    as (pd & md & x & pf & mf & f & _ & _ & _ & Ex & _ & _ & Dx & Wx & _).
  fold first in Dx, Wx.
  destruct (@smma_below (100 + bpow radix2 (-46)) w x n first f) as (y & g & Ey & Dy & By); auto.
  - pose proof (bpow_ge_0 radix2 (-46)) as P. pose proof (bpow_le radix2 (-46) 0 ltac:(lia)) as P'. change (bpow radix2 0) with 1 in P'.
    pose proof (bpow_le radix2 (-1000) 0 ltac:(lia)) as Q. change (bpow radix2 0) with 1 in Q.
    pose proof (bpow_le radix2 7 900 ltac:(lia)) as Q'. change (bpow radix2 7) with 128 in Q'. lra.
  - intros i Hi. destruct (proj2 (Wx i Hi)) as [M|M]; [|exact M]. exfalso. apply (Hx x i (f i) Ex); [lia| |exact M]. apply Dx. exact Hi.
  - exists y, g. split; [|auto]. unfold adx. fold sm in Ex. now rewrite Ex.
Qed.
(** a feed that meets the hypotheses *)
Lemma rising_dx x i v : dx (smacc 14 false SEED_SUM) 1 (raw rising) (raw rising) (raw rising) = Ok x -> (15 <= i)%nat -> nth_error (lser x) i = Some v -> ~ missing v.
Proof.
  intros E Hi Ev M.
  assert (Q : match dx (smacc 14 false SEED_SUM) 1 (raw rising) (raw rising) (raw rising) with
    | Ok x => forallb (fun v => negb (is_nan v)) (skipn 15 (lser x)) | Raise _ => false end = true) by (vm_compute; reflexivity).
  rewrite E in Q. rewrite forallb_forall in Q. specialize (Q v).
  assert (I : In v (skipn 15 (lser x))).
  { apply nth_error_In with (i - 15)%nat. rewrite nth_error_skipn. now replace (15 + (i - 15))%nat with i by lia. }
  apply Q in I. unfold missing in M. rewrite M in I. discriminate.
Qed.
