(** Lemmas used to close the theorems of Prop_MA.v. *)
From Coq Require Import ZArith List Bool Lia Arith Reals Lra.
From Verif Require Import Num Series Line Spec RSpec LineFacts ScanFacts RFacts IndMA MAFacts.
Import ListNotations.
Set Implicit Arguments.
Local Open Scope R_scope.

Lemma Rmean_const l c : l <> [] -> (forall v, In v l -> v = c) -> Rmean l = c.
Proof.
  intros Hl H. destruct (@Rmean_bounds l c c Hl) as [H1 H2]; [|lra].
  intros v Hv. rewrite (H v Hv). lra.
Qed.

Lemma within_const x k i c : (forall j, (k <= j)%nat -> x j = c) -> within x k i c c.
Proof. intros H j Hj. rewrite H by lia. lra. Qed.

Lemma is_ema_const p k x e c :
  (1 <= p)%nat -> is_ema p k x e -> (forall j, (k <= j)%nat -> x j = c) ->
  forall i, (k + (p - 1) <= i)%nat -> e i = c.
Proof.
  intros Hp He Hx i Hi.
  destruct (@is_ema_within p k x e i c c Hp He ltac:(lia) (@within_const x k i c Hx)) as [H1 H2]. lra.
Qed.

Lemma lastp_const x k i p c :
  (k + p <= S i)%nat -> (forall j, (k <= j)%nat -> x j = c) -> forall v, In v (lastp x i p) -> v = c.
Proof. intros Hi Hx v Hv. apply in_win in Hv. destruct Hv as (j & Hj & ->). apply Hx. lia. Qed.

Section Const.
  Variables (a : lineR) (n k : nat) (x : nat -> R) (p : nat) (c : R).
  Hypothesis Ha : feeds a n k (fin x).
  Hypothesis Hp : (1 <= p)%nat.
  Hypothesis Hx : forall j, (k <= j)%nat -> x j = c.

  Lemma sma_const : delivers (sma p a) n (k + p - 1) (fin (fun _ => c)).
  Proof.
    eapply delivers_ext; [|apply sma_fin; eauto]. intros i Hi. unfold fin. f_equal.
    apply Rmean_const; [now apply win_nonnil|]. eapply lastp_const; eauto. lia.
  Qed.

  Lemma wma_const : delivers (wma p a) n (k + p - 1) (fin (fun _ => c)).
  Proof.
    eapply delivers_ext; [|apply wma_fin; eauto]. intros i Hi. unfold fin. f_equal.
    assert (H : c <= wmean (map INR (seq 1 p)) (lastp x i p) <= c); [|lra].
    apply wmean_bounds.
    - rewrite map_length, seq_length. unfold lastp. now rewrite win_length.
    - intros v Hv. apply in_map_iff in Hv. destruct Hv as (j & <- & Hj). apply in_seq in Hj.
      apply INR_pos. lia.
    - now apply win_nonnil.
    - intros v Hv. rewrite (@lastp_const x k i p c ltac:(lia) Hx v Hv). lra.
  Qed.

  Lemma ema_const : (k + p <= n)%nat ->
    exists y, ema p a = Ok y /\ delivers y n (k + p - 1) (fin (fun _ => c)).
  Proof.
    intro Hn. destruct (ema_fin Ha Hp Hn) as (y & e & E & S & D). exists y. split; auto.
    eapply delivers_ext; [|exact D]. intros i Hi. unfold fin. f_equal.
    eapply is_ema_const; eauto. lia.
  Qed.

  Lemma smma_const : (k + p <= n)%nat ->
    exists y, smma p a = Ok y /\ delivers y n (k + p - 1) (fin (fun _ => c)).
  Proof.
    intro Hn. destruct (smma_fin Ha Hp Hn) as (y & e & E & S & D). exists y. split; auto.
    eapply delivers_ext; [|exact D]. intros i Hi. unfold fin. f_equal.
    destruct (@is_smma_within p k x e i c c Hp S ltac:(lia) (@within_const x k i c Hx)) as [H1 H2]. lra.
  Qed.

  Lemma dema_const : (k + 2 * (p - 1) + 1 <= n)%nat ->
    exists y, dema ema p a = Ok y /\ delivers y n (k + 2 * (p - 1)) (fin (fun _ => c)).
  Proof.
    intro Hn. destruct (dema_fin Ha Hp Hn) as (y & e1 & e2 & E & S1 & S2 & D). exists y. split; auto.
    pose proof (is_ema_const Hp S1 Hx) as C1. pose proof (is_ema_const Hp S2 C1) as C2.
    eapply delivers_ext; [|exact D]. intros i Hi. unfold fin. f_equal.
    rewrite C1, C2 by lia. lra.
  Qed.

  Lemma tema_const : (k + 3 * (p - 1) + 1 <= n)%nat ->
    exists y, tema ema p a = Ok y /\ delivers y n (k + 3 * (p - 1)) (fin (fun _ => c)).
  Proof.
    intro Hn. destruct (tema_fin Ha Hp Hn) as (y & e1 & e2 & e3 & E & S1 & S2 & S3 & D).
    exists y. split; auto.
    pose proof (is_ema_const Hp S1 Hx) as C1. pose proof (is_ema_const Hp S2 C1) as C2.
    replace (k + 2 * (p - 1))%nat with (k + (p - 1) + (p - 1))%nat in S3 by lia.
    pose proof (is_ema_const Hp S3 C2) as C3.
    eapply delivers_ext; [|exact D]. intros i Hi. unfold fin. f_equal.
    rewrite C1, C2, C3 by lia. lra.
  Qed.

  Lemma gdema_const v : (k + 2 * (p - 1) + 1 <= n)%nat ->
    exists y, gdema ema p (Fin v) a = Ok y /\ delivers y n (k + 2 * (p - 1)) (fin (fun _ => c)).
  Proof.
    intro Hn. destruct (gdema_fin v Ha Hp Hn) as (y & e1 & e2 & E & S1 & S2 & D). exists y. split; auto.
    pose proof (is_ema_const Hp S1 Hx) as C1. pose proof (is_ema_const Hp S2 C1) as C2.
    eapply delivers_ext; [|exact D]. intros i Hi. unfold fin. f_equal.
    rewrite C1, C2 by lia. lra.
  Qed.

  Lemma t3_const v : (k + 6 * (p - 1) + 1 <= n)%nat ->
    exists y, t3 p (Fin v) a = Ok y /\ delivers y n (k + 6 * (p - 1)) (fin (fun _ => c)).
  Proof.
    intro Hn. destruct (t3_fin v Ha Hp Hn)
      as (y & e1 & e2 & e3 & e4 & e5 & e6 & E & S1 & S2 & S3 & S4 & S5 & S6 & D).
    exists y. split; auto.
    pose proof (is_ema_const Hp S1 Hx) as C1. pose proof (is_ema_const Hp S2 C1) as C2.
    replace (k + 2 * (p - 1))%nat with (k + (p - 1) + (p - 1))%nat in S3 by lia.
    pose proof (is_ema_const Hp S3 C2) as C3.
    replace (k + 3 * (p - 1))%nat with (k + (p - 1) + (p - 1) + (p - 1))%nat in S4 by lia.
    pose proof (is_ema_const Hp S4 C3) as C4.
    replace (k + 4 * (p - 1))%nat with (k + (p - 1) + (p - 1) + (p - 1) + (p - 1))%nat in S5 by lia.
    pose proof (is_ema_const Hp S5 C4) as C5.
    replace (k + 5 * (p - 1))%nat with (k + (p - 1) + (p - 1) + (p - 1) + (p - 1) + (p - 1))%nat in S6 by lia.
    pose proof (is_ema_const Hp S6 C5) as C6.
    eapply delivers_ext; [|exact D]. intros i Hi. unfold fin. f_equal.
    rewrite C3, C4, C5, C6 by lia. lra.
  Qed.

  Lemma trima_const : delivers (trima p a) n (k + p - 1) (fin (fun _ => c)).
  Proof.
    destruct (trima_fin Ha Hp) as (p1 & p2 & H1 & H2 & H3 & H4 & D).
    eapply delivers_ext; [|exact D]. intros i Hi. unfold fin. f_equal.
    apply Rmean_const; [now apply win_nonnil|]. intros v Hv.
    eapply (@lastp_const _ (k + p2 - 1)%nat) in Hv; eauto; [lia|].
    intros j Hj. apply Rmean_const; [now apply win_nonnil|]. eapply lastp_const; eauto. lia.
  Qed.
End Const.

(** trima stays within the last [p] values *)
Lemma trima_within (a : lineR) n k x p :
  feeds a n k (fin x) -> (1 <= p)%nat ->
  exists t, delivers (trima p a) n (k + p - 1) (fin t) /\
    forall i lo hi, (k + p - 1 <= i)%nat ->
      (forall v, In v (lastp x i p) -> lo <= v <= hi) -> lo <= t i <= hi.
Proof.
  intros Ha Hp. destruct (trima_fin Ha Hp) as (p1 & p2 & H1 & H2 & H3 & H4 & D).
  eexists. split; [exact D|]. intros i lo hi Hi Hb. cbv beta.
  apply Rmean_bounds; [now apply win_nonnil|]. intros v Hv.
  apply in_win in Hv. destruct Hv as (j & Hj & ->).
  apply Rmean_bounds; [now apply win_nonnil|]. intros v Hv.
  apply in_win in Hv. destruct Hv as (j2 & Hj2 & ->).
  apply Hb. apply in_win. exists j2. split; auto. lia.
Qed.

(** convexity of wma over its window *)
Lemma wma_convex (a : lineR) n k x p :
  feeds a n k (fin x) -> (1 <= p)%nat ->
  delivers (wma p a) n (k + p - 1)
    (fin (fun i => wmean (map INR (seq 1 p)) (lastp x i p))) /\
  forall i lo hi, (forall v, In v (lastp x i p) -> lo <= v <= hi) ->
    lo <= wmean (map INR (seq 1 p)) (lastp x i p) <= hi.
Proof.
  intros Ha Hp. split; [now apply wma_fin|]. intros i lo hi Hb. apply wmean_bounds; auto.
  - rewrite map_length, seq_length. unfold lastp. now rewrite win_length.
  - intros v Hv. apply in_map_iff in Hv. destruct Hv as (j & <- & Hj). apply in_seq in Hj.
    apply INR_pos. lia.
  - now apply win_nonnil.
Qed.

Lemma ema_full_spec (a : lineR) n k x p :
  feeds a n k (fin x) -> (1 <= p)%nat -> (k + p <= n)%nat ->
  exists y e, ema p a = Ok y /\ is_ema p k x e /\ delivers y n (k + p - 1) (fin e) /\
    forall i lo hi, (k + p - 1 <= i)%nat -> within x k i lo hi -> lo <= e i <= hi.
Proof.
  intros Ha Hp Hn. destruct (ema_fin Ha Hp Hn) as (y & e & E & S & D).
  exists y, e. repeat (split; [assumption|]). intros. eapply is_ema_within; eauto.
Qed.

Lemma smma_full_spec (a : lineR) n k x p :
  feeds a n k (fin x) -> (1 <= p)%nat -> (k + p <= n)%nat ->
  exists y e, smma p a = Ok y /\ is_smma p k x e /\ delivers y n (k + p - 1) (fin e) /\
    forall i lo hi, (k + p - 1 <= i)%nat -> within x k i lo hi -> lo <= e i <= hi.
Proof.
  intros Ha Hp Hn. destruct (smma_fin Ha Hp Hn) as (y & e & E & S & D).
  exists y, e. repeat (split; [assumption|]). intros. eapply is_smma_within; eauto.
Qed.

(** short histories *)
Lemma sma_short {V} {N : Num V} (a : line V) n k f p :
  feeds a n k f -> (1 <= p)%nat -> (n < k + p)%nat ->
  lser (sma p a) = repeat vnan n.
Proof.
  intros Ha Hp Hn. destruct (rolling_delivers win_mean Hp Ha) as [(_ & Hl & _) Hd].
  apply nth_error_ext; [now rewrite repeat_length|].
  intros i Hi. unfold sma in *. rewrite Hl in Hi. rewrite Hd by lia. symmetry.
  now apply nth_error_repeat_ok.
Qed.
Lemma wma_short {V} {N : Num V} (a : line V) n k f p :
  feeds a n k f -> (1 <= p)%nat -> (n < k + p)%nat ->
  lser (wma p a) = repeat vnan n.
Proof.
  intros Ha Hp Hn. pose proof (delivers_feeds (rolling_delivers win_wma Hp Ha)) as Hr.
  unfold wma. set (c := vdiv _ _).
  destruct (rbinop_s_delivers vmul c Hr) as [(_ & Hl & _) Hd].
  apply nth_error_ext; [now rewrite repeat_length|].
  intros i Hi. rewrite Hl in Hi. rewrite Hd by lia. symmetry.
  now apply nth_error_repeat_ok.
Qed.

Lemma ema_short {V} {N : Num V} (a : line V) n k f p :
  feeds a n k f -> (1 <= p)%nat -> (n < k + p)%nat ->
  ema p a = Raise IndexError /\ smma p a = Raise IndexError.
Proof.
  intros Ha Hp Hn. split.
  - unfold ema, ema_full, ewm_span. eapply ewm_short; eauto; lia.
  - unfold smma, smma_seed, ewm_com. eapply ewm_short; eauto; lia.
Qed.
