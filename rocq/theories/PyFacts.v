(** Facts about the Python containers. *)
From Coq Require Import List String Bool Arith Lia.
From Verif Require Import Py.
Import ListNotations.
Set Implicit Arguments.

Section Dict.
  Context {V : Type}.
  Implicit Types d e : dict V.

  Lemma dget_dset_same : forall d k v, dget (dset d k v) k = Some v.
  Proof.
    induction d as [|[a b] d IH]; intros k v; cbn.
    - now rewrite String.eqb_refl.
    - destruct (String.eqb a k) eqn:E; cbn; rewrite E; auto.
  Qed.
  Lemma dget_dset_other : forall d k k' v, k' <> k -> dget (dset d k v) k' = dget d k'.
  Proof.
    induction d as [|[a b] d IH]; intros k k' v H; cbn.
    - destruct (String.eqb_spec k k'); [congruence|reflexivity].
    - destruct (String.eqb_spec a k); cbn.
      + destruct (String.eqb_spec a k'); [congruence|reflexivity].
      + destruct (String.eqb a k'); auto.
  Qed.
  Lemma dget_none : forall d k, dget d k = None <-> ~ In k (dkeys d).
  Proof.
    induction d as [|[a b] d IH]; intro k; cbn; [tauto|].
    destruct (String.eqb_spec a k) as [->|Hn].
    - split; [discriminate|]. intro H. exfalso. apply H. now left.
    - rewrite IH. tauto.
  Qed.
  Lemma dget_in : forall d k v, dget d k = Some v -> In (k, v) d.
  Proof.
    induction d as [|[a b] d IH]; intros k v; cbn; [discriminate|].
    destruct (String.eqb_spec a k) as [->|Hn]; intro H; [injection H as ->; now left|right; auto].
  Qed.
  Lemma dget_nodup : forall d k v, NoDup (dkeys d) -> In (k, v) d -> dget d k = Some v.
  Proof.
    induction d as [|[a b] d IH]; intros k v Hn Hi; cbn in *; [destruct Hi|]. inversion Hn; subst.
    destruct Hi as [Hi|Hi].
    - injection Hi as -> ->. now rewrite String.eqb_refl.
    - destruct (String.eqb_spec a k) as [->|]; [|now apply IH].
      exfalso. apply H1. apply (in_map fst) in Hi. exact Hi.
  Qed.
  Lemma dkeys_dset : forall d k v, In k (dkeys d) -> dkeys (dset d k v) = dkeys d.
  Proof.
    induction d as [|[a b] d IH]; intros k v H; cbn in *; [destruct H|].
    destruct (String.eqb_spec a k) as [->|Hn]; [reflexivity|]. cbn. f_equal. apply IH.
    destruct H; [congruence|assumption].
  Qed.
  Lemma dkeys_dset_new : forall d k v, ~ In k (dkeys d) -> dset d k v = d ++ [(k, v)].
  Proof.
    induction d as [|[a b] d IH]; intros k v H; cbn in *; [reflexivity|].
    destruct (String.eqb_spec a k) as [->|Hn]; [exfalso; auto|]. f_equal. apply IH. auto.
  Qed.
  Lemma dset_nodup : forall d k v, NoDup (dkeys d) -> NoDup (dkeys (dset d k v)).
  Proof.
    intros d k v H. destruct (in_dec string_dec k (dkeys d)) as [Hi|Hi].
    - now rewrite dkeys_dset.
    - rewrite dkeys_dset_new by exact Hi. unfold dkeys. rewrite map_app. cbn.
      assert (P : forall l : list string, NoDup l -> ~ In k l -> NoDup (l ++ [k])).
      { induction l as [|x l IH]; intros H1 H2; cbn.
        - constructor; [auto|constructor].
        - inversion H1; subst. constructor.
          + rewrite in_app_iff. cbn. intros [H3|[H3|[]]]; [contradiction|subst; apply H2; now left].
          + apply IH; auto. intro. apply H2. now right. }
      now apply P.
  Qed.
  Lemma in_dkeys_dset : forall d k v x, In x (dkeys (dset d k v)) <-> x = k \/ In x (dkeys d).
  Proof.
    induction d as [|[a b] d IH]; intros k v x; cbn.
    - intuition congruence.
    - destruct (String.eqb_spec a k) as [->|Hn]; cbn; [intuition congruence|].
      fold (dkeys (dset d k v)). rewrite IH. unfold dkeys. intuition congruence.
  Qed.

  Lemma dget_app : forall d e k, dget (d ++ e) k = match dget d k with Some v => Some v | None => dget e k end.
  Proof.
    induction d as [|[a b] d IH]; intros e k; cbn; [reflexivity|]. destruct (String.eqb a k); auto.
  Qed.

  Lemma dupdate_nodup : forall e d, NoDup (dkeys d) -> NoDup (dkeys (dupdate d e)).
  Proof.
    unfold dupdate. induction e as [|[a b] e IH]; intros d H; cbn; [exact H|]. apply IH. now apply dset_nodup.
  Qed.
  (** the update wins, the last entry for a key counts *)
  Lemma dget_dupdate : forall e d k,
    dget (dupdate d e) k = match dget (rev e) k with Some v => Some v | None => dget d k end.
  Proof.
    unfold dupdate. induction e as [|[a b] e IH]; intros d k; cbn; [reflexivity|].
    rewrite IH, dget_app. destruct (dget (rev e) k); [reflexivity|]. cbn.
    destruct (String.eqb_spec a k) as [->|Hn].
    - apply dget_dset_same.
    - apply dget_dset_other. congruence.
  Qed.
  Lemma dget_rev : forall d k, NoDup (dkeys d) -> dget (rev d) k = dget d k.
  Proof.
    intros d k H. destruct (dget d k) as [v|] eqn:E.
    - apply dget_nodup.
      + unfold dkeys. rewrite map_rev. now apply NoDup_rev.
      + rewrite <- in_rev. now apply dget_in.
    - apply dget_none. apply dget_none in E. unfold dkeys. rewrite map_rev, <- in_rev. exact E.
  Qed.
  Lemma dkeys_dupdate : forall e d, incl (dkeys e) (dkeys d) -> dkeys (dupdate d e) = dkeys d.
  Proof.
    unfold dupdate. induction e as [|[a b] e IH]; intros d H; cbn; [reflexivity|].
    cbn in H. etransitivity; [apply IH|].
    - intros x Hx. rewrite dkeys_dset; apply H; [now right|now left].
    - apply dkeys_dset. apply H. now left.
  Qed.
  Lemma dmem_spec : forall d k, dmem d k = true <-> In k (dkeys d).
  Proof.
    intros d k. unfold dmem. destruct (dget d k) eqn:E.
    - split; [intros _|reflexivity]. apply dget_in in E. now apply (in_map fst) in E.
    - apply dget_none in E. split; [discriminate|contradiction].
  Qed.
End Dict.

Lemma smem_spec : forall l x, smem x l = true <-> In x l.
Proof.
  intros. unfold smem. rewrite existsb_exists. split.
  - intros [y [H E]]. apply String.eqb_eq in E. now subst.
  - intro H. exists x. split; [exact H|apply String.eqb_refl].
Qed.
Lemma smem_false : forall l x, smem x l = false <-> ~ In x l.
Proof.
  intros. rewrite <- smem_spec. destruct (smem x l); intuition congruence.
Qed.
Lemma fromkeys_in : forall l seen x, In x (fromkeys_acc seen l) <-> In x l /\ ~ In x seen.
Proof.
  induction l as [|a l IH]; intros seen x; cbn; [tauto|].
  destruct (smem a seen) eqn:E.
  - apply smem_spec in E. rewrite IH. split; [tauto|]. intros [[->|H] H2]; [contradiction|tauto].
  - apply smem_false in E. cbn. rewrite IH. cbn. split.
    + intros [->|[H1 H2]]; [tauto|]. tauto.
    + intros [[->|H1] H2]; [tauto|]. destruct (string_dec a x); [tauto|]. right. split; [exact H1|].
      intros [H3|H3]; congruence.
Qed.
Lemma fromkeys_nodup : forall l seen, NoDup (fromkeys_acc seen l).
Proof.
  induction l as [|a l IH]; intro seen; cbn; [constructor|].
  destruct (smem a seen); [apply IH|]. constructor; [|apply IH].
  rewrite fromkeys_in. cbn. tauto.
Qed.
