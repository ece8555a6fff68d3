(** Real-valued facts about the Line API (C97 to C102). *)
From Coq Require Import ZArith List Bool Reals Lra Lia Permutation Sorted.
From Verif Require Import Num Series Line Spec RSpec LineFacts OpFacts RFacts RLineFacts BasicFacts CausalFacts WarmFacts
  Expr LineApi LineApiSpec StrictFacts LineApiFacts Strict.
Import ListNotations.
Local Open Scope R_scope.

Lemma delivered_fin x k n : delivered (fin x) k n = map Fin (delivered x k n).
Proof. unfold delivered, fin. now rewrite map_map. Qed.
Lemma since_fin x k i : since (fin x) k i = map Fin (since x k i).
Proof. unfold since, fin. now rewrite map_map. Qed.
Lemma delivered_nil {A} (x : nat -> A) k n : (k < n)%nat -> delivered x k n <> [].
Proof. unfold delivered. destruct (n - k)%nat eqn:E; [lia|]. cbn. congruence. Qed.

Lemma line_sum_fin a n k x : feeds a n k (fin x) -> line_sum a = Fin (Rsum (delivered x k n)).
Proof. intros H. unfold line_sum. rewrite (reduce_feeds _ H), delivered_fin. apply ser_sum_fin. Qed.
Lemma line_mean_fin a n k x :
  feeds a n k (fin x) -> (k < n)%nat -> line_mean a = Fin (Rmean (delivered x k n)).
Proof.
  intros H Hk. unfold line_mean. rewrite (reduce_feeds _ H), delivered_fin. apply ser_mean_fin. now apply delivered_nil.
Qed.
Lemma line_mean_empty (a : line (ext R)) n k x : feeds a n k (fin x) -> (n <= k)%nat -> line_mean a = NaN.
Proof.
  intros H Hk. unfold line_mean. rewrite (reduce_feeds _ H). unfold delivered. replace (n - k)%nat with 0%nat by lia.
  reflexivity.
Qed.
Lemma line_max_fin a n k x :
  feeds a n k (fin x) -> (k < n)%nat -> exists m, line_max a = Fin m /\ is_max m (delivered x k n).
Proof.
  intros H Hk. exists (lmax (delivered x k n)). split; [|now apply lmax_is, delivered_nil].
  unfold line_max. rewrite (reduce_feeds _ H), delivered_fin. unfold ser_max. rewrite notnan_fin.
  apply win_max_fin. now apply delivered_nil.
Qed.
Lemma line_min_fin a n k x :
  feeds a n k (fin x) -> (k < n)%nat -> exists m, line_min a = Fin m /\ is_min m (delivered x k n).
Proof.
  intros H Hk. exists (lmin (delivered x k n)). split; [|now apply lmin_is, delivered_nil].
  unfold line_min. rewrite (reduce_feeds _ H), delivered_fin. unfold ser_min. rewrite notnan_fin.
  apply win_min_fin. now apply delivered_nil.
Qed.
Lemma map2_mul_fin l m : map2 vmul (map (@Fin R) l) (map Fin m) = map Fin (map (fun '(a, b) => a * b) (combine l m)).
Proof.
  revert m. induction l as [|a l IH]; intros [|b m]; try reflexivity.
  cbn [map map2 combine]. now rewrite vmul_fin, IH.
Qed.
Lemma line_dot_fin a b n ka kb x y :
  feeds a n ka (fin x) -> feeds b n kb (fin y) ->
  line_dot a b = Fin (Rdot (delivered x (Nat.max ka kb) n) (delivered y (Nat.max ka kb) n)).
Proof.
  intros H1 H2. unfold line_dot. rewrite (reduce2_feeds _ H1 H2), !delivered_fin. unfold ser_dot, Rdot.
  now rewrite map2_mul_fin, vsum_fin.
Qed.
Lemma same_fin a b : same (Fin a) (Fin b) = true <-> a = b.
Proof.
  unfold same. rewrite !visnan_fin, veqb_fin. cbn [andb]. rewrite orb_false_r.
  destruct (beqb_spec a b); split; intros; congruence.
Qed.
Lemma ser_equals_fin l m : ser_equals (map (@Fin R) l) (map Fin m) = true <-> l = m.
Proof.
  revert m. induction l as [|a l IH]; intros [|b m]; cbn [map ser_equals]; try (split; congruence).
  rewrite andb_true_iff, same_fin, IH. split; [intros [-> ->]; reflexivity|intros E; inversion E; auto].
Qed.
Lemma delivered_eq {A} (x y : nat -> A) k n :
  delivered x k n = delivered y k n <-> forall i, (k <= i < n)%nat -> x i = y i.
Proof.
  unfold delivered. split.
  - intros E i Hi. assert (E' := f_equal (fun l => nth_error l (i - k)%nat) E). cbn beta in E'.
    rewrite !nth_error_map_seq in E' by lia. replace (k + (i - k))%nat with i in E' by lia. congruence.
  - intros H. apply map_ext_seq. intros i Hi. apply H. lia.
Qed.
Lemma line_equals_fin a b n ka kb x y :
  feeds a n ka (fin x) -> feeds b n kb (fin y) ->
  (line_equals a b = true <-> forall i, (Nat.max ka kb <= i < n)%nat -> x i = y i).
Proof.
  intros H1 H2. unfold line_equals. rewrite (reduce2_feeds _ H1 H2), !delivered_fin, ser_equals_fin.
  apply delivered_eq.
Qed.

(** *** sorted selections *)
Section Sort.
  Variable before : R -> R -> bool.
  Fixpoint insR (x : R) (s : list R) : list R :=
    match s with [] => [x] | y :: s' => if before y x then y :: insR x s' else x :: s end.
  Definition sortR (s : list R) : list R := fold_right insR [] s.
  Lemma insR_perm x s : Permutation (x :: s) (insR x s).
  Proof.
    induction s as [|y s IH]; [reflexivity|]. cbn [insR]. destruct (before y x); [|reflexivity].
    rewrite perm_swap. now constructor.
  Qed.
  Lemma sortR_perm s : Permutation s (sortR s).
  Proof.
    induction s as [|x s IH]; [reflexivity|]. cbn. rewrite <- insR_perm. now constructor.
  Qed.
  Variable le : R -> R -> Prop.
  Hypothesis Hb1 : forall x y, before y x = true -> le y x.
  Hypothesis Hb2 : forall x y, before y x = false -> le x y.
  Hypothesis Htr : forall x y z, le x y -> le y z -> le x z.
  Lemma insR_sorted x s : StronglySorted le s -> StronglySorted le (insR x s).
  Proof.
    induction s as [|y s IH]; intros S; [cbn; constructor; constructor|].
    inversion S as [|? ? S' F]; subst. cbn [insR]. destruct (before y x) eqn:E.
    - constructor; [now apply IH|]. apply (Permutation_Forall (insR_perm x s)). constructor; [now apply Hb1|exact F].
    - constructor; [exact S|]. constructor; [now apply Hb2|].
      eapply Forall_impl; [|exact F]. intros z Hz. exact (Htr x y z (Hb2 x y E) Hz).
  Qed.
  Lemma sortR_sorted s : StronglySorted le (sortR s).
  Proof. induction s as [|x s IH]; cbn; [constructor|now apply insR_sorted]. Qed.
End Sort.

Lemma insert_by_fin B before x s :
  (forall a b, B (Fin a) (Fin b) = before a b) ->
  insert_by B (Fin x) (map (@Fin R) s) = map Fin (insR before x s).
Proof.
  intros H. induction s as [|y s IH]; [reflexivity|]. cbn [map insert_by insR]. rewrite H.
  destruct (before y x); cbn [map]; [now rewrite IH|reflexivity].
Qed.
Lemma sort_by_fin B before s :
  (forall a b, B (Fin a) (Fin b) = before a b) -> sort_by B (map (@Fin R) s) = map Fin (sortR before s).
Proof.
  intros H. induction s as [|x s IH]; [reflexivity|]. cbn. unfold sort_by in IH. rewrite IH. now apply insert_by_fin.
Qed.
Lemma sorted_nth (le : R -> R -> Prop) l i j a b :
  (forall x, le x x) -> StronglySorted le l -> (i <= j)%nat -> nth_error l i = Some a -> nth_error l j = Some b -> le a b.
Proof.
  intros Hr S. revert i j. induction S as [|x l S IH F]; intros i j Hij E1 E2; [destruct i; discriminate E1|].
  destruct i as [|i], j as [|j]; cbn in E1, E2; try lia.
  - inversion E1; inversion E2; subst. apply Hr.
  - inversion E1; subst. rewrite Forall_forall in F. apply F. eapply nth_error_In; exact E2.
  - apply (IH i j); [lia|exact E1|exact E2].
Qed.

Lemma ranked_ok (sel : list (ext R) -> list (ext R)) before (le : R -> R -> Prop) (a : line (ext R)) n k x :
  (forall s, sel (map Fin s) = firstn (n - k) (map Fin (sortR before s))) ->
  (forall x, le x x) -> (forall s, StronglySorted le (sortR before s)) ->
  feeds a n k (fin x) -> (k < n)%nat ->
  exists y g, std_any (fun s => Ok (sel s)) a = Ok y /\ delivers y n k (fin g) /\
    Permutation (delivered g k n) (delivered x k n) /\
    forall i j, (k <= i <= j)%nat -> (j < n)%nat -> le (g i) (g j).
Proof.
  intros Hs Hr Hso H Hk.
  set (r := sortR before (delivered x k n)).
  assert (Lr : length r = (n - k)%nat).
  { unfold r. rewrite <- (Permutation_length (sortR_perm before _)). apply delivered_length. }
  assert (E : sel (delivered (fin x) k n) = map Fin r).
  { rewrite delivered_fin, Hs. fold r. apply firstn_all2. now rewrite map_length, Lr. }
  destruct (@std_any_ok _ _ (fun s => Ok (sel s)) a n k (fin x) (map Fin r) H Hk) as (y & Y & D).
  { now rewrite E. }
  { now rewrite map_length. }
  exists y, (fun i => nth (i - k) r 0). split; [exact Y|]. split; [|split].
  - revert D. apply delivers_ext. intros i Hi. unfold fin.
    rewrite (nth_indep _ vnan (Fin 0)) by (rewrite map_length; lia). apply map_nth.
  - assert (Er : delivered (fun i => nth (i - k) r 0) k n = r).
    { unfold delivered. apply nth_error_ext; [rewrite map_length, seq_length; lia|].
      intros i Hi. rewrite map_length, seq_length in Hi. rewrite nth_error_map_seq by lia.
      replace (k + i - k)%nat with i by lia. symmetry. apply nth_error_nth'. lia. }
    rewrite Er. symmetry. apply sortR_perm.
  - intros i j Hij Hj. apply (@sorted_nth le r (i - k) (j - k)); [exact Hr|apply Hso|lia| |];
      apply nth_error_nth'; lia.
Qed.

Lemma line_nlargest_ok (a : line (ext R)) n k x m :
  feeds a n k (fin x) -> (k < n)%nat -> (n - k <= m)%nat ->
  exists y g, line_nlargest (Z.of_nat m) a = Ok y /\ delivers y n k (fin g) /\
    Permutation (delivered g k n) (delivered x k n) /\
    forall i j, (k <= i <= j)%nat -> (j < n)%nat -> g j <= g i.
Proof.
  intros H Hk Hm. unfold line_nlargest.
  destruct (@ranked_ok (fun s => firstn (n - k) (sort_by (fun y x => vltb x y) (notnan s)))
              (fun y x => Rltb x y) (fun u v => v <= u) a n k x) as (y & g & Y & R); auto.
  - intros s. rewrite notnan_fin. rewrite (@sort_by_fin _ (fun y x => Rltb x y)); [reflexivity|].
    intros u v. apply vltb_fin.
  - intros; lra.
  - intros s. apply sortR_sorted.
    + intros u v E. apply Rltb_true in E. lra.
    + intros u v E. apply Rltb_false in E. lra.
    + intros; lra.
  - exists y, g. split; [|exact R]. rewrite <- Y. unfold std_any.
    fold (mpseries a). rewrite (mpseries_feeds H), delivered_fin. cbn [bind]. unfold ser_nlargest. rewrite notnan_fin, Nat2Z.id.
    rewrite (@sort_by_fin _ (fun y x => Rltb x y)) by (intros u v; apply vltb_fin).
    rewrite !firstn_all2; [reflexivity| |]; rewrite map_length, <- (Permutation_length (sortR_perm _ _)), delivered_length; lia.
Qed.
Lemma line_nsmallest_ok (a : line (ext R)) n k x m :
  feeds a n k (fin x) -> (k < n)%nat -> (n - k <= m)%nat ->
  exists y g, line_nsmallest (Z.of_nat m) a = Ok y /\ delivers y n k (fin g) /\
    Permutation (delivered g k n) (delivered x k n) /\
    forall i j, (k <= i <= j)%nat -> (j < n)%nat -> g i <= g j.
Proof.
  intros H Hk Hm. unfold line_nsmallest.
  destruct (@ranked_ok (fun s => firstn (n - k) (sort_by (fun y x => vltb y x) (notnan s)))
              (fun y x => Rltb y x) (fun u v => u <= v) a n k x) as (y & g & Y & R); auto.
  - intros s. rewrite notnan_fin. rewrite (@sort_by_fin _ (fun y x => Rltb y x)); [reflexivity|].
    intros u v. apply vltb_fin.
  - intros; lra.
  - intros s. apply sortR_sorted.
    + intros u v E. apply Rltb_true in E. lra.
    + intros u v E. apply Rltb_false in E. lra.
    + intros; lra.
  - exists y, g. split; [|exact R]. rewrite <- Y. unfold std_any.
    fold (mpseries a). rewrite (mpseries_feeds H), delivered_fin. cbn [bind]. unfold ser_nsmallest. rewrite notnan_fin, Nat2Z.id.
    rewrite (@sort_by_fin _ (fun y x => Rltb y x)) by (intros u v; apply vltb_fin).
    rewrite !firstn_all2; [reflexivity| |]; rewrite map_length, <- (Permutation_length (sortR_perm _ _)), delivered_length; lia.
Qed.
Lemma line_nlargest_bad (a : line (ext R)) n k x m :
  feeds a n k (fin x) -> (m < n - k)%nat ->
  line_nlargest (Z.of_nat m) a = Raise ValueError /\ line_nsmallest (Z.of_nat m) a = Raise ValueError.
Proof.
  intros H Hm. split; (eapply std_any_bad; [exact H|lia|reflexivity|]).
  - unfold ser_nlargest. rewrite Nat2Z.id, firstn_length. lia.
  - unfold ser_nsmallest. rewrite Nat2Z.id, firstn_length. lia.
Qed.

(** *** expanding windows *)
Lemma exp_val_fin G x k i m :
  (k + m - 1 <= i)%nat -> (k <= i)%nat -> exp_val m G (fin x) k i = G (map Fin (since x k i)).
Proof.
  intros Hi Hk. unfold exp_val. cbv zeta. rewrite since_fin, prep_map_fin, notnan_fin, map_length, since_length.
  destruct (Nat.ltb_spec (S i - k) (Nat.max m 1)); [lia|reflexivity].
Qed.
Lemma expanding_fin m pos G a n k x :
  (1 <= m)%nat -> feeds a n k (fin x) ->
  exists y, expanding (Some m) pos G a = Ok y /\ delivers y n (k + m - 1) (fun i => G (map Fin (since x k i))).
Proof.
  intros Hm H. destruct (expanding_kw pos G Hm H) as (y & Y & D). exists y. split; [exact Y|].
  revert D. apply delivers_ext. intros i Hi. apply exp_val_fin; lia.
Qed.
Lemma expanding_default G a n k x :
  feeds a n k (fin x) ->
  exists y, expanding None 1 G a = Ok y /\ delivers y n k (fun i => G (map Fin (since x k i))).
Proof.
  intros H. destruct (expanding_pos 1 G H) as (y & Y & D). exists y. split; [exact Y|].
  revert D. apply delivers_ext. intros i Hi. apply exp_val_fin; lia.
Qed.
Lemma expanding_positional G a n k (x : nat -> R) m :
  feeds a n k (fin x) ->
  exists y, expanding None m G a = Ok y /\
    delivers y n k (fun i => if (i <? k + m - 1)%nat then NaN else G (map Fin (since x k i))).
Proof.
  intros H. destruct (expanding_pos m G H) as (y & Y & D). exists y. split; [exact Y|].
  revert D. apply delivers_ext. intros i Hi. destruct (Nat.ltb_spec i (k + m - 1)).
  - unfold exp_val. cbv zeta. rewrite since_fin, prep_map_fin, notnan_fin, map_length, since_length.
    destruct (Nat.ltb_spec (S i - k) (Nat.max m 1)); [reflexivity|lia].
  - apply exp_val_fin; lia.
Qed.
(** missing values do not count *)
Lemma present_numbers (l : list (ext R)) : notnan (map prep l) = map Fin (flat_map (fun v => match v with Fin r => [r] | _ => [] end) l).
Proof. induction l as [|[| | |r] l IH]; [reflexivity|exact IH|exact IH|exact IH|]. cbn. f_equal. exact IH. Qed.
Lemma expanding_missing m pos G (a : line (ext R)) n k f :
  (1 <= m)%nat -> feeds a n k f ->
  exists y, expanding (Some m) pos G a = Ok y /\
    delivers y n (k + m - 1) (fun i =>
      let numbers := flat_map (fun v => match v with Fin r => [r] | _ => [] end) (since f k i) in
      if (length numbers <? m)%nat then NaN else G (map Fin numbers)).
Proof.
  intros Hm H. destruct (expanding_kw pos G Hm H) as (y & Y & D). exists y. split; [exact Y|].
  revert D. apply delivers_ext. intros i Hi. unfold exp_val. cbv zeta. rewrite present_numbers, map_length.
  replace (Nat.max m 1) with m by lia. reflexivity.
Qed.
Lemma since_nil {A} (x : nat -> A) k i : (k <= i)%nat -> since x k i <> [].
Proof. unfold since. destruct (S i - k)%nat eqn:E; [lia|]. cbn. congruence. Qed.
Lemma expanding_mean m pos a n k x :
  (1 <= m)%nat -> feeds a n k (fin x) ->
  exists y, expanding (Some m) pos win_mean a = Ok y /\
    delivers y n (k + m - 1) (fin (fun i => Rmean (since x k i))).
Proof.
  intros Hm H. destruct (expanding_fin m pos win_mean a n k x Hm H) as (y & Y & D). exists y. split; [exact Y|].
  revert D. apply delivers_ext. intros i Hi. unfold fin. apply win_mean_fin. apply since_nil. lia.
Qed.
Lemma expanding_sum m pos a n k x :
  (1 <= m)%nat -> feeds a n k (fin x) ->
  exists y, expanding (Some m) pos win_sum a = Ok y /\
    delivers y n (k + m - 1) (fin (fun i => Rsum (since x k i))).
Proof.
  intros Hm H. destruct (expanding_fin m pos win_sum a n k x Hm H) as (y & Y & D). exists y. split; [exact Y|].
  revert D. apply delivers_ext. intros i Hi. unfold fin. apply vsum_fin.
Qed.
Lemma expanding_max m pos a n k x :
  (1 <= m)%nat -> feeds a n k (fin x) ->
  exists y h, expanding (Some m) pos win_max a = Ok y /\ delivers y n (k + m - 1) (fin h) /\
    forall i, (k <= i)%nat -> is_max (h i) (since x k i).
Proof.
  intros Hm H. destruct (expanding_fin m pos win_max a n k x Hm H) as (y & Y & D). exists y, (fun i => lmax (since x k i)).
  split; [exact Y|]. split; [|intros i Hi; now apply lmax_is, since_nil].
  revert D. apply delivers_ext. intros i Hi. unfold fin. apply win_max_fin. apply since_nil. lia.
Qed.

(** *** short histories *)
Section Short.
  Context {V : Type} {N : Num V}.
  Variables (env : list (line V)) (n : nat) (mps : nat -> Z).
  Hypothesis HN : nan_laws N.
  Hypothesis Henv : forall v l, nth_error env v = Some l -> lmp l = mps v /\ (1 <= lmp l)%Z /\ length (lser l) = n.

  Lemma long_enough e : (n = 0%nat \/ (needs mps e <= Z.of_nat n)%Z) -> seval env e = eval env e.
  Proof. exact (proj1 (seval_fits HN env mps Henv) e). Qed.
  Lemma too_short e : (1 <= n)%nat -> (Z.of_nat n < needs mps e)%Z -> exists x, seval env e = Raise x.
  Proof. intros Hn. exact (proj1 (seval_short HN env mps Henv Hn) e). Qed.
  Lemma declared_enough e :
    (forall v, (1 <= mps v)%Z) -> (look mps e - 1 <= Z.of_nat n)%Z -> seval env e = eval env e.
  Proof.
    intros Hm H. apply long_enough. right. generalize (proj1 (needs_look (V:=V) mps) e Hm). lia.
  Qed.
End Short.

(** a moving window alone gives NaN, a difference of two of them fails *)
Lemma window_short {V} (N : Num V) (s : list V) w G H op :
  (1 <= length s < w)%nat ->
  seval [raw s] (ERoll w G (EIn 0)) = Ok (mkLine (Z.of_nat (S w)) (repeat vnan (length s))) /\
  seval [raw s] (EBin op (ERoll w G (EIn 0)) (ERoll w H (EIn 0))) = Raise ValueError.
Proof.
  intros Hn.
  assert (L0 : L (length s) 0 (raw s)) by (split; reflexivity).
  assert (E : forall K, unary (ser_rolling (S w) K) (Z.of_nat w) (raw s) =
                        Ok (mkLine (Z.of_nat (S w)) (repeat vnan (length s)))).
  { intros K. rewrite (@unary_fits V N (length s) _ _ (raw s) 0 L0 (proj1 (causal_rolling (S w) K))) by (right; lia).
    f_equal. cbn [lmp raw lser]. f_equal; [lia|]. change (1 - 1)%Z with (Z.of_nat 0). rewrite slice_from_nat. change (skipn 0 s) with s. unfold nans.
    rewrite set_from_nat by lia. cbn [repeat app]. unfold ser_rolling.
    apply nth_error_ext; [now rewrite map_length, seq_length, repeat_length|].
    intros i Hi. rewrite map_length, seq_length in Hi. rewrite nth_error_map_seq, nth_error_repeat_ok by lia.
    cbn [Nat.add]. destruct (Nat.ltb_spec (S i) (S w)); [reflexivity|lia]. }
  cbn [seval nth_error bind]. rewrite !E. cbn [bind]. split; [reflexivity|].
  apply (@binary_short V N (length s) op _ _ w w); try lia; split; cbn [lmp lser]; try reflexivity; apply repeat_length.
Qed.
