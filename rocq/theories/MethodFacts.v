(** Proofs about MethodArgs.v. *)
From Coq Require Import ZArith String List Bool Lia Arith.
From Verif Require Import Num Series Line Spec LineApiSpec Py LinesGen Holder Operand OperandSpec LineFacts LineApi Apply StrictFacts
  LineApiFacts ApplyAny ApplySpec ApplyFacts MethodArgs MethodSpec.
Import ListNotations.
Set Implicit Arguments.
Local Open Scope nat_scope.

Lemma smem_in (s : string) l : existsb (String.eqb s) l = true <-> In s l.
Proof.
  rewrite existsb_exists. split.
  - intros (x & H & E). apply String.eqb_eq in E. now subst.
  - intro H. exists s. split; [exact H|apply String.eqb_refl].
Qed.
Lemma table_flags name : In name (map fst std_table) ->
  dget std_table name = Some (existsb (String.eqb name) by_position, existsb (String.eqb name) by_keyword).
Proof. intro H. cbn in H. repeat (destruct H as [<-|H]; [reflexivity|]). destruct H. Qed.
Lemma red_flags name : In name (map fst red_table) ->
  dget red_table name = Some (existsb (String.eqb name) reduced_with).
Proof. intro H. cbn in H. repeat (destruct H as [<-|H]; [reflexivity|]). destruct H. Qed.

Lemma dget_named {B} (d : list (string * B)) k v : dget d k = Some v -> In k (map fst d).
Proof.
  induction d as [|[j w] d IH]; cbn; [discriminate|]. destruct (String.eqb_spec j k) as [->|]; [now left|]. intro E. right. now apply IH.
Qed.

Section Facts.
  Context {V : Type} {N : Num V} {A : Type}.
  Notation uarg := (uarg V A).
  Notation marg := (marg V A).

  Lemma no_raw_id (kw : list (string * uarg)) : ~ In "raw"%string (map fst kw) -> no_raw kw = kw.
  Proof.
    induction kw as [|[k x] kw IH]; cbn [map fst In no_raw filter]; [reflexivity|]. intro H.
    destruct (String.eqb_spec k "raw") as [->|]; [tauto|]. cbn [negb]. f_equal. apply IH. tauto.
  Qed.
  Lemma combine_handed (ks : list string) (l : list (farg V A)) :
    map handed_kw (combine ks l) = combine ks (map handed l).
  Proof.
    revert l. induction ks as [|k ks IH]; intros [|x l]; cbn; try reflexivity. now rewrite IH.
  Qed.
  Lemma see_nil n K (vs : nat -> list (farg V A)) : see_all n [] K vs -> K = 0 /\ forall m, vs m = [].
  Proof. intro H. inversion H. split; reflexivity. Qed.
  Lemma full_args sa sk (a : line V) args (kwargs : list (string * uarg)) n k Ka Kk f vs ws :
    feeds a n k f -> see_all n (if sa : bool then args else []) Ka vs -> see_all n (map snd (if sk : bool then kwargs else [])) Kk ws ->
    ~ In "raw"%string (map fst kwargs) -> let K := Nat.max k (Nat.max Ka Kk) in
    minperiodize a (if sa then args else []) (if sk then no_raw kwargs else []) =
      Ok (Z.of_nat (S K), vs K, combine (map fst (if sk then kwargs else [])) (ws K)).
  Proof.
    intros Fa Ha Hk R K. rewrite no_raw_id by exact R. exact (minperiodize_ok _ Fa Ha Hk).
  Qed.

  Lemma std_outcome sa sk (a : line V) args (kwargs : list (string * uarg)) n k Ka Kk f vs ws :
    feeds a n k f -> see_all n (if sa : bool then args else []) Ka vs -> see_all n (map snd (if sk : bool then kwargs else [])) Kk ws ->
    ~ In "raw"%string (map fst kwargs) ->
    forall F r, let K := Nat.max k (Nat.max Ka Kk) in K <= n -> 0 < n ->
    F (delivered f K n) (if sa then map handed (vs K) else map as_is args)
      (if sk then combine (map fst kwargs) (map handed (ws K)) else map as_is_kw kwargs) = Ok r ->
    (length r = n - K -> exists y, std_full sa sk F a args kwargs = Ok y /\ delivers y n K (fun i => nth (i - K) r vnan)) /\
    (length r <> n - K -> std_full sa sk F a args kwargs = Raise ValueError).
  Proof.
    intros Fa Ha Hk R F r K Hn Hp E. unfold std_full. rewrite (full_args sa sk args kwargs Fa Ha Hk R). cbn [bind].
    rewrite (seen_cut Ka Kk Fa). fold K.
    assert (Q : (if sk then map handed_kw (combine (map fst (if sk then kwargs else [])) (ws K)) else map as_is_kw kwargs) =
                (if sk then combine (map fst kwargs) (map handed (ws K)) else map as_is_kw kwargs))
      by (destruct sk; [apply combine_handed|reflexivity]).
    rewrite Q, E. cbn [bind]. unfold K. rewrite (put_outcome Ka Kk Fa r Hn Hp). fold K.
    destruct (Nat.eqb_spec (length r) (n - K)) as [L|L]; split; intro H; try contradiction; [|reflexivity].
    eexists. split; [reflexivity|]. apply nth_delivers; [lia|exact L].
  Qed.

  Lemma lines_read name (a : line V) args (kwargs : list (string * uarg)) n k Ka Kk f vs ws :
    In name (map fst std_table) -> (args = [] \/ In name by_position) -> (kwargs = [] \/ In name by_keyword) ->
    ~ In "raw"%string (map fst kwargs) ->
    feeds a n k f -> see_all n args Ka vs -> see_all n (map snd kwargs) Kk ws ->
    forall F r, let K := Nat.max k (Nat.max Ka Kk) in K <= n -> 0 < n ->
    F (delivered f K n) (map handed (vs K)) (combine (map fst kwargs) (map handed (ws K))) = Ok r ->
    (length r = n - K -> exists y, std_method name F a args kwargs = Ok y /\ delivers y n K (fun i => nth (i - K) r vnan)) /\
    (length r <> n - K -> std_method name F a args kwargs = Raise ValueError).
  Proof.
    intros I P Q R Fa Ha Hk F r K Hn Hp E. unfold std_method. rewrite (table_flags I).
    apply (std_outcome (existsb (String.eqb name) by_position) (existsb (String.eqb name) by_keyword) args kwargs (vs := vs) (ws := ws) Fa).
    - destruct P as [->|P]; [destruct (existsb (String.eqb name) by_position); exact Ha|]. apply smem_in in P. rewrite P. exact Ha.
    - destruct Q as [->|Q]; [destruct (existsb (String.eqb name) by_keyword); exact Hk|]. apply smem_in in Q. rewrite Q. exact Hk.
    - exact R.
    - exact Hn.
    - exact Hp.
    - fold K. rewrite <- E. f_equal.
      + destruct P as [->|P]; [destruct (see_nil Ha) as [_ W]; rewrite W; destruct (existsb (String.eqb name) by_position); reflexivity|].
        apply smem_in in P. now rewrite P.
      + destruct Q as [->|Q]; [destruct (existsb (String.eqb name) by_keyword); reflexivity|]. apply smem_in in Q. now rewrite Q.
  Qed.
  (** arguments that are not read as lines *)
  Lemma objects_passed name (a : line V) args (kwargs : list (string * uarg)) n k f :
    In name (map fst std_table) -> (args = [] \/ ~ In name by_position) -> (kwargs = [] \/ ~ In name by_keyword) ->
    ~ In "raw"%string (map fst kwargs) -> feeds a n k f -> k <= n -> 0 < n ->
    forall F r, F (delivered f k n) (map as_is args) (map as_is_kw kwargs) = Ok r -> length r = n - k ->
    exists y, std_method name F a args kwargs = Ok y /\ delivers y n k (fun i => nth (i - k) r vnan).
  Proof.
    intros I P Q R Fa Hn Hp F r E L. unfold std_method. rewrite (table_flags I).
    assert (HP : args = [] \/ existsb (String.eqb name) by_position = false)
      by (destruct P as [P|P]; [now left|right; destruct (existsb (String.eqb name) by_position) eqn:X; [exfalso; apply P, smem_in; exact X|reflexivity]]).
    assert (HQ : kwargs = [] \/ existsb (String.eqb name) by_keyword = false)
      by (destruct Q as [Q|Q]; [now left|right; destruct (existsb (String.eqb name) by_keyword) eqn:X; [exfalso; apply Q, smem_in; exact X|reflexivity]]).
    destruct (std_outcome (existsb (String.eqb name) by_position) (existsb (String.eqb name) by_keyword) args kwargs (n := n) (k := k) (Ka := 0) (Kk := 0)
      (f := f) (vs := fun _ => []) (ws := fun _ => []) Fa) with (F := F) (r := r) as [H _].
    - destruct HP as [->| ->]; [destruct (existsb (String.eqb name) by_position)|]; constructor.
    - destruct HQ as [->| ->]; [destruct (existsb (String.eqb name) by_keyword)|]; constructor.
    - exact R.
    - lia.
    - exact Hp.
    - replace (Nat.max k (Nat.max 0 0)) with k by lia. rewrite <- E. f_equal.
      + destruct HP as [->| ->]; [destruct (existsb (String.eqb name) by_position)|]; reflexivity.
      + destruct HQ as [->| ->]; [destruct (existsb (String.eqb name) by_keyword)|]; reflexivity.
    - replace (Nat.max k (Nat.max 0 0)) with k in H by lia. exact (H L).
  Qed.
  Lemma raw_lost name F (a : line V) args x (kwargs : list (string * uarg)) :
    In name by_keyword -> std_method name F a args (("raw"%string, x) :: kwargs) = std_method name F a args kwargs.
  Proof.
    intro H. unfold std_method. assert (I : In name (map fst std_table)) by (cbn in H; repeat (destruct H as [<-|H]; [cbn; tauto|]); destruct H).
    rewrite (table_flags I). apply smem_in in H. rewrite H. unfold std_full. reflexivity.
  Qed.
  Lemma reduced {B} name (a : line V) args (kwargs : list (string * uarg)) n k Ka f vs :
    In name reduced_with -> feeds a n k f -> see_all n args Ka vs ->
    forall F : list V -> list marg -> list (string * marg) -> res B,
    red_method name F a args kwargs =
      F (delivered f (Nat.max k Ka) n) (map handed (vs (Nat.max k Ka))) (map as_is_kw kwargs).
  Proof.
    intros H Fa Ha F. unfold red_method. assert (I : In name (map fst red_table)) by (cbn in H; repeat (destruct H as [<-|H]; [cbn; tauto|]); destruct H).
    rewrite (red_flags I). apply smem_in in H. rewrite H. unfold red_full.
    rewrite (minperiodize_ok [] Fa Ha (see_none n)). cbn [bind].
    rewrite (seen_cut Ka 0 Fa). replace (Nat.max Ka 0) with Ka by lia. reflexivity.
  Qed.
  Lemma reduced_plain {B} name (a : line V) args (kwargs : list (string * uarg)) n k f :
    In name (map fst red_table) -> ~ In name reduced_with -> feeds a n k f ->
    forall F : list V -> list marg -> list (string * marg) -> res B,
    red_method name F a args kwargs = F (delivered f k n) (map as_is args) (map as_is_kw kwargs).
  Proof.
    intros I H Fa F. unfold red_method. rewrite (red_flags I).
    replace (existsb _ _) with false by (symmetry; destruct (existsb _ _) eqn:X; [exfalso; apply H, smem_in; exact X|reflexivity]).
    unfold red_full. rewrite (feeds_mp Fa), mp_idx, (feeds_slice Fa (le_n k)). reflexivity.
  Qed.

  (** the same with the arguments described by MethodSpec.v *)
  Lemma passed_handed (l : list (farg V A)) m : Forall2 passed l m -> m = map handed l.
  Proof. induction 1 as [|x y l m H _ IH]; [reflexivity|]. cbn. rewrite IH. now destruct H. Qed.
  Lemma unread_as_is (l : list uarg) m : Forall2 unread l m -> m = map as_is l.
  Proof. induction 1 as [|x y l m H _ IH]; [reflexivity|]. cbn. rewrite IH. now destruct H. Qed.
  Lemma unread_as_is_kw (l : list (string * uarg)) m : Forall2 unread_kw l m -> m = map as_is_kw l.
  Proof.
    induction 1 as [|[k x] [j y] l m [E H] _ IH]; [reflexivity|]. cbn in *. subst j. rewrite IH. unfold as_is_kw. cbn. now destruct H.
  Qed.
  Lemma lines_passed name (a : line V) args (kwargs : list (string * uarg)) n k Ka Kk f vs ws :
    In name (map fst std_table) -> (args = [] \/ In name by_position) -> (kwargs = [] \/ In name by_keyword) ->
    ~ In "raw"%string (map fst kwargs) ->
    feeds a n k f -> see_all n args Ka vs -> see_all n (map snd kwargs) Kk ws ->
    forall F r xs ys, let K := Nat.max k (Nat.max Ka Kk) in K <= n -> 0 < n ->
    Forall2 passed (vs K) xs -> Forall2 passed (ws K) ys ->
    F (delivered f K n) xs (combine (map fst kwargs) ys) = Ok r ->
    (length r = n - K -> exists y, std_method name F a args kwargs = Ok y /\ delivers y n K (fun i => nth (i - K) r vnan)) /\
    (length r <> n - K -> std_method name F a args kwargs = Raise ValueError).
  Proof.
    intros I P Q R Fa Ha Hk F r xs ys K Hn Hp X Y E. apply passed_handed in X, Y. subst xs ys.
    exact (lines_read I P Q R Fa Ha Hk F Hn Hp E).
  Qed.
  Lemma objects_unread name (a : line V) args (kwargs : list (string * uarg)) n k f :
    In name (map fst std_table) -> (args = [] \/ ~ In name by_position) -> (kwargs = [] \/ ~ In name by_keyword) ->
    ~ In "raw"%string (map fst kwargs) -> feeds a n k f -> k <= n -> 0 < n ->
    forall F r xs ys, Forall2 unread args xs -> Forall2 unread_kw kwargs ys ->
    F (delivered f k n) xs ys = Ok r -> length r = n - k ->
    exists y, std_method name F a args kwargs = Ok y /\ delivers y n k (fun i => nth (i - k) r vnan).
  Proof.
    intros I P Q R Fa Hn Hp F r xs ys X Y E L. apply unread_as_is in X. apply unread_as_is_kw in Y. subst xs ys.
    exact (objects_passed I P Q R Fa Hn Hp F E L).
  Qed.
  Lemma reduced_passed {B} name (a : line V) args (kwargs : list (string * uarg)) n k Ka f vs :
    In name reduced_with -> feeds a n k f -> see_all n args Ka vs ->
    forall (F : list V -> list marg -> list (string * marg) -> res B) xs ys,
    Forall2 passed (vs (Nat.max k Ka)) xs -> Forall2 unread_kw kwargs ys ->
    red_method name F a args kwargs = F (delivered f (Nat.max k Ka) n) xs ys.
  Proof.
    intros I Fa Ha F xs ys X Y. apply passed_handed in X. apply unread_as_is_kw in Y. subst xs ys. now apply reduced.
  Qed.
  Lemma reduced_unread {B} name (a : line V) args (kwargs : list (string * uarg)) n k f :
    In name (map fst red_table) -> ~ In name reduced_with -> feeds a n k f ->
    forall (F : list V -> list marg -> list (string * marg) -> res B) xs ys,
    Forall2 unread args xs -> Forall2 unread_kw kwargs ys ->
    red_method name F a args kwargs = F (delivered f k n) xs ys.
  Proof.
    intros I H Fa F xs ys X Y. apply unread_as_is in X. apply unread_as_is_kw in Y. subst xs ys. now apply reduced_plain.
  Qed.
  (** every argument is passed in one way *)
  Lemma passed_all (l : list (farg V A)) : exists m, Forall2 passed l m.
  Proof.
    induction l as [|[s|y] l [m H]]; [exists []; constructor| |]; eexists; constructor; try exact H; constructor.
  Qed.
  Lemma unread_all (l : list uarg) : exists m, Forall2 unread l m.
  Proof.
    induction l as [|x l [m H]]; [exists []; constructor|]. destruct x; eexists; constructor; try exact H; constructor.
  Qed.
  Lemma unknown_method name F (a : line V) args (kwargs : list (string * uarg)) :
    ~ In name (map fst std_table) -> std_method name F a args kwargs = Raise AttributeError.
  Proof.
    intro H. unfold std_method. destruct (dget std_table name) eqn:E; [|reflexivity]. exfalso. apply H.
    exact (dget_named _ _ E).
  Qed.
  Lemma unknown_reduction {B} name (F : list V -> list marg -> list (string * marg) -> res B) (a : line V) args (kwargs : list (string * uarg)) :
    ~ In name (map fst red_table) -> red_method name F a args kwargs = Raise AttributeError.
  Proof.
    intro H. unfold red_method. destruct (dget red_table name) eqn:E; [|reflexivity]. exfalso. apply H.
    exact (dget_named _ _ E).
  Qed.
End Facts.
