(** Lemmas behind Prop_Local.v. *)
From Coq Require Import ZArith List Bool Lia Arith.
From Verif Require Import Num Series Line Spec LineFacts Expr CausalFacts WarmFacts
  IndMA IndBasic IndStat Catalog CatalogSpec LocalSpec LocalFacts LocalR.
Import ListNotations.
Set Implicit Arguments.

Lemma Forall2_impl {A B} (P Q : A -> B -> Prop) l m :
  (forall a b, P a b -> Q a b) -> Forall2 P l m -> Forall2 Q l m.
Proof. induction 2; constructor; auto. Qed.

Section F.
  Context {V : Type} {N : Num V} {T : NumT V}.

  Lemma drops_Dl k n (x x' : line V) :
    (1 <= lmp x)%Z -> length (lser x') = n -> drops k x x' -> Dl k n x x'.
  Proof.
    intros H1 H2 (A & B & C). split; [|split]; auto. split; [lia|]. split; [auto|].
    apply nth_error_ext; [rewrite !skipn_length; lia|].
    intros i _. rewrite !nth_error_skipn. rewrite C by lia. f_equal. lia.
  Qed.
  Lemma Dl_drops k n (x x' : line V) : Dl k n x x' -> drops k x x'.
  Proof.
    intros (A & B & C & D & E). split; [|split]; auto; [lia|].
    intros i Hi. replace i with (Z.to_nat (lmp x - 1) + (i - Z.to_nat (lmp x - 1))) by lia.
    rewrite <- nth_error_skipn, E, nth_error_skipn. f_equal. lia.
  Qed.

  Definition feed k n (x x' : line V) : Prop :=
    (1 <= lmp x)%Z /\ length (lser x') = n /\ drops k x x'.
  Lemma feed_Dl k n (x x' : line V) : feed k n x x' -> Dl k n x x'.
  Proof. intros (A & B & C). now apply drops_Dl. Qed.

  Lemma out_drops k n r r' :
    same_outcome (Forall2 (@Dl V k n)) r r' -> same_outcome (Forall2 (drops k)) r r'.
  Proof.
    destruct r, r'; cbn; auto. intro H. eapply Forall2_impl; [|exact H]. intros x y. apply Dl_drops.
  Qed.
  Lemma env_Dl k n (env env' : list (line V)) :
    Forall2 (fun x x' => (1 <= lmp x)%Z /\ length (lser x') = n /\ drops k x x') env env' ->
    Forall2 (@Dl V k n) env env'.
  Proof. intro H. eapply Forall2_impl; [|exact H]. intros x y. apply feed_Dl. Qed.

  Lemma session_local k n (env env' : list (line V)) steps :
    Forall2 (fun x x' => (1 <= lmp x)%Z /\ length (lser x') = n /\ drops k x x') env env' ->
    Forall (fun s => valid (fst s) /\ windowed (fst s) = true) steps ->
    same_outcome (Forall2 (drops k)) (session env steps) (session env' steps).
  Proof. intros HE Hs. apply out_drops with n. apply session_D; auto. now apply env_Dl. Qed.

  Lemma run_local k n x (ins ins' : list (line V)) :
    Forall2 (fun x x' => (1 <= lmp x)%Z /\ length (lser x') = n /\ drops k x x') ins ins' ->
    valid x -> windowed x = true ->
    same_outcome (Forall2 (drops k)) (run x ins) (run x ins').
  Proof. intros HE Hv Hw. apply out_drops with n. apply run_D; auto. now apply env_Dl. Qed.

  Lemma raw_drops k (s : list V) : k <= length s -> drops k (raw s) (raw (skipn k s)).
  Proof.
    intro H. split; [|split]; cbn [raw lmp lser]; auto; [rewrite skipn_length; lia|].
    intros i _. apply nth_error_skipn.
  Qed.

  Lemma columns_local k n (cols : list (list V)) steps :
    Forall (fun s => length s = n) cols -> k <= n ->
    Forall (fun s => valid (fst s) /\ windowed (fst s) = true) steps ->
    same_outcome (Forall2 (drops k)) (session (map raw cols) steps)
                 (session (map (fun s => raw (skipn k s)) cols) steps).
  Proof.
    intros Hc Hk Hs. apply session_local with (n - k); auto.
    induction Hc as [|s cols Hl Hc IH]; cbn [map]; constructor; auto.
    split; [cbn; lia|]. split; [cbn [raw lser]; rewrite skipn_length; lia|]. apply raw_drops. lia.
  Qed.

  Lemma correl_local k n p prets rets (a a' b b' : line V) :
    1 <= p -> feed k n a a' -> feed k n b b' -> (lmp b <= lmp a)%Z ->
    drops k (correl p prets rets a b) (correl p prets rets a' b').
  Proof.
    intros Hp Ha Hb Hm. apply Dl_drops with n. unfold correl.
    apply D_rolling2; auto; now apply feed_Dl.
  Qed.

  Lemma returns_local k n p (a a' : line V) :
    feed k n a a' -> (forall x, nth_error (lser a') (Z.to_nat (lmp a' - 1)) = Some x -> visnan x = false) ->
    drops k (pct_change a (Z.of_nat p)) (pct_change a' (Z.of_nat p)).
  Proof.
    intros Ha Hx. apply Dl_drops with n. apply D_pct; [now apply feed_Dl|].
    destruct Ha as (_ & _ & E & _). now rewrite <- E.
  Qed.

  Lemma beta_local k n p prets (a a' b b' : line V) :
    1 <= p -> feed k n a a' -> feed k n b b' ->
    (forall x, nth_error (lser a') (Z.to_nat (lmp a' - 1)) = Some x -> visnan x = false) ->
    (forall x, nth_error (lser b') (Z.to_nat (lmp b' - 1)) = Some x -> visnan x = false) ->
    drops k (beta p (Z.of_nat prets) true a b) (beta p (Z.of_nat prets) true a' b').
  Proof.
    intros Hp Ha Hb Hx Hy.
    assert (A : Dl k n (pct_change a (Z.of_nat prets)) (pct_change a' (Z.of_nat prets))).
    { apply D_pct; [now apply feed_Dl|]. destruct Ha as (_ & _ & E & _). now rewrite <- E. }
    assert (B : Dl k n (pct_change b (Z.of_nat prets)) (pct_change b' (Z.of_nat prets))).
    { apply D_pct; [now apply feed_Dl|]. destruct Hb as (_ & _ & E & _). now rewrite <- E. }
    apply Dl_drops with n. unfold beta. cbv zeta.
    repeat first [ assumption | apply D_binop | apply D_rbinop_s | apply D_pow2 | apply D_rolling ].
  Qed.
End F.
