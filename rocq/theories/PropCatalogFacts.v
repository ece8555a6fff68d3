(** Lemmas behind Prop_Catalog.v. *)
From Coq Require Import ZArith List Bool Lia Arith.
From Verif Require Import Num Series Line Spec LineFacts Expr CausalFacts WarmFacts
  IndMA IndBasic IndStat IndRange IndOsc IndVol Apply IndSar IndHT IndMama Catalog CatalogSpec
  CatalogR CatalogR2 CatalogFacts CatalogW CatalogW2 CatalogWFacts.
Import ListNotations.

Section F.
  Context {V : Type} {N : Num V} {T : NumT V}.

  Lemma session_no_repaint n n' (env env' : list (line V)) steps outs :
    n <= n' ->
    Forall2 (fun x x' => (1 <= lmp x)%Z /\ length (lser x) = n /\ length (lser x') = n' /\
                         extends x x') env env' ->
    Forall (fun s => valid (fst s) /\ ~ cyclic (fst s)) steps ->
    session env steps = Ok outs ->
    exists outs', session env' steps = Ok outs' /\ Forall2 extends outs outs'.
  Proof.
    intros Hn HE Hs He.
    assert (HR : Forall2 (@Rl V n n') env env').
    { clear -HE. induction HE as [|x y xs ys (A & B & C & D & E)]; constructor; auto. repeat split; auto. }
    destruct (session_R Hn Hs HR He) as (outs' & E & H). exists outs'. split; [exact E|].
    clear -H. induction H as [|x y xs ys (A & B & C & D & F)]; constructor; auto. split; auto.
  Qed.

  Lemma Wi_env n (env : list (line V)) :
    Forall (fun x => (1 <= lmp x)%Z /\ length (lser x) = n) env ->
    Forall2 (@We V N n) (map (@lmp V) env) env.
  Proof.
    induction 1 as [|x xs [A B] _ IH]; cbn; constructor; auto.
    exists false. repeat split; auto. discriminate.
  Qed.

  Lemma Wi_mps n ms (ls : list (line V)) :
    Forall2 (@We V N n) ms ls -> map (@lmp V) ls = ms /\ Forall (fun l => length (lser l) = n) ls.
  Proof.
    induction 1 as [|m l ms ls [b (A & B & C & _)] _ [I1 I2]]; cbn; auto.
    split; [now rewrite A, I1|constructor; auto].
  Qed.

  Lemma session_minperiods n (env : list (line V)) steps outs :
    nan_laws N ->
    Forall (fun x => (1 <= lmp x)%Z /\ length (lser x) = n) env ->
    Forall (fun s => valid (fst s)) steps ->
    session env steps = Ok outs ->
    map (@lmp V) outs = session_mps (map (@lmp V) env) steps /\
    Forall (fun l => length (lser l) = n) outs /\
    exists new, outs = env ++ new.
  Proof.
    intros HN HE Hs He.
    destruct (session_W HN n steps _ _ Hs (Wi_env _ _ HE) _ He) as (new & nms & -> & Es & Hw & _).
    destruct (Wi_mps _ _ _ Hw) as [Em Hl]. rewrite map_app, Em, Es. repeat split; [|eauto].
    apply Forall_app. split; auto. eapply Forall_impl; [|exact HE]. cbn. intros a H. apply H.
  Qed.

  Lemma session_warm n (env : list (line V)) steps outs :
    nan_laws N ->
    Forall (fun x => (1 <= lmp x)%Z /\ length (lser x) = n) env ->
    Forall (fun s => valid (fst s) /\ plain (fst s) = true) steps ->
    session env steps = Ok outs ->
    forall j l, length env <= j -> nth_error outs j = Some l ->
    forall i, (Z.of_nat i < lmp l - 1)%Z -> i < n -> nth_error (lser l) i = Some vnan.
  Proof.
    intros HN HE Hs He j l Hj Hl.
    assert (Hs1 : Forall (fun s : step V => valid (fst s)) steps)
      by (eapply Forall_impl; [|exact Hs]; cbn; tauto).
    assert (Hs2 : Forall (fun s : step V => plain (fst s) = true) steps)
      by (eapply Forall_impl; [|exact Hs]; cbn; tauto).
    destruct (session_W HN n steps _ _ Hs1 (Wi_env _ _ HE) _ He) as (new & nms & -> & _ & _ & Hw).
    specialize (Hw Hs2). rewrite nth_error_app2 in Hl by lia.
    revert Hl. generalize (j - length env). clear -Hw. intros k. revert k.
    induction Hw as [|m a ms ls (A & B & C & D) _ IH]; intros [|k] Hl; cbn in Hl; try discriminate; eauto.
    injection Hl as <-. rewrite A. now apply D.
  Qed.

  (** one indicator alone *)
  Lemma run_minperiods n x (ins outs : list (line V)) :
    nan_laws N ->
    Forall (fun x => (1 <= lmp x)%Z /\ length (lser x) = n) ins -> valid x ->
    run x ins = Ok outs ->
    map (@lmp V) outs = mps x (map (@lmp V) ins) /\
    Forall (fun l => length (lser l) = n /\
              (plain x = true -> forall i, (Z.of_nat i < lmp l - 1)%Z -> i < n ->
                 nth_error (lser l) i = Some vnan)) outs.
  Proof.
    intros HN HE Hv He.
    pose proof (run_W HN n x _ _ Hv (Wi_env _ _ HE) _ He) as H. clear -H.
    induction H as [|m l ms ls (A & B & C & D) _ [I1 I2]]; cbn; auto.
    split; [now rewrite A, I1|]. constructor; auto. split; auto. rewrite A. auto.
  Qed.
End F.
