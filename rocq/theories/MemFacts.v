(** A check of the shape of a body, and what it guarantees about the objects of the caller. *)
From Coq Require Import ZArith List Bool String Arith Lia.
From Verif Require Import Num Series Line Apply Py PyFacts Mem MemSpec.
Import ListNotations.
Set Implicit Arguments.
Local Open Scope string_scope.
Local Open Scope list_scope.
Local Open Scope nat_scope.

(** ** The check *)
(** names, the Series of each own line (None: a Series of the caller) and the number of own Series *)
Record abs := mkAbs { a_env : dict nat; a_lins : list (option nat); a_n : nat }.
Definition a_ser (A : abs) (x : string) : option (nat * option nat) :=
  match dget (a_env A) x with
  | None => None
  | Some j => match nth_error (a_lins A) j with None => None | Some s => Some (j, s) end
  end.
Definition live (A : abs) (x : string) : bool := match dget (a_env A) x with Some _ => true | None => false end.
Definition eqo (a b : option nat) : bool := match a, b with Some x, Some y => x =? y | _, _ => false end.
(** after a change of line [j] through [x] the other names of the line are dropped; with [w] its Series was written
    and the other names of the Series are dropped *)
Definition kill (x : string) (j : nat) (so : option nat) (w : bool) (A : abs) : abs :=
  mkAbs (filter (fun kv => String.eqb (fst kv) x ||
                           negb ((snd kv =? j) || (w && eqo (nth (snd kv) (a_lins A) None) so))) (a_env A))
        (a_lins A) (a_n A).
Fixpoint a_freshes (A : abs) (dsts : list string) : abs :=
  match dsts with
  | [] => A
  | d :: ds => a_freshes (mkAbs (dset (a_env A) d (List.length (a_lins A))) (a_lins A ++ [Some (a_n A)]) (S (a_n A))) ds
  end.
Definition is_some {A} (o : option A) : bool := match o with Some _ => true | None => false end.
Fixpoint a_writes (ws : list (string * bool)) (A : abs) : option abs :=
  match ws with
  | [] => Some A
  | (x, false) :: ws' => a_writes ws' A
  | (x, true) :: ws' => match a_ser A x with
                        | Some (j, Some s) => a_writes ws' (kill x j (Some s) true A)
                        | _ => None
                        end
  end.
Fixpoint nodupb (l : list string) : bool :=
  match l with [] => true | x :: l' => negb (smem x l') && nodupb l' end.
Definition a_step (s : shape) (A : abs) : option abs :=
  match s with
  | HOp dsts args => if forallb (live A) args then Some (a_freshes A dsts) else None
  | HBind dst src => match dget (a_env A) src with
                     | None => None
                     | Some j => Some (mkAbs (dset (a_env A) dst j) (a_lins A) (a_n A))
                     end
  | HWrap dst src _ => match a_ser A src with
                       | None => None
                       | Some (j, so) => Some (mkAbs (dset (a_env A) dst (List.length (a_lins A)))
                                                     (a_lins A ++ [so]) (a_n A))
                       end
  | HPeriod x args w => if forallb (live A) args
                        then match a_ser A x with
                             | None => None
                             | Some (j, so) => if negb w || is_some so then Some (kill x j so w A) else None
                             end
                        else None
  | HApply dsts self raw wself args =>
      let ws := (self, negb raw && wself) :: args in
      if forallb (live A) (map fst ws) && nodupb (map fst ws)
      then match a_writes ws A with
           | None => None
           | Some A' => if forallb (live A') (map fst ws) then Some (a_freshes A' dsts) else None
           end
      else None
  | HFail _ => None
  end.
Fixpoint a_run (ss : list shape) (A : abs) : option (option abs) :=
  match ss with
  | [] => Some (Some A)
  | HFail _ :: _ => Some None
  | s :: ss' => match a_step s A with None => None | Some A' => a_run ss' A' end
  end.
Fixpoint a_inputs (A : abs) (names : list string) : abs :=
  match names with
  | [] => A
  | n :: ns => a_inputs (mkAbs (dset (a_env A) ("i." ++ n) (List.length (a_lins A))) (a_lins A ++ [None]) (a_n A)) ns
  end.
Fixpoint outs_ok (A : abs) (names : list string) (seen : list nat) : bool :=
  match names with
  | [] => true
  | n :: ns => match a_ser A ("o." ++ n) with
               | Some (_, Some s) => negb (existsb (Nat.eqb s) seen) && outs_ok A ns (s :: seen)
               | _ => false
               end
  end.
Definition check_body (b : body) : bool :=
  match a_run (b_steps b) (a_inputs (mkAbs [] [] 0) (b_in b)) with
  | None => false
  | Some None => true
  | Some (Some A) => outs_ok A (b_out b) []
  end.

(** ** Lists *)
Lemma upd_length : forall A (f : A -> A) l k, List.length (upd l k f) = List.length l.
Proof. induction l; destruct k; cbn; auto. Qed.
Lemma upd_other : forall A (f : A -> A) l k i, i <> k -> nth_error (upd l k f) i = nth_error l i.
Proof.
  induction l; intros [|k] [|i] H; cbn; try reflexivity; try congruence. apply IHl. congruence.
Qed.
Lemma upd_same : forall A (f : A -> A) l k x, nth_error l k = Some x -> nth_error (upd l k f) k = Some (f x).
Proof. induction l; intros [|k] x H; cbn in *; try discriminate; [congruence|]. apply IHl. exact H. Qed.
Lemma dget_filter : forall {A} (g : string * A -> bool) (d : dict A) x v,
  NoDup (dkeys d) -> dget (filter g d) x = Some v -> dget d x = Some v /\ g (x, v) = true.
Proof.
  intros A g d x v H E. apply dget_in in E. apply filter_In in E. destruct E as [E G].
  split; [|exact G]. apply dget_nodup; assumption.
Qed.
Lemma filter_nodup : forall {A} (g : string * A -> bool) (d : dict A), NoDup (dkeys d) -> NoDup (dkeys (filter g d)).
Proof.
  intros A g. induction d as [|[k v] d IH]; cbn; intros H; [constructor|].
  inversion H; subst. destruct (g (k, v)); cbn; auto. constructor; auto.
  intros F. apply H2. apply in_map_iff in F. destruct F as [p [E F]]. apply filter_In in F.
  apply in_map_iff. exists p. tauto.
Qed.
Lemma nodupb_spec : forall l, nodupb l = true -> NoDup l.
Proof.
  induction l; cbn; intros H; [constructor|]. apply andb_true_iff in H. destruct H as [H1 H2].
  constructor; auto. apply negb_true_iff in H1. apply smem_false in H1. exact H1.
Qed.

Section Facts.
  Context {V : Type} {N : Num V}.
  Notation line := (line V).
  Notation store := (store V).
  Implicit Types (st : store) (e : env) (ve : venv (V:=V)).

  Variables (u ul : nat).   (* the objects of the caller: u Series and ul lines *)

  (** the objects below [u] and [ul] are as before *)
  Definition kept st st' : Prop :=
    (forall k, k < u -> nth_error (sers st') k = nth_error (sers st) k) /\
    (forall l, l < ul -> nth_error (lins st') l = nth_error (lins st) l).
  Lemma kept_refl : forall st, kept st st.
  Proof. split; auto. Qed.
  Lemma kept_trans : forall a b c, kept a b -> kept b c -> kept a c.
  Proof. intros a b c [H1 H2] [H3 H4]. split; intros; [rewrite H3, H1|rewrite H4, H2]; auto. Qed.

  Record Inv st e (A : abs) : Prop := mkInv {
    I_lins : List.length (lins st) = ul + List.length (a_lins A);
    I_sers : List.length (sers st) = u + a_n A;
    I_cor : forall j so, nth_error (a_lins A) j = Some so ->
      exists o, nth_error (lins st) (ul + j) = Some o /\
        match so with Some s => lo_ser o = u + s /\ s < a_n A | None => lo_ser o < u end;
    I_env : forall x j, dget (a_env A) x = Some j -> dget e x = Some (ul + j) /\ j < List.length (a_lins A);
    I_nd : NoDup (dkeys (a_env A)) }.
  Definition Rel st ve (A : abs) : Prop :=
    forall x j, dget (a_env A) x = Some j -> exists v, line_at st (ul + j) = Some v /\ dget ve x = Some v.

  Lemma inv_line : forall st e A j, Inv st e A -> j < List.length (a_lins A) -> exists v, line_at st (ul + j) = Some v.
  Proof.
    intros st e A j I H. destruct (nth_error (a_lins A) j) as [so|] eqn:E; [|apply nth_error_None in E; lia].
    destruct (I_cor I _ E) as [o [O C]]. unfold line_at. rewrite O.
    destruct (nth_error (sers st) (lo_ser o)) eqn:S; [eauto|].
    apply nth_error_None in S. rewrite (I_sers I) in S. destruct so as [s|]; lia.
  Qed.
  Lemma live_look : forall st e A x, Inv st e A -> live A x = true -> exists v, look st e x = Ok v.
  Proof.
    intros st e A x I H. unfold live in H. destruct (dget (a_env A) x) as [j|] eqn:E; [|discriminate].
    destruct (I_env I _ E) as [E1 L]. destruct (inv_line I L) as [v Ev].
    exists v. unfold look. rewrite E1, Ev. reflexivity.
  Qed.
  Lemma live_looks : forall st e A xs, Inv st e A -> forallb (live A) xs = true ->
    exists vs, looks st e xs = Ok vs /\ List.length vs = List.length xs.
  Proof.
    intros st e A xs I. induction xs as [|x xs IH]; intros H; [exists []; auto|].
    cbn in H. apply andb_true_iff in H. destruct H as [H1 H2].
    destruct (live_look _ I H1) as [v Ev]. destruct (IH H2) as [vs [Evs L]].
    exists (v :: vs). cbn. rewrite Ev, Evs. cbn. auto.
  Qed.
  Lemma rel_look : forall st e ve A x, Inv st e A -> Rel st ve A -> live A x = true -> vlook ve x = look st e x.
  Proof.
    intros st e ve A x I R H. unfold live in H. destruct (dget (a_env A) x) as [j|] eqn:E; [|discriminate].
    destruct (I_env I _ E) as [E1 L]. destruct (R _ _ E) as [v [Ev Eve]].
    unfold vlook, look. rewrite Eve, E1, Ev. reflexivity.
  Qed.
  Lemma rel_looks : forall st e ve A xs, Inv st e A -> Rel st ve A -> forallb (live A) xs = true ->
    vlooks ve xs = looks st e xs.
  Proof.
    intros st e ve A xs I R. induction xs as [|x xs IH]; intros H; [reflexivity|].
    cbn in H. apply andb_true_iff in H. destruct H as [H1 H2].
    cbn. rewrite (rel_look _ I R H1), (IH H2). reflexivity.
  Qed.

  (** *** new objects *)
  Lemma line_at_grow : forall st s o l v, line_at st l = Some v ->
    line_at (mkStore (sers st ++ s) (lins st ++ o)) l = Some v.
  Proof.
    intros st s o l v H. unfold line_at in *. cbn [sers lins].
    destruct (nth_error (lins st) l) as [ob|] eqn:E; [|discriminate].
    rewrite nth_error_app1 by (apply nth_error_Some; congruence). rewrite E.
    destruct (nth_error (sers st) (lo_ser ob)) eqn:E2; [|discriminate].
    rewrite nth_error_app1 by (apply nth_error_Some; congruence). rewrite E2. exact H.
  Qed.
  Lemma fresh_inv : forall st e A d v, Inv st e A ->
    let st' := fst (fresh st v) in
    let A' := mkAbs (dset (a_env A) d (List.length (a_lins A))) (a_lins A ++ [Some (a_n A)]) (S (a_n A)) in
    Inv st' (dset e d (snd (fresh st v))) A' /\ kept st st' /\
    (forall ve, Rel st ve A -> Rel st' (dset ve d v) A').
  Proof.
    intros st e A d v I st' A'. subst st' A'. unfold fresh. cbn [fst snd].
    assert (HL : List.length (lins st) = ul + List.length (a_lins A)) by apply (I_lins I).
    assert (HS : List.length (sers st) = u + a_n A) by apply (I_sers I).
    split; [constructor; cbn [a_lins a_n a_env sers lins]|split].
    - rewrite !app_length. cbn. lia.
    - rewrite app_length. cbn. lia.
    - intros j so H. destruct (Nat.lt_ge_cases j (List.length (a_lins A))) as [L|L].
      + rewrite nth_error_app1 in H by exact L. destruct (I_cor I _ H) as [o [O C]].
        exists o. split; [rewrite nth_error_app1 by lia; exact O|]. destruct so; [|exact C]. split; [tauto|lia].
      + rewrite nth_error_app2 in H by exact L. destruct (j - List.length (a_lins A)) as [|k] eqn:K.
        2:{ cbn in H. destruct k; discriminate. }
        cbn in H. inversion H; subst so. exists (mkL (lmp v) "" (List.length (sers st))).
        split; [|cbn; split; [lia|lia]].
        rewrite nth_error_app2 by lia. replace (ul + j - List.length (lins st)) with 0 by lia. reflexivity.
    - intros x j H. rewrite app_length. cbn [List.length].
      destruct (String.eqb_spec x d) as [->|Ne].
      + rewrite dget_dset_same in H; try rewrite dget_dset_same. inversion H; subst. split; [f_equal; lia|lia].
      + rewrite dget_dset_other in H by exact Ne; rewrite dget_dset_other by exact Ne. destruct (I_env I _ H). split; [assumption|lia].
    - apply dset_nodup. apply (I_nd I).
    - split; intros k K; cbn [sers lins]; apply nth_error_app1; lia.
    - intros ve R x j H. cbn [a_env] in H. destruct (String.eqb_spec x d) as [->|Ne].
      + rewrite dget_dset_same in H; try rewrite dget_dset_same. inversion H; subst; clear H. exists v. split; [|reflexivity].
        unfold line_at. cbn [sers lins]. rewrite nth_error_app2 by lia.
        replace (ul + List.length (a_lins A) - List.length (lins st)) with 0 by lia. cbn [nth_error lo_ser lo_mp].
        rewrite nth_error_app2 by lia. rewrite Nat.sub_diag. cbn. destruct v; reflexivity.
      + rewrite dget_dset_other in H by exact Ne; rewrite dget_dset_other by exact Ne. destruct (R _ _ H) as [v' [E1 E2]].
        exists v'. split; [apply line_at_grow; exact E1|exact E2].
  Qed.
  Lemma freshes_inv : forall dsts vs st e A, Inv st e A -> List.length vs = List.length dsts ->
    let r := freshes st e dsts vs in
    Inv (fst r) (snd r) (a_freshes A dsts) /\ kept st (fst r) /\
    (forall ve, Rel st ve A -> Rel (fst r) (vsets ve dsts vs) (a_freshes A dsts)).
  Proof.
    induction dsts as [|d dsts IH]; intros [|v vs] st e A I L; try discriminate; cbn [freshes vsets a_freshes].
    - cbn. split; [exact I|split; [apply kept_refl|auto]].
    - destruct (fresh_inv d v I) as [I1 [K1 R1]]. destruct (fresh st v) as [st1 l1] eqn:F. cbn [fst snd] in *.
      assert (L' : List.length vs = List.length dsts) by (cbn in L; lia).
      destruct (IH vs _ _ _ I1 L') as [I2 [K2 R2]].
      split; [exact I2|]. split; [exact (kept_trans K1 K2)|]. intros ve R. apply R2. apply R1. exact R.
  Qed.

  (** *** changed objects *)
  Lemma line_at_set_vals : forall st k vs l o s,
    nth_error (lins st) l = Some o -> nth_error (sers st) (lo_ser o) = Some s ->
    line_at (set_vals st k vs) l = Some (mkLine (lo_mp o) (if lo_ser o =? k then vs else so_vals s)).
  Proof.
    intros st k vs l o s O S. unfold line_at, set_vals. cbn [sers lins]. rewrite O.
    destruct (Nat.eqb_spec (lo_ser o) k) as [E|E].
    - subst k. rewrite (upd_same _ _ _ S). reflexivity.
    - rewrite upd_other by exact E. rewrite S. reflexivity.
  Qed.
  Lemma kill_inv : forall st e A x j so w, Inv st e A -> Inv st e (kill x j so w A).
  Proof.
    intros st e A x j so w I. constructor; unfold kill; cbn [a_lins a_n a_env]; try apply I.
    - intros y i H. apply dget_filter in H; [|apply (I_nd I)]. apply (I_env I). tauto.
    - apply filter_nodup. apply (I_nd I).
  Qed.
  Lemma a_ser_spec : forall A x j so, a_ser A x = Some (j, so) ->
    dget (a_env A) x = Some j /\ nth_error (a_lins A) j = Some so.
  Proof.
    intros A x j so H. unfold a_ser in H. destruct (dget (a_env A) x) as [i|]; [|discriminate].
    destruct (nth_error (a_lins A) i) eqn:E; [|discriminate]. inversion H; subst. auto.
  Qed.
  Lemma set_vals_inv : forall st e A s vs, Inv st e A -> Inv (set_vals st (u + s) vs) e A /\ kept st (set_vals st (u + s) vs).
  Proof.
    intros st e A s vs I. split; [constructor; cbn [sers lins set_vals]; try apply I|].
    - rewrite upd_length. apply (I_sers I).
    - split; intros k K; cbn [sers lins set_vals]; [apply upd_other; lia|reflexivity].
  Qed.
  (** writing into the own Series of [x] *)
  Lemma write_rel : forall st e ve A x j s vs v, Inv st e A -> Rel st ve A ->
    a_ser A x = Some (j, Some s) -> line_at st (ul + j) = Some v ->
    Rel (set_vals st (u + s) vs) (dset ve x (mkLine (lmp v) vs)) (kill x j (Some s) true A).
  Proof.
    intros st e ve A x j s vs v I R HA Hv y i H. apply a_ser_spec in HA. destruct HA as [HA1 HA2].
    unfold kill in H. cbn [a_env] in H. apply dget_filter in H; [|apply (I_nd I)].
    destruct H as [H G]. cbn [fst snd] in G.
    destruct (I_cor I _ HA2) as [o [O [C1 C2]]].
    destruct (String.eqb_spec y x) as [->|Ne].
    - assert (i = j) by congruence. subst i. rewrite dget_dset_same.
      unfold line_at in Hv. rewrite O in Hv. destruct (nth_error (sers st) (lo_ser o)) as [sv|] eqn:S; [|discriminate].
      inversion Hv; subst v. eexists. split; [apply (@line_at_set_vals _ _ _ _ _ _ O S)|].
      rewrite C1, Nat.eqb_refl. reflexivity.
    - rewrite dget_dset_other by exact Ne. cbn [orb] in G. apply negb_true_iff in G. apply orb_false_iff in G.
      destruct G as [_ G2]. cbn [andb] in G2.
      destruct (R _ _ H) as [w [W1 W2]]. destruct (I_env I _ H) as [_ L].
      destruct (nth_error (a_lins A) i) as [so'|] eqn:E; [|apply nth_error_None in E; lia].
      destruct (I_cor I _ E) as [o' [O' C']].
      rewrite (nth_error_nth _ _ None E) in G2.
      unfold line_at in W1. rewrite O' in W1. destruct (nth_error (sers st) (lo_ser o')) as [sv|] eqn:S; [|discriminate].
      exists w. split; [|exact W2]. rewrite (@line_at_set_vals _ _ _ _ _ _ O' S).
      destruct (Nat.eqb_spec (lo_ser o') (u + s)) as [F|F]; [|exact W1].
      exfalso. destruct so' as [s'|]; [|lia]. cbn in G2. apply Nat.eqb_neq in G2. lia.
  Qed.

  Lemma kill_rel : forall st e ve A x j so w, Inv st e A -> Rel st ve A -> Rel st ve (kill x j so w A).
  Proof.
    intros st e ve A x j so w I R y i H. unfold kill in H. cbn [a_env] in H.
    apply dget_filter in H; [|apply (I_nd I)]. apply R. tauto.
  Qed.
  Lemma a_writes_sub : forall ws A A' st e, a_writes ws A = Some A' -> Inv st e A ->
    Inv st e A' /\ (forall ve, Rel st ve A -> Rel st ve A').
  Proof.
    induction ws as [|[x w] ws IH]; intros A A' st e H I; cbn [a_writes] in H; [inversion H; subst; auto|].
    destruct w; [|eapply IH; eassumption].
    destruct (a_ser A x) as [[j [s|]]|] eqn:S; try discriminate H.
    destruct (IH _ _ _ _ H (kill_inv x j (Some s) true I)) as [I1 R1].
    split; [exact I1|]. intros ve R. apply R1. eapply kill_rel; eassumption.
  Qed.

  Lemma write_back_inv : forall idx ws bufs st e A A', Inv st e A -> a_writes ws A = Some A' ->
    NoDup (map fst ws) ->
    let st' := write_back st e idx ws bufs in
    Inv st' e A' /\ kept st st' /\ (forall ve, Rel st ve A -> Rel st' (vwrite ve idx ws bufs) A').
  Proof.
    intros idx. induction ws as [|[x w] ws IH]; intros bufs st e A A' I H Nd.
    - cbn in *. inversion H; subst. split; [exact I|split; [apply kept_refl|auto]].
    - destruct bufs as [|b bufs].
      { cbn [write_back vwrite]. destruct (a_writes_sub _ H I) as [I1 R1].
        split; [exact I1|]. split; [apply kept_refl|exact R1]. }
      cbn [write_back a_writes vwrite map fst] in *. inversion Nd as [|? ? Nx Nd']; subst.
      destruct w; [|apply IH; assumption].
      destruct (a_ser A x) as [[j [s|]]|] eqn:S; try discriminate H.
      destruct (a_ser_spec _ _ S) as [S1 S2].
      destruct (I_cor I _ S2) as [o [O [C1 C2]]]. destruct (I_env I _ S1) as [E1 L1].
      unfold ser_of. rewrite E1, O. cbn [option_map]. rewrite C1.
      destruct (nth_error (sers st) (u + s)) as [sv|] eqn:SV.
      2:{ apply nth_error_None in SV. rewrite (I_sers I) in SV. lia. }
      set (vs := set_from (so_vals sv) idx b).
      destruct (set_vals_inv s vs I) as [I1 K1].
      destruct (IH bufs _ e _ A' (kill_inv x j (Some s) true I1) H Nd') as [I2 [K2 R2]].
      split; [exact I2|]. split; [exact (kept_trans K1 K2)|].
      intros ve R. destruct (R _ _ S1) as [v [V1 V2]]. rewrite V2. apply R2.
      replace (set_from (lser v) idx b) with vs.
      + eapply write_rel; eassumption.
      + unfold line_at in V1. rewrite O, C1, SV in V1. inversion V1; subst v. reflexivity.
  Qed.

  Lemma period_ser : forall (v : line) p r, lser (period_ v p r None) = lser v.
  Proof. intros v p r. unfold period_. destruct (_ =? 0)%Z; reflexivity. Qed.

  (** one step *)
  Definition agrees (r : res env) (rv : res (venv (V:=V))) (st' : store) (A' : abs) : Prop :=
    match r, rv with
    | Ok _, Ok ve' => Rel st' ve' A'
    | Raise x, Raise y => x = y
    | _, _ => False
    end.
  Lemma step_ok : forall (s : stmt V) st e A A', Inv st e A -> a_step (shape_of s) A = Some A' ->
    let r := exec s st e in
    kept st (fst r) /\
    (forall e', snd r = Ok e' -> Inv (fst r) e' A') /\
    (forall ve, Rel st ve A -> agrees (snd r) (vexec s ve) (fst r) A').
  Proof.
    intros s st e A A' I H. destruct s; cbn [shape_of a_step] in H; cbn [exec vexec].
    - (* SOp *)
      destruct (forallb (live A) args) eqn:L; [|discriminate H]. inversion H; subst A'; clear H.
      destruct (live_looks _ I L) as [vs [Ev _]]. rewrite Ev.
      destruct (f vs) as [rs|x] eqn:F.
      2:{ cbn [fst snd]. split; [apply kept_refl|]. split; [discriminate|].
          intros ve R. rewrite (rel_looks _ I R L), Ev. cbn. rewrite F. cbn. reflexivity. }
      destruct (List.length rs =? List.length dsts) eqn:E.
      2:{ cbn [fst snd]. split; [apply kept_refl|]. split; [discriminate|].
          intros ve R. rewrite (rel_looks _ I R L), Ev. cbn. rewrite F. cbn. rewrite E. reflexivity. }
      apply Nat.eqb_eq in E. destruct (freshes_inv dsts rs I E) as [I1 [K1 R1]].
      destruct (freshes st e dsts rs) as [st1 e1] eqn:G. cbn [fst snd] in *.
      split; [exact K1|]. split; [intros e' He; inversion He; subst; exact I1|].
      intros ve R. rewrite (rel_looks _ I R L), Ev. cbn. rewrite F. cbn. rewrite E, Nat.eqb_refl. apply R1. exact R.
    - (* SBind *)
      destruct (dget (a_env A) src) as [j|] eqn:E; [|discriminate H]. inversion H; subst A'; clear H.
      destruct (I_env I _ E) as [E1 L1]. rewrite E1. cbn [fst snd].
      split; [apply kept_refl|]. split.
      + intros e' He. inversion He; subst e'; clear He. constructor; cbn [a_lins a_n a_env]; try apply I.
        * intros x i Hx. destruct (String.eqb_spec x dst) as [->|Ne].
          -- rewrite dget_dset_same in Hx; try rewrite dget_dset_same. inversion Hx; subst. auto.
          -- rewrite dget_dset_other in Hx by exact Ne; rewrite dget_dset_other by exact Ne. apply (I_env I _ Hx).
        * apply dset_nodup. apply (I_nd I).
      + intros ve R. destruct (R _ _ E) as [v [V1 V2]]. unfold vlook. rewrite V2. cbn.
        intros x i Hx. cbn [a_env] in Hx. destruct (String.eqb_spec x dst) as [->|Ne].
        * rewrite dget_dset_same in Hx; try rewrite dget_dset_same. inversion Hx; subst. eauto.
        * rewrite dget_dset_other in Hx by exact Ne; rewrite dget_dset_other by exact Ne. apply R. exact Hx.
    - (* SWrap *)
      destruct (a_ser A src) as [[j so]|] eqn:S; [|discriminate H]. inversion H; subst A'; clear H.
      destruct (a_ser_spec _ _ S) as [S1 S2]. destruct (I_env I _ S1) as [E1 L1]. rewrite E1.
      destruct (I_cor I _ S2) as [o [O C]]. rewrite O. unfold share. cbn [fst snd].
      assert (HL : List.length (lins st) = ul + List.length (a_lins A)) by apply (I_lins I).
      split; [split; intros k K; cbn [sers lins]; [reflexivity|apply nth_error_app1; lia]|]. split.
      + intros e' He. inversion He; subst e'; clear He. constructor; cbn [a_lins a_n a_env sers lins].
        * rewrite !app_length. cbn. lia.
        * apply I.
        * intros i so' Hi. destruct (Nat.lt_ge_cases i (List.length (a_lins A))) as [L|L].
          -- rewrite nth_error_app1 in Hi by exact L. destruct (I_cor I _ Hi) as [o' [O' C']].
             exists o'. split; [rewrite nth_error_app1 by lia; exact O'|exact C'].
          -- rewrite nth_error_app2 in Hi by exact L. destruct (i - List.length (a_lins A)) as [|k] eqn:K.
             2:{ cbn in Hi. destruct k; discriminate. }
             cbn in Hi. inversion Hi; subst so'. exists (mkL (lo_mp o) name (lo_ser o)).
             split; [|exact C]. rewrite nth_error_app2 by lia.
             replace (ul + i - List.length (lins st)) with 0 by lia. reflexivity.
        * intros x i Hx. rewrite app_length. cbn [List.length].
          destruct (String.eqb_spec x dst) as [->|Ne].
          -- rewrite dget_dset_same in Hx; try rewrite dget_dset_same. inversion Hx; subst. split; [f_equal; lia|lia].
          -- rewrite dget_dset_other in Hx by exact Ne; rewrite dget_dset_other by exact Ne. destruct (I_env I _ Hx). split; [assumption|lia].
        * apply dset_nodup. apply (I_nd I).
      + intros ve R. destruct (R _ _ S1) as [v [V1 V2]]. unfold vlook. rewrite V2. cbn.
        intros x i Hx. cbn [a_env] in Hx. destruct (String.eqb_spec x dst) as [->|Ne].
        * rewrite dget_dset_same in Hx; try rewrite dget_dset_same. inversion Hx; subst; clear Hx. exists v. split; [|reflexivity].
          unfold line_at in *. rewrite O in V1. cbn [sers lins].
          rewrite nth_error_app2 by lia. replace (ul + List.length (a_lins A) - List.length (lins st)) with 0 by lia.
          cbn [nth_error lo_ser lo_mp]. exact V1.
        * rewrite dget_dset_other in Hx by exact Ne; rewrite dget_dset_other by exact Ne. destruct (R _ _ Hx) as [v' [W1 W2]].
          exists v'. split; [|exact W2].
          pose proof (@line_at_grow st [] [mkL (lo_mp o) name (lo_ser o)] _ _ W1) as G.
          rewrite app_nil_r in G. exact G.
    - (* SPeriod *)
      destruct (forallb (live A) args) eqn:L; [|discriminate H].
      destruct (a_ser A x) as [[j so]|] eqn:S; [|discriminate H].
      destruct (a_ser_spec _ _ S) as [S1 S2]. destruct (I_env I _ S1) as [E1 L1].
      assert (Lx : forallb (live A) (x :: args) = true).
      { cbn [forallb]. unfold live at 1. rewrite S1. exact L. }
      destruct (live_looks _ I Lx) as [vs [Ev Lv]]. rewrite Ev.
      destruct vs as [|v vs]; [discriminate Lv|].
      assert (Hv : line_at st (ul + j) = Some v).
      { cbn [looks] in Ev. unfold look in Ev. rewrite E1 in Ev.
        destruct (line_at st (ul + j)); cbn in Ev; [|discriminate].
        destruct (looks st e args); cbn in Ev; [|discriminate]. inversion Ev; subst. reflexivity. }
      destruct (f (v :: vs)) as [p|y] eqn:F.
      2:{ cbn [fst snd]. split; [apply kept_refl|]. split; [discriminate|].
          intros ve R. rewrite (rel_looks _ I R Lx), Ev. cbn. rewrite F. cbn. reflexivity. }
      destruct (I_cor I _ S2) as [o [O C]]. rewrite E1.
      assert (HO : ser_of st e x = Some (lo_ser o)) by (unfold ser_of; rewrite E1, O; reflexivity).
      rewrite HO.
      set (v' := period_ v p rolling val).
      set (st1 := match val with None => st | Some _ => set_vals st (lo_ser o) (lser v') end).
      set (wr := match val with None => false | Some _ => true end) in *.
      destruct (negb wr || is_some so) eqn:OK; [|discriminate H]. inversion H; subst A'; clear H.
      (* the written Series is an own one *)
      assert (I1 : Inv st1 e A /\ kept st st1).
      { unfold st1. destruct val; [|split; [exact I|apply kept_refl]].
        destruct so as [s|]; [|discriminate OK]. destruct C as [C1 C2]. rewrite C1. apply set_vals_inv. exact I. }
      destruct I1 as [I1 K1].
      assert (HL1 : lins st1 = lins st) by (unfold st1; destruct val; reflexivity).
      assert (I2 : Inv (set_mp st1 (ul + j) (lmp v')) e A).
      { constructor; cbn [set_mp sers lins]; try apply I1.
        - rewrite upd_length. apply I1.
        - intros i so' Hi. destruct (I_cor I1 _ Hi) as [o' [O' C']].
          destruct (Nat.eq_dec i j) as [->|Ni].
          + exists (put_mp (lmp v') o'). split; [apply upd_same; exact O'|exact C'].
          + exists o'. split; [rewrite upd_other by lia; exact O'|exact C']. }
      cbn [fst snd]. split; [|split].
      + apply (kept_trans K1). split; intros k K; cbn [set_mp sers lins]; [reflexivity|]. apply upd_other. lia.
      + intros e' He. inversion He; subst e'. apply kill_inv. exact I2.
      + intros ve R. rewrite (rel_looks _ I R Lx), Ev. unfold bind at 1. rewrite F. unfold bind at 1.
        assert (Lx1 : live A x = true) by (unfold live; rewrite S1; reflexivity).
        rewrite (rel_look _ I R Lx1). unfold look. rewrite E1, Hv. unfold bind. cbn [agrees].
        assert (Hser : exists sv, nth_error (sers st) (lo_ser o) = Some sv /\ v = mkLine (lo_mp o) (so_vals sv)).
        { unfold line_at in Hv. rewrite O in Hv. destruct (nth_error (sers st) (lo_ser o)) as [sv|]; [|discriminate].
          inversion Hv; subst. eauto. }
        destruct Hser as [sv [SV Ev']].
        assert (Hx : line_at (set_mp st1 (ul + j) (lmp v')) (ul + j) = Some v').
        { unfold line_at. cbn [set_mp sers lins]. rewrite HL1. rewrite (upd_same _ _ _ O). cbn [put_mp lo_ser lo_mp].
          unfold st1, v'. destruct val as [c|].
          - cbn [set_vals sers]. rewrite (upd_same _ _ _ SV). cbn. destruct (period_ v p rolling (Some c)); reflexivity.
          - rewrite SV. pose proof (period_ser v p rolling) as Q. rewrite Ev' in Q at 2. cbn [lser] in Q.
            destruct (period_ v p rolling None); cbn in *. subst. reflexivity. }
        intros y i H. unfold kill in H. cbn [a_env] in H. apply dget_filter in H; [|apply (I_nd I)].
        destruct H as [H G]. cbn [fst snd] in G.
        destruct (String.eqb_spec y x) as [->|Ne].
        * assert (i = j) by congruence. subst i. rewrite dget_dset_same. eauto.
        * rewrite dget_dset_other by exact Ne. cbn [orb] in G. apply negb_true_iff in G. apply orb_false_iff in G.
          destruct G as [G1 G2]. apply Nat.eqb_neq in G1.
          destruct (R _ _ H) as [w [W1 W2]]. exists w. split; [|exact W2].
          destruct (I_env I _ H) as [_ Li].
          destruct (nth_error (a_lins A) i) as [so'|] eqn:Ei; [|apply nth_error_None in Ei; lia].
          rewrite (nth_error_nth _ _ None Ei) in G2.
          destruct (I_cor I _ Ei) as [o' [O' C']].
          unfold line_at in W1. rewrite O' in W1.
          destruct (nth_error (sers st) (lo_ser o')) as [sw|] eqn:SW; [|discriminate].
          unfold line_at. cbn [set_mp sers lins]. rewrite HL1. rewrite upd_other by lia. rewrite O'.
          unfold st1. destruct val as [c|]; [|rewrite SW; exact W1].
          destruct so as [s|]; [|discriminate OK]. destruct C as [C1 C2]. cbn [set_vals sers].
          destruct (Nat.eq_dec (lo_ser o') (lo_ser o)) as [F1|F1]; [|rewrite upd_other by exact F1; rewrite SW; exact W1].
          exfalso. unfold wr in G2. cbn [andb] in G2. destruct so' as [s'|]; [|lia]. cbn in G2.
          apply Nat.eqb_neq in G2. lia.
    - (* SApply *)
      cbn [map fst] in H.
      destruct (forallb (live A) (self :: map fst args) && nodupb (self :: map fst args)) eqn:L; [|discriminate H].
      apply andb_true_iff in L. destruct L as [L Nd]. apply nodupb_spec in Nd.
      set (ws := (self, negb raw && wself) :: args) in *.
      destruct (a_writes ws A) as [A1|] eqn:W; [|discriminate H].
      destruct (forallb (live A1) (self :: map fst args)); [|discriminate H]. inversion H; subst A'; clear H.
      destruct (live_looks _ I L) as [vs [Ev Lv]]. rewrite Ev.
      set (idx := (top_mp vs - 1)%Z).
      destruct (f (map (fun v => slice_from (lser v) idx) vs)) as [bufs r] eqn:F.
      assert (Nd' : NoDup (map fst ws)) by exact Nd.
      destruct (write_back_inv idx ws bufs I W Nd') as [I1 [K1 R1]].
      destruct r as [rs|x].
      2:{ cbn [fst snd]. split; [exact K1|]. split; [discriminate|].
          intros ve R. rewrite (rel_looks _ I R L), Ev. unfold bind at 1. fold idx. rewrite F. cbn. reflexivity. }
      destruct (List.length rs =? List.length dsts) eqn:E.
      2:{ cbn [fst snd]. split; [exact K1|]. split; [discriminate|].
          intros ve R. rewrite (rel_looks _ I R L), Ev. unfold bind at 1. fold idx. rewrite F. unfold bind. rewrite E.
          reflexivity. }
      apply Nat.eqb_eq in E.
      assert (E' : List.length (map (stored vs) rs) = List.length dsts) by (rewrite map_length; exact E).
      destruct (freshes_inv dsts (map (stored vs) rs) I1 E') as [I2 [K2 R2]].
      destruct (freshes (write_back st e idx ws bufs) e dsts (map (stored vs) rs)) as [st2 e2] eqn:G.
      cbn [fst snd] in *.
      split; [exact (kept_trans K1 K2)|]. split; [intros e' He; inversion He; subst; exact I2|].
      intros ve R. rewrite (rel_looks _ I R L), Ev. unfold bind at 1. fold idx. rewrite F. unfold bind. rewrite E, Nat.eqb_refl.
      cbn [agrees]. apply R2. apply R1. exact R.
    - discriminate H.
  Qed.

  (** all the steps *)
  Lemma run_ok : forall (p : list (stmt V)) st e A oA, Inv st e A -> a_run (map shape_of p) A = Some oA ->
    let r := execs p st e in
    kept st (fst r) /\
    (forall e', snd r = Ok e' -> exists A', oA = Some A' /\ Inv (fst r) e' A') /\
    (forall ve, Rel st ve A ->
       match snd r, vexecs p ve with
       | Ok _, Ok ve' => exists A', oA = Some A' /\ Rel (fst r) ve' A'
       | Raise x, Raise y => x = y
       | _, _ => False
       end).
  Proof.
    induction p as [|s p IH]; intros st e A oA I H; cbn [map a_run execs vexecs] in *.
    - inversion H; subst oA. cbn. split; [apply kept_refl|]. split; [intros e' He; inversion He; subst; eauto|eauto].
    - assert (D : (exists x, s = SFail x /\ oA = None) \/
                  (exists A', a_step (shape_of s) A = Some A' /\ a_run (map shape_of p) A' = Some oA)).
      { destruct s; cbn [shape_of] in *; try (right; destruct (a_step _ A) as [A'|]; [eauto|discriminate H]).
        left. inversion H. eauto. }
      destruct D as [[x [-> ->]]|[A' [S S']]].
      + cbn. split; [apply kept_refl|]. split; [discriminate|]. intros; reflexivity.
      + destruct (step_ok s I S) as [K1 [I1 R1]]. destruct (exec s st e) as [st1 r1] eqn:X. cbn [fst snd] in *.
        destruct r1 as [e1|x].
        2:{ cbn. split; [exact K1|]. split; [discriminate|]. intros ve R. specialize (R1 _ R).
            destruct (vexec s ve); cbn in *; [contradiction|assumption]. }
        specialize (I1 _ eq_refl). destruct (IH _ _ _ _ I1 S') as [K2 [I2 R2]].
        split; [exact (kept_trans K1 K2)|]. split; [exact I2|].
        intros ve R. specialize (R1 _ R). destruct (vexec s ve) as [ve1|]; cbn [agrees bind] in *; [|contradiction].
        apply R2. exact R1.
  Qed.
End Facts.
