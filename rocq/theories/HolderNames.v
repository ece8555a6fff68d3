(** Attribute look-up and membership test for classes with renamed outputs (facts for Prop_Holder.v). *)
From Coq Require Import List String Bool Arith ZArith.
From Verif Require Import Series Py PyFacts LinesGen Holder HolderSpec HolderFacts HolderFacts2 PropHolderFacts.
Import ListNotations.
Local Open Scope string_scope.
Local Open Scope list_scope.
Local Open Scope nat_scope.

Lemma refers_fun : forall cls s n m, refers cls s n -> refers cls s m -> n = m.
Proof. unfold refers. intros cls s n m [H|H] [K|K]; rewrite H in K; now inversion K. Qed.
Lemma refers_or_endless : forall cls s, (exists n, refers cls s n) \/ resolve cls s = Endless.
Proof. intros cls s. unfold refers. destruct (resolve cls s) as [n|n|]; eauto. Qed.

Lemma lset_vals : forall (A : Type) (c c1 : cont A) n v, lset c n v = Ok c1 ->
  exists t w, refers (c_cls c) n t /\ c_vals c1 = dset (c_vals c) t w.
Proof.
  intros A c c1 n v E. unfold lset in E. destruct (to_line v n) as [l|]; [|discriminate E]. cbn [bind] in E.
  unfold refers. destruct (resolve (c_cls c) n) as [t|t|]; [| |discriminate E].
  - inversion E; subst. eexists _, _. split; [left; reflexivity|reflexivity].
  - destruct (smem t lines_ro); [discriminate E|]. inversion E; subst. eexists _, _. split; [right; reflexivity|reflexivity].
Qed.
Lemma stored_all : forall (A : Type) cls t os (c c' : cont A), c_cls c = cls -> lsets c os = Ok c' ->
  ((exists m, In m (map fst os) /\ refers cls m t) \/ dget (c_vals c) t <> None <-> dget (c_vals c') t <> None).
Proof.
  intros A cls t. induction os as [|[n v] os IH]; cbn [lsets]; intros c c' Ec H.
  - inversion H; subst. split; [|auto]. now intros [(m & [] & _)|K].
  - destruct (lset c n v) as [c1|] eqn:E; [|discriminate H]. cbn [bind] in H.
    destruct (lset_shape _ _ _ E) as [Ec1 _]. rewrite Ec in Ec1.
    rewrite <- (IH _ _ Ec1 H). destruct (@lset_vals A _ _ _ _ E) as (u & w & R & D). rewrite Ec in R. rewrite D.
    cbn [map fst In]. destruct (string_dec u t) as [->|Ne].
    + rewrite dget_dset_same. split; [intros _; right; discriminate|intros _; left; exists n; auto].
    + rewrite dget_dset_other by congruence. split.
      * intros [(m & [<-|I] & Q)|K]; [exfalso; apply Ne; eapply refers_fun; eassumption|eauto|auto].
      * intros [(m & I & Q)|K]; eauto.
Qed.

Section Built.
  Context {A : Type}.
  Variables (bases : list (list string)) (decl : list ldef) (ext : lext) (cls : lclass).
  Hypothesis G : lgenerate bases decl ext = Ok cls.
  Variables (islots : list string) (mps : list Z) (extra : list string) (body : list act)
            (outs : list (string * hval A)) (h : holder A).
  Hypothesis B : construct cls (lnames cls) islots mps extra body outs = Ok h.

  Lemma slot_named : forall s n, resolve cls s = Slot n -> In n (lnames cls).
  Proof.
    intros s n. unfold resolve.
    destruct (smem s (map snd (lmaps cls))).
    - destruct (last_name cls) as [m|]; [|discriminate]. destruct (smem m (map snd (lmaps cls))); [discriminate|].
      destruct (smem m (lnames cls)) eqn:E; [|discriminate]. intros Q; inversion Q; subst. now apply smem_spec.
    - destruct (smem s (lnames cls)) eqn:E; [|discriminate]. intros Q; inversion Q; subst. now apply smem_spec.
  Qed.
  Lemma plain_unnamed : forall s n, resolve cls s = Plain n -> In n (lnames cls) -> last_name cls = None /\ n = s.
  Proof.
    intros s n. unfold resolve.
    destruct (smem s (map snd (lmaps cls))).
    - destruct (last_name cls) as [m|]; [|intros Q; inversion Q; auto]. destruct (smem m (map snd (lmaps cls))); [discriminate|].
      destruct (smem m (lnames cls)) eqn:E; [discriminate|]. intros Q; inversion Q; subst. intros I. apply smem_spec in I. congruence.
    - destruct (smem s (lnames cls)) eqn:E; [discriminate|]. intros Q; inversion Q; subst. intros I. apply smem_spec in I. congruence.
  Qed.

  Lemma named_stored : forall n, In n (lnames cls) -> exists l, dget (c_vals (hd_out h)) n = Some l.
  Proof.
    intros n Hn. destruct (holder_access _ _ _ G _ _ _ _ _ B) as (ls & E & _ & _ & _ & Ha).
    rewrite <- E in Hn. apply in_map_iff in Hn. destruct Hn as (l & <- & Hl). apply In_nth_error in Hl. destruct Hl as [k Hk].
    destruct (Ha k l Hk) as (_ & _ & _ & L & _).
    assert (I : In (h_name l) (lnames cls)) by (rewrite <- E; apply in_map; eapply nth_error_In; eassumption).
    rewrite (@lget_slot A bases decl ext cls G _ _ _ _ _ _ B _ I) in L.
    destruct (dget (c_vals (hd_out h)) (h_name l)) as [l'|]; [eauto|discriminate].
  Qed.
  Lemma stored_iff_all : forall t,
    dget (c_vals (hd_out h)) t <> None <-> exists m, In m (map fst outs) /\ refers cls m t.
  Proof.
    intros t. destruct (construct_inv _ _ _ _ _ _ B) as (d0 & d1 & d2 & pm & _ & _ & L & _).
    rewrite <- (@stored_all A cls t outs (new_cont cls (lnames cls)) _ eq_refl L). cbn [new_cont c_vals dget].
    split; [intros [H|H]; [exact H|congruence]|auto].
  Qed.

  (** the attribute a name refers to *)
  Lemma lget_refers : forall s n, refers cls s n -> ~ In n lines_ro -> ~ In n lines_methods ->
    lget (hd_out h) s = match dget (c_vals (hd_out h)) n with Some l => Ok (ALine l) | None => Raise AttributeError end.
  Proof.
    intros s n R Ro Me. destruct (built_shape _ _ _ _ _ _ B) as [Sc _]. unfold lget. rewrite Sc.
    destruct R as [->| ->]; [reflexivity|].
    apply smem_false in Ro. apply smem_false in Me. rewrite Ro, Me. now destruct (dget (c_vals (hd_out h)) n).
  Qed.

  Lemma hget_unreserved : forall s, ~ reserved h s ->
    hget h s = (b <- lhas (hd_out h) s ;;
             if b : bool then a <- lget (hd_out h) s ;; Ok (FOut a)
             else match (a <- litem (hd_out h) (KInt 0) ;; as_line a) with
                  | Ok l => if smem s line_attrs then Ok (FFirst l s) else Raise AttributeError
                  | Raise AttributeError => Raise AttributeError
                  | Raise e => Raise e
                  end).
  Proof.
    intros s R. unfold hget, reserved in *.
    assert (smem s holder_props = false) as -> by (apply smem_false; tauto).
    assert (dget (hd_attrs h) s = None) as -> by (apply dget_none; tauto).
    assert (smem s holder_own = false) as -> by (apply smem_false; tauto).
    assert (smem s (hd_extra h) = false) as -> by (apply smem_false; tauto). reflexivity.
  Qed.
  Lemma first_output : exists l, hitem h (KInt 0) = Ok (ALine l) /\ hoperand h = Ok l.
  Proof.
    destruct (holder_access _ _ _ G _ _ _ _ _ B) as (ls & Hn & Hl & _ & _ & Ha).
    destruct ls as [|l ls].
    { exfalso. destruct (built_lines _ _ _ G _ _ _ _ _ B) as (ls' & F & _ & m & Z & _).
      cbn in Hn. rewrite <- Hn in F. inversion F; subst ls'. discriminate Z. }
    destruct (Ha 0 l eq_refl) as [H0 _]. exists l. split; [exact H0|]. unfold hoperand. unfold hitem in H0.
    cbn [Z.of_nat] in H0. rewrite H0. reflexivity.
  Qed.

  Lemma lookup_all : forall s n, refers cls s n -> ~ reserved h s -> ~ In n lines_ro -> ~ In n lines_methods ->
    ((exists m, In m (map fst outs) /\ refers cls m n) ->
       exists l, hget h s = Ok (FOut (ALine l)) /\ lget (hd_out h) s = Ok (ALine l)) /\
    (~ (exists m, In m (map fst outs) /\ refers cls m n) -> In s line_attrs ->
       exists l, hitem h (KInt 0) = Ok (ALine l) /\ hget h s = Ok (FFirst l s)) /\
    (~ (exists m, In m (map fst outs) /\ refers cls m n) -> ~ In s line_attrs -> hget h s = Raise AttributeError).
  Proof.
    intros s n R Rs Ro Me. pose proof (lget_refers s n R Ro Me) as LG. pose proof (stored_iff_all n) as P.
    rewrite (hget_unreserved s Rs). unfold lhas. rewrite LG.
    destruct first_output as (l0 & H0 & _). unfold hitem in *. rewrite H0. cbn [bind as_line].
    split; [|split].
    - intros H. apply P in H. destruct (dget (c_vals (hd_out h)) n) as [l|]; [|congruence]. exists l. auto.
    - intros H I. destruct (dget (c_vals (hd_out h)) n) as [l|]; [exfalso; apply H, P; discriminate|].
      cbn [bind]. apply smem_spec in I. rewrite I. eauto.
    - intros H I. destruct (dget (c_vals (hd_out h)) n) as [l|]; [exfalso; apply H, P; discriminate|].
      cbn [bind]. apply smem_false in I. now rewrite I.
  Qed.
  Lemma lookup_endless : forall s, resolve cls s = Endless -> ~ reserved h s -> hget h s = Raise RecursionError.
  Proof.
    intros s E R. rewrite (hget_unreserved s R). unfold lhas, lget. destruct (built_shape _ _ _ _ _ _ B) as [-> _].
    now rewrite E.
  Qed.

  Lemma contains_all : forall s,
    (resolve cls s = Endless -> hcontains h s = Raise RecursionError) /\
    (forall n, refers cls s n -> exists b, hcontains h s = Ok b /\
       (b = true <-> In n (lnames cls) \/ (exists m, In m (map fst outs) /\ refers cls m n) \/
                     In n lines_ro \/ In n lines_methods)).
  Proof.
    intros s. destruct (built_shape _ _ _ _ _ _ B) as [Sc _]. split.
    - intros E. unfold hcontains, lhas, lget. now rewrite Sc, E.
    - intros n R. unfold hcontains, lhas, lget. rewrite Sc.
      destruct R as [R|R]; rewrite R.
      + pose proof (slot_named s n R) as I. destruct (named_stored n I) as [l ->]. exists true. tauto.
      + destruct (smem n lines_ro) eqn:E1.
        { apply smem_spec in E1. exists true. tauto. }
        destruct (dget (c_vals (hd_out h)) n) as [l|] eqn:D.
        { exists true. split; [reflexivity|]. split; [|reflexivity]. intros _. right. left. apply stored_iff_all. congruence. }
        destruct (smem n lines_methods) eqn:E2.
        { apply smem_spec in E2. exists true. tauto. }
        exists false. split; [reflexivity|]. split; [discriminate|]. apply smem_false in E1. apply smem_false in E2.
        intros [H|[H|[H|H]]]; try contradiction.
        * destruct (named_stored n H) as [l Q]. congruence.
        * apply stored_iff_all in H. congruence.
  Qed.
End Built.

Lemma endless_names : forall (A : Type) cls islots mps extra body (outs : list (string * hval A)) h,
  construct cls (lnames cls) islots mps extra body outs = Ok h ->
  (forall s, (exists n, refers cls s n) \/ resolve cls s = Endless) /\
  forall s, resolve cls s = Endless -> ~ reserved h s -> hget h s = Raise RecursionError.
Proof.
  intros A cls islots mps extra body outs h B. split; [apply refers_or_endless|].
  intros s E R. eapply lookup_endless; eassumption.
Qed.
