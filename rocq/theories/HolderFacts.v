(** Facts about the containers of lines. *)
From Coq Require Import List String Bool Arith ZArith Lia.
From Verif Require Import Series Py PyFacts LinesGen LinesGenFacts Table Registry Holder HolderSpec.
Import ListNotations.
Set Implicit Arguments.
Local Open Scope string_scope.
Local Open Scope list_scope.
Local Open Scope nat_scope.

Lemma smem_filter_neg : forall (r l : list string) x,
  In x (filter (fun y => negb (smem y r)) l) -> smem x r = false.
Proof. intros r l x H. apply filter_In in H. destruct H as [_ H]. now apply negb_true_iff in H. Qed.

Lemma filter_nodup : forall (X : Type) (f : X -> bool) l, NoDup l -> NoDup (filter f l).
Proof. intros. now apply NoDup_filter. Qed.

Lemma lgenerate_wf : forall bases decl ext cls, lgenerate bases decl ext = Ok cls ->
  NoDup (lnames cls) /\ forall s, In s (lnames cls) -> resolve cls s = Slot s.
Proof.
  intros bases decl ext cls H.
  unfold lgenerate in H. destruct (parse_decl decl) as [cd ms].
  destruct (match cd with [] => _ | _ :: _ => _ end) as [[fd ms']|e] eqn:E in H; [|discriminate H].
  cbn [bind] in H. inversion H; subst; clear H. cbn [lnames].
  rewrite keep_last_spec. split.
  - apply NoDup_filter, keep_last_nodup.
  - intros s Hs. unfold resolve. cbn [lmaps lnames].
    rewrite (smem_filter_neg _ _ _ Hs).
    apply smem_spec in Hs. now rewrite Hs.
Qed.

Lemma resolve_slot_in : forall cls n s, resolve cls n = Slot s -> In s (lnames cls).
Proof.
  intros cls n s H. unfold resolve in H.
  destruct (smem n (map snd (lmaps cls))).
  - destruct (last_name cls) as [m|]; [|discriminate].
    destruct (smem m (map snd (lmaps cls))); [discriminate|].
    destruct (smem m (lnames cls)) eqn:E; [|discriminate].
    inversion H; subst. now apply smem_spec.
  - destruct (smem n (lnames cls)) eqn:E; [|discriminate].
    inversion H; subst. now apply smem_spec.
Qed.

Lemma plain_not_slot : forall cls s x, resolve cls s = Plain x -> resolve cls x = Slot x -> False.
Proof.
  intros cls s x H1 H2. pose proof (resolve_slot_in _ _ H2) as H3. apply smem_spec in H3.
  unfold resolve in H1. destruct (smem s (map snd (lmaps cls))) eqn:E.
  - destruct (last_name cls) as [m|] eqn:L.
    + destruct (smem m (map snd (lmaps cls))); [discriminate|].
      destruct (smem m (lnames cls)) eqn:E2; [discriminate|]. inversion H1; subst. congruence.
    + inversion H1; subst. unfold resolve in H2. rewrite E, L in H2. discriminate.
  - destruct (smem s (lnames cls)) eqn:E2; [discriminate|]. inversion H1; subst. congruence.
Qed.

(** ** Lists in res *)
Lemma lmapM_ok : forall (B C : Type) (f : B -> res C) l r,
  lmapM f l = Ok r <-> Forall2 (fun x y => f x = Ok y) l r.
Proof.
  intros B C f. induction l as [|x l IH]; intros r; cbn.
  - split; [intros H; inversion H; constructor|intros H; inversion H; reflexivity].
  - split.
    + destruct (f x) as [y|e] eqn:E; [|discriminate]. cbn.
      destruct (lmapM f l) as [r'|e] eqn:E2; [|discriminate]. cbn.
      intros H. inversion H; subst. constructor; auto. now apply IH.
    + intros H. inversion H as [|? y ? r' E F]; subst. rewrite E. cbn.
      apply IH in F. rewrite F. reflexivity.
Qed.
Lemma forall2_nth : forall (B C : Type) (P : B -> C -> Prop) l r, Forall2 P l r -> forall k x,
  nth_error l k = Some x -> exists y, nth_error r k = Some y /\ P x y.
Proof.
  induction 1 as [|x y l r H _ IH]; intros k z Hk; [destruct k; discriminate|].
  destruct k; cbn in *; [inversion Hk; subst; eauto|auto].
Qed.
Lemma forall2_nth_r : forall (B C : Type) (P : B -> C -> Prop) l r, Forall2 P l r -> forall k y,
  nth_error r k = Some y -> exists x, nth_error l k = Some x /\ P x y.
Proof.
  induction 1 as [|x y l r H _ IH]; intros k z Hk; [destruct k; discriminate|].
  destruct k; cbn in *; [inversion Hk; subst; eauto|auto].
Qed.
Lemma forall2_length : forall (B C : Type) (P : B -> C -> Prop) l r, Forall2 P l r -> List.length l = List.length r.
Proof. induction 1; cbn; congruence. Qed.

(** ** Assignments *)
Section A.
  Context {A : Type}.
  Implicit Types (c : cont A) (l : hline A) (v : hval A).

  Lemma to_line_name : forall v n l, to_line v n = Ok l ->
    h_name l = n /\ forall s, to_line v s = Ok (mkH (h_mp l) s (h_ser l)).
  Proof.
    intros v n l H. destruct v as [l0|a|c]; cbn [to_line] in *.
    - inversion H; subst; cbn. auto.
    - inversion H; subst; cbn. auto.
    - destruct (litem c (KInt 0)) as [a|e]; [|discriminate H]. cbn [bind] in *.
      destruct (as_line a) as [l0|e]; [|discriminate H]. cbn [bind] in *. inversion H; subst; cbn. auto.
  Qed.

  Lemma lset_shape : forall c s v c', lset c s v = Ok c' -> c_cls c' = c_cls c /\ c_slots c' = c_slots c.
  Proof.
    intros c s v c' H. unfold lset in H.
    destruct (to_line v s) as [l|e]; [|discriminate]. cbn [bind] in H.
    destruct (resolve (c_cls c) s) as [n|n|]; [|destruct (smem n lines_ro)|]; inversion H; subst; auto.
  Qed.
  Lemma lset_get : forall c s v c' m, lset c s v = Ok c' -> resolve (c_cls c) m = Slot m ->
    (resolve (c_cls c) s = Slot m -> exists l, to_line v m = Ok l /\ dget (c_vals c') m = Some l) /\
    (resolve (c_cls c) s <> Slot m -> dget (c_vals c') m = dget (c_vals c) m).
  Proof.
    intros c s v c' m H Hm. unfold lset in H.
    destruct (to_line v s) as [l|e] eqn:T; [|discriminate]. cbn [bind] in H.
    destruct (to_line_name _ _ T) as [N T'].
    destruct (resolve (c_cls c) s) as [n|n|] eqn:R; [| |discriminate].
    - inversion H; subst; clear H. cbn. split; intros H.
      + inversion H; subst. rewrite dget_dset_same. eauto.
      + apply dget_dset_other. congruence.
    - destruct (smem n lines_ro); [discriminate|]. inversion H; subst; clear H. cbn. split; intros H; [discriminate|].
      apply dget_dset_other. intros ->. 
      exact (plain_not_slot _ _ R Hm).
  Qed.

  Lemma lsets_shape : forall outs c c', lsets c outs = Ok c' -> c_cls c' = c_cls c /\ c_slots c' = c_slots c.
  Proof.
    induction outs as [|[s v] outs IH]; cbn [lsets]; intros c c' H; [inversion H; auto|].
    destruct (lset c s v) as [c1|e] eqn:E; [|discriminate H]. cbn [bind] in H.
    apply IH in H. apply lset_shape in E. intuition congruence.
  Qed.
  Lemma lsets_get : forall outs c c' m, lsets c outs = Ok c' -> resolve (c_cls c) m = Slot m ->
    (exists v l, last_given (c_cls c) outs m v /\ to_line v m = Ok l /\ dget (c_vals c') m = Some l) \/
    ((forall n w, In (n, w) outs -> resolve (c_cls c) n <> Slot m) /\ dget (c_vals c') m = dget (c_vals c) m).
  Proof.
    induction outs as [|[s v] outs IH]; cbn [lsets]; intros c c' m H Hm.
    - inversion H; subst. right. split; [intros n w []|reflexivity].
    - destruct (lset c s v) as [c1|e] eqn:E; [|discriminate H]. cbn [bind] in H.
      destruct (lset_shape _ _ _ E) as [Ec Es]. destruct (lset_get _ _ _ E Hm) as [G1 G2].
      rewrite <- Ec in Hm. destruct (IH _ _ _ H Hm) as [(w & l & (l1 & n & l2 & -> & R & L) & T & D)|[N D]].
      + left. exists w, l. rewrite Ec in *. split; [|auto].
        exists ((s, v) :: l1), n, l2. auto.
      + rewrite Ec in *. destruct (resolve (c_cls c) s) as [x|x|] eqn:R.
        * destruct (string_dec x m) as [->|Ne].
          { left. destruct (G1 eq_refl) as (l & T & D1). exists v, l. rewrite D, D1.
            split; [exists [], s, outs; auto|auto]. }
          { right. rewrite D. split; [|apply G2; congruence].
            intros n w [Q|Q]; [inversion Q; subst; congruence|eauto]. }
        * right. rewrite D. split; [|apply G2; congruence].
          intros n w [Q|Q]; [inversion Q; subst; congruence|eauto].
        * right. rewrite D. split; [|apply G2; congruence].
          intros n w [Q|Q]; [inversion Q; subst; congruence|eauto].
  Qed.
End A.

Section Built.
  Context {A : Type}.
  Variables (bases : list (list string)) (decl : list ldef) (ext : lext) (cls : lclass).
  Hypothesis G : lgenerate bases decl ext = Ok cls.
  Variables (islots : list string) (mps : list Z) (extra : list string) (body : list act)
            (outs : list (string * hval A)) (h : holder A).
  Hypothesis B : construct cls (lnames cls) islots mps extra body outs = Ok h.

  Lemma construct_inv : exists d0 d1 d2 pm,
    attrs_before islots mps = Ok d0 /\ acts d0 body = Ok d1 /\
    lsets (new_cont cls (lnames cls)) outs = Ok (hd_out h) /\
    ddels d1 (temporaries (List.length islots)) = Ok d2 /\
    minperiods (hd_out h) = Ok pm /\
    hd_attrs h = dset (dset d2 "_minperiods" (IPers (fst pm))) "_minperiod" (IPer (snd pm)) /\
    hd_extra h = extra.
  Proof.
    revert B. unfold construct. intros B'.
    destruct (attrs_before islots mps) as [d0|] eqn:E0; [|discriminate B']. cbn [bind] in B'.
    destruct (acts d0 body) as [d1|] eqn:E1; [|discriminate B']. cbn [bind] in B'.
    destruct (lsets (new_cont cls (lnames cls)) outs) as [o|] eqn:E2; [|discriminate B']. cbn [bind] in B'.
    destruct (ddels d1 (temporaries (List.length islots))) as [d2|] eqn:E3; [|discriminate B']. cbn [bind] in B'.
    destruct (minperiods o) as [pm|] eqn:E4; [|discriminate B']. cbn [bind] in B'.
    inversion B'; subst; clear B'. exists d0, d1, d2, pm. cbn. auto 10.
  Qed.

  Lemma built_shape : c_cls (hd_out h) = cls /\ c_slots (hd_out h) = lnames cls.
  Proof.
    destruct construct_inv as (d0 & d1 & d2 & pm & _ & _ & L & _).
    apply lsets_shape in L. exact L.
  Qed.
  Lemma lget_slot : forall s, In s (lnames cls) ->
    lget (hd_out h) s = match dget (c_vals (hd_out h)) s with Some l => Ok (ALine l) | None => Raise AttributeError end.
  Proof.
    intros s Hs. unfold lget. destruct built_shape as [-> _]. now rewrite (proj2 (lgenerate_wf _ _ _ G) s Hs).
  Qed.

  (** the lines of the outputs, in order *)
  Lemma built_lines : exists ls,
    Forall2 (fun s l => lget (hd_out h) s = Ok (ALine l) /\ h_name l = s /\
                        exists v, last_given cls outs s v /\ to_line v s = Ok l) (lnames cls) ls /\
    liter (hd_out h) = Ok (map (fun l => ALine l) ls) /\
    exists m, zmax_list (map (@h_mp A) ls) = Ok m /\ minperiods (hd_out h) = Ok (map (@h_mp A) ls, m).
  Proof.
    destruct construct_inv as (d0 & d1 & d2 & pm & _ & _ & L & _ & M & _).
    unfold minperiods in M.
    destruct (liter (hd_out h)) as [as_|] eqn:I; [|discriminate M]. cbn [bind] in M.
    destruct (lmapM (@as_line A) as_) as [ls|] eqn:E; [|discriminate M]. cbn [bind] in M.
    destruct (zmax_list (map (@h_mp A) ls)) as [m|] eqn:Z; [|discriminate M]. cbn [bind] in M.
    inversion M; subst; clear M.
    assert (as_ = map (fun l => ALine l) ls) as ->.
    { apply lmapM_ok in E. clear - E. induction E as [|a l x y H E IH]; [reflexivity|].
      cbn. rewrite IH. f_equal. destruct a; inversion H; reflexivity. }
    exists ls. split; [|split; [reflexivity|exists m; unfold minperiods; rewrite I; cbn [bind]; rewrite E; cbn [bind]; now rewrite Z]].
    unfold liter in I. destruct built_shape as [Sc Ss]. rewrite Ss in I. apply lmapM_ok in I.
    assert (W : forall s, In s (lnames cls) -> resolve cls s = Slot s) by (apply (lgenerate_wf _ _ _ G)).
    pose proof lget_slot as LS.
    assert (K : forall ns ls, incl ns (lnames cls) ->
              Forall2 (fun x y => lget (hd_out h) x = Ok y) ns (map (fun l => ALine l) ls) ->
              Forall2 (fun s l => lget (hd_out h) s = Ok (ALine l) /\ h_name l = s /\
                        exists v, last_given cls outs s v /\ to_line v s = Ok l) ns ls).
    { clear I E Z Sc Ss. induction ns as [|s ns IH]; intros ls' Hi F; destruct ls' as [|l ls']; inversion F; subst; constructor.
      - assert (Hs : In s (lnames cls)) by (apply Hi; now left).
        split; [assumption|].
        pose proof (LS s Hs) as Q. rewrite H2 in Q.
        destruct (dget (c_vals (hd_out h)) s) as [l'|] eqn:D; [|discriminate Q]. inversion Q; subst l'; clear Q.
        destruct (@lsets_get A outs _ _ s L (W s Hs)) as [(v & l' & Lg & T & D')|[_ D']]; cbn [c_cls new_cont] in *.
        + rewrite D in D'. inversion D'; subst l'. split; [now apply to_line_name in T|]. eauto.
        + rewrite D in D'. discriminate D'.
      - apply IH; auto. intros x Hx. apply Hi. now right. }
    apply K; [apply incl_refl|exact I].
  Qed.
End Built.
