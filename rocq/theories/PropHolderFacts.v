(** The properties of the containers, ready to be cited. *)
From Coq Require Import List String Ascii Bool Arith ZArith Lia.
From Verif Require Import Series Py PyFacts LineFacts LinesGen LinesGenFacts Table Registry Holder HolderSpec HolderFacts HolderFacts2.
Import ListNotations.
Set Implicit Arguments.
Local Open Scope string_scope.
Local Open Scope list_scope.
Local Open Scope nat_scope.

Lemma getitem_neg : forall (X : Type) (l : list X) k x, nth_error l k = Some x ->
  getitem l (Z.of_nat k - Z.of_nat (List.length l))%Z = Ok x.
Proof.
  intros X l k x H. assert (k < List.length l) by (apply nth_error_Some; congruence).
  unfold getitem. destruct (Z.ltb_spec (Z.of_nat k - Z.of_nat (List.length l)) 0); [|lia].
  replace (Z.of_nat (List.length l) + (Z.of_nat k - Z.of_nat (List.length l)))%Z with (Z.of_nat k) by lia.
  destruct (Z.ltb_spec (Z.of_nat k) 0); [lia|]. now rewrite Nat2Z.id, H.
Qed.
Lemma getitem_outside : forall (X : Type) (l : list X) i,
  (i < - Z.of_nat (List.length l) \/ Z.of_nat (List.length l) <= i)%Z -> getitem l i = Raise IndexError.
Proof.
  intros X l i H. unfold getitem. destruct (Z.ltb_spec i 0).
  - destruct (Z.ltb_spec (Z.of_nat (List.length l) + i) 0); [reflexivity|lia].
  - destruct (Z.ltb_spec i 0); [lia|].
    assert (nth_error l (Z.to_nat i) = None) as ->; [apply nth_error_None; lia|reflexivity].
Qed.
Lemma index_of_in : forall l s, (In s l -> exists i, index_of s l = Some i) /\ (~ In s l -> index_of s l = None).
Proof.
  induction l as [|y l IH]; intros s; cbn; [split; [tauto|reflexivity]|].
  destruct (String.eqb_spec y s) as [->|N]; [split; [eauto|tauto]|].
  destruct (IH s) as [I1 I2]. split.
  - intros [E|H]; [congruence|]. destruct (I1 H) as [i ->]. cbn. eauto.
  - intros H. rewrite I2; [reflexivity|tauto].
Qed.

Section Built.
  Context {A : Type}.
  Variables (bases : list (list string)) (decl : list ldef) (ext : lext) (cls : lclass).
  Hypothesis G : lgenerate bases decl ext = Ok cls.
  Variables (islots : list string) (mps : list Z) (extra : list string) (body : list act)
            (outs : list (string * hval A)) (h : holder A).
  Hypothesis B : construct cls (lnames cls) islots mps extra body outs = Ok h.

  Lemma holder_access : exists ls,
    map (@h_name A) ls = lnames cls /\ hlen h = List.length ls /\ hkeys h = lnames cls /\
    hiter h = Ok (map (fun l => ALine l) ls) /\
    forall k l, nth_error ls k = Some l ->
      hitem h (KInt (Z.of_nat k)) = Ok (ALine l) /\
      hitem h (KInt (Z.of_nat k - Z.of_nat (List.length ls))) = Ok (ALine l) /\
      hitem h (KStr (h_name l)) = Ok (ALine l) /\
      lget (hd_out h) (h_name l) = Ok (ALine l) /\
      hcontains h (h_name l) = Ok true /\
      exists v, last_given cls outs (h_name l) v /\ to_line v (h_name l) = Ok l.
  Proof.
    destruct (built_lines _ _ _ G _ _ _ _ _ B) as (ls & F & I & _).
    destruct (built_shape _ _ _ _ _ _ B) as [Sc Ss].
    pose proof (forall2_length F) as Len.
    assert (N : map (@h_name A) ls = lnames cls).
    { clear - F. induction F as [|s l ns ls H F IH]; [reflexivity|]. cbn. rewrite IH. f_equal. apply H. }
    exists ls. unfold hlen, llen, hkeys, lkeys, hiter. rewrite Ss.
    repeat (split; [congruence|]).
    intros k l Hk. destruct (forall2_nth_r F _ Hk) as (s & Hs & L & E & V). subst s.
    unfold hitem, litem. rewrite Ss.
    split; [rewrite (getitem_nat _ _ Hs); exact L|].
    split; [rewrite <- Len, (getitem_neg _ _ Hs); exact L|].
    split.
    - destruct (proj1 (index_of_in (lnames cls) (h_name l)) (nth_error_In _ _ Hs)) as [i ->]. exact L.
    - split; [exact L|]. split; [|exact V]. unfold hcontains, lhas. now rewrite L.
  Qed.

  Lemma holder_assign : forall k s v l, nth_error (lnames cls) k = Some s -> to_line v s = Ok l ->
    exists o, lsetitem (hd_out h) (Z.of_nat k) v = Ok o /\
      hitem (with_outputs h o) (KInt (Z.of_nat k)) = Ok (ALine l) /\ lget o s = Ok (ALine l) /\
      forall i t, i <> k -> nth_error (lnames cls) i = Some t ->
        hitem (with_outputs h o) (KInt (Z.of_nat i)) = hitem h (KInt (Z.of_nat i)).
  Proof.
    intros k s v l Hk T. destruct (built_shape _ _ _ _ _ _ B) as [Sc Ss]. destruct (lgenerate_wf _ _ _ G) as [Nd Sl].
    pose proof (Sl _ (nth_error_In _ _ Hk)) as R. destruct (to_line_name _ _ T) as [Nm _].
    unfold lsetitem. rewrite Ss, (getitem_nat _ _ Hk). cbn [bind].
    assert (E : lset (hd_out h) s v = Ok (mkCont cls (lnames cls) (dset (c_vals (hd_out h)) s l))).
    { unfold lset. rewrite T. cbn [bind]. rewrite Sc, R, Ss. destruct l as [mp n sr]. cbn in *. now subst n. }
    eexists. split; [exact E|]. unfold hitem, litem, with_outputs. cbn [hd_out c_slots]. rewrite Ss.
    rewrite (getitem_nat _ _ Hk). cbn [bind]. unfold lget at 1 2. cbn [c_cls c_vals]. rewrite R, dget_dset_same.
    split; [reflexivity|]. split; [reflexivity|]. intros i t Hi Ht. rewrite (getitem_nat _ _ Ht). cbn [bind].
    unfold lget. cbn [c_cls c_vals]. rewrite Sc, (Sl _ (nth_error_In _ _ Ht)). rewrite dget_dset_other; [reflexivity|].
    intros ->. apply Hi. eapply (proj1 (NoDup_nth_error (lnames cls)) Nd); [|congruence].
    apply nth_error_Some. congruence.
  Qed.

  Lemma holder_errors :
    (forall i, (i < - Z.of_nat (hlen h) \/ Z.of_nat (hlen h) <= i)%Z -> hitem h (KInt i) = Raise IndexError) /\
    (forall s, ~ In s (lnames cls) -> hitem h (KStr s) = Raise ValueError) /\
    (forall i j, hitem h (KSlice i j) = Raise TypeError).
  Proof.
    destruct (built_shape _ _ _ _ _ _ B) as [Sc Ss].
    unfold hitem, litem, hlen, llen. rewrite Ss. split; [|split; [|reflexivity]].
    - intros i Hi. now rewrite (getitem_outside _ Hi).
    - intros s Hs. now rewrite (proj2 (index_of_in (lnames cls) s) Hs).
  Qed.

  Lemma holder_frame : exists ls,
    hiter h = Ok (map (fun l => ALine l) ls) /\
    frame (hd_out h) = Ok (combine (lnames cls) (map (@h_ser A) ls)) /\
    map fst (combine (lnames cls) (map (@h_ser A) ls)) = lnames cls.
  Proof.
    destruct (built_lines _ _ _ G _ _ _ _ _ B) as (ls & F & I & _).
    destruct (built_shape _ _ _ _ _ _ B) as [_ Ss].
    destruct (lgenerate_wf _ _ _ G) as [ND _].
    exists ls. split; [exact I|].
    assert (K : map fst (combine (lnames cls) (map (@h_ser A) ls)) = lnames cls).
    { clear - F. induction F as [|s l ns ls H F IH]; [reflexivity|]. cbn. now rewrite IH. }
    split; [|exact K].
    unfold frame, lkeys. rewrite Ss.
    assert (E : lmapM (fun k => a <- litem (hd_out h) (KStr k);; l <- as_line a;; Ok (k, h_ser l)) (lnames cls) =
                Ok (combine (lnames cls) (map (@h_ser A) ls))).
    { apply lmapM_ok.
      assert (Q : forall ns ls', incl ns (lnames cls) ->
        Forall2 (fun s l => lget (hd_out h) s = Ok (ALine l) /\ h_name l = s /\
                        exists v, last_given cls outs s v /\ to_line v s = Ok l) ns ls' ->
        Forall2 (fun x y => a <- litem (hd_out h) (KStr x);; l <- as_line a;; Ok (x, h_ser l) = Ok y) ns
                (combine ns (map (@h_ser A) ls'))).
      { induction ns as [|s ns IH]; intros ls' Hi H; inversion H; subst; cbn [map combine]; constructor.
        - unfold litem. rewrite Ss.
          destruct (proj1 (index_of_in (lnames cls) s) (Hi s (or_introl eq_refl))) as [i ->].
          destruct H2 as [-> _]. reflexivity.
        - apply IH; [intros x Hx; apply Hi; now right|assumption]. }
      apply Q; [apply incl_refl|exact F]. }
    rewrite E. cbn [bind]. f_equal.
    assert (U : forall (e d : dict A), NoDup (dkeys d ++ dkeys e) -> dupdate d e = d ++ e).
    { clear. induction e as [|[k v] e IH]; intros d N; cbn; [now rewrite app_nil_r|].
      change (dupdate (dset d k v) e = d ++ (k, v) :: e).
      assert (~ In k (dkeys d)).
      { intros H. cbn in N. apply NoDup_remove_2 in N. apply N. apply in_or_app. now left. }
      rewrite dkeys_dset_new by assumption. rewrite IH; [now rewrite <- app_assoc|].
      unfold dkeys in *. rewrite map_app. cbn. rewrite <- app_assoc. exact N. }
    apply U. cbn. unfold dkeys. now rewrite K.
  Qed.

  Lemma holder_direct : forall s, In s (lnames cls) ->
    ((exists l, hget h s = Ok (FOut (ALine l)) /\ lget (hd_out h) s = Ok (ALine l)) <-> ~ reserved h s).
  Proof.
    intros s Hs.
    destruct (built_lines _ _ _ G _ _ _ _ _ B) as (ls & F & _).
    assert (exists l, lget (hd_out h) s = Ok (ALine l)) as [l L].
    { apply In_nth_error in Hs. destruct Hs as [k Hk]. destruct (forall2_nth F _ Hk) as (l & _ & L & _). eauto. }
    unfold hget, reserved.
    destruct (smem s holder_props) eqn:E1.
    { apply smem_spec in E1. split; [intros (x & H & _); discriminate H|tauto]. }
    apply smem_false in E1.
    destruct (dget (hd_attrs h) s) as [v|] eqn:E2.
    { split; [intros (x & H & _); discriminate H|]. intros H. exfalso. apply H. right; right; right.
      apply dget_in in E2. now apply (in_map fst) in E2. }
    apply dget_none in E2.
    destruct (smem s holder_own || smem s (hd_extra h)) eqn:E3.
    { split; [intros (x & H & _); discriminate H|]. intros H. exfalso. apply H.
      apply orb_true_iff in E3. rewrite !smem_spec in E3. tauto. }
    apply orb_false_iff in E3. rewrite !smem_false in E3.
    unfold lhas. rewrite L. cbn [bind]. split; [intros _; tauto|]. intros _. exists l. auto.
  Qed.

  (** the order of attribute look-up on an indicator without renamed outputs *)
  Lemma holder_lookup : lmaps cls = [] -> forall s, ~ reserved h s -> ~ In s lines_ro -> ~ In s lines_methods ->
    (In s (lnames cls) \/ In s (map fst outs) -> exists l, hget h s = Ok (FOut (ALine l)) /\ lget (hd_out h) s = Ok (ALine l)) /\
    (~ In s (lnames cls) -> ~ In s (map fst outs) -> In s line_attrs ->
       exists l, hitem h (KInt 0) = Ok (ALine l) /\ hget h s = Ok (FFirst l s)) /\
    (~ In s (lnames cls) -> ~ In s (map fst outs) -> ~ In s line_attrs -> hget h s = Raise AttributeError).
  Proof.
    intros Hm s R Ro Me.
    destruct (construct_inv _ _ _ _ _ _ B) as (d0 & d1 & d2 & pm & _ & _ & L & _).
    destruct (built_shape _ _ _ _ _ _ B) as [Sc Ss].
    assert (Rs : forall x, resolve cls x = if smem x (lnames cls) then Slot x else Plain x).
    { intros x. unfold resolve. now rewrite Hm. }
    assert (HG : hget h s = (b <- lhas (hd_out h) s ;;
             if b : bool then a <- lget (hd_out h) s ;; Ok (FOut a)
             else match (a <- litem (hd_out h) (KInt 0) ;; as_line a) with
                  | Ok l => if smem s line_attrs then Ok (FFirst l s) else Raise AttributeError
                  | Raise AttributeError => Raise AttributeError
                  | Raise e => Raise e
                  end)).
    { unfold hget, reserved in *. 
      assert (smem s holder_props = false) as -> by (apply smem_false; tauto).
      assert (dget (hd_attrs h) s = None) as -> by (apply dget_none; tauto).
      assert (smem s holder_own = false) as -> by (apply smem_false; tauto).
      assert (smem s (hd_extra h) = false) as -> by (apply smem_false; tauto). reflexivity. }
    assert (P : forall os (c c' : cont A), c_cls c = cls -> lsets c os = Ok c' ->
              (In s (map fst os) \/ dget (c_vals c) s <> None <-> dget (c_vals c') s <> None)).
    { clear - Rs. induction os as [|[n v] os IH]; cbn [lsets]; intros c c' Ec H.
      - inversion H; subst. cbn. tauto.
      - destruct (lset c n v) as [c1|] eqn:E; [|discriminate H]. cbn [bind] in H.
        destruct (lset_shape _ _ _ E) as [Ec1 _]. rewrite Ec in Ec1.
        rewrite <- (IH _ _ Ec1 H). unfold lset in E.
        destruct (to_line v n) as [l|]; [|discriminate E]. cbn [bind] in E.
        rewrite Ec, Rs in E.
        assert (D : exists w, c_vals c1 = dset (c_vals c) n w).
        { destruct (smem n (lnames cls)); [|destruct (smem n lines_ro); [discriminate E|]]; inversion E; subst; cbn; eauto. }
        destruct D as [w D]. rewrite D. cbn [map fst In].
        destruct (string_dec n s) as [->|Ne].
        + rewrite dget_dset_same. split; [intros _; right; discriminate|auto].
        + rewrite dget_dset_other by congruence. tauto. }
    specialize (P outs (new_cont cls (lnames cls)) _ eq_refl L). cbn [new_cont c_vals dget] in P.
    assert (LG : lget (hd_out h) s = match dget (c_vals (hd_out h)) s with Some l => Ok (ALine l) | None => Raise AttributeError end).
    { unfold lget. rewrite Sc, Rs. destruct (smem s (lnames cls)); [reflexivity|].
      apply smem_false in Ro. apply smem_false in Me. rewrite Ro, Me.
      now destruct (dget (c_vals (hd_out h)) s). }
    split; [|split].
    - intros [H|H].
      + now apply holder_direct.
      + destruct (dget (c_vals (hd_out h)) s) as [l|] eqn:D; [|exfalso; apply (proj1 P); [now left|reflexivity]].
        exists l. rewrite HG. unfold lhas. rewrite LG. cbn [bind]. auto.
    - intros N1 N2 HA.
      assert (dget (c_vals (hd_out h)) s = None) as D.
      { destruct (dget (c_vals (hd_out h)) s); [|reflexivity]. exfalso. destruct (proj2 P) as [H|H]; [discriminate|tauto|tauto]. }
      rewrite HG. unfold lhas. rewrite LG, D. cbn [bind].
      destruct holder_access as (ls & Hn & Hl & _ & _ & Ha).
      destruct ls as [|l ls].
      { exfalso. destruct (built_lines _ _ _ G _ _ _ _ _ B) as (ls' & F & _ & m & Z & _).
        cbn in Hn. rewrite <- Hn in F. inversion F; subst ls'. discriminate Z. }
      destruct (Ha 0 l eq_refl) as [H0 _]. exists l. unfold hitem in *. cbn [Z.of_nat] in H0. rewrite H0. cbn [bind as_line].
      apply smem_spec in HA. rewrite HA. auto.
    - intros N1 N2 HA.
      assert (dget (c_vals (hd_out h)) s = None) as D.
      { destruct (dget (c_vals (hd_out h)) s); [|reflexivity]. exfalso. destruct (proj2 P) as [H|H]; [discriminate|tauto|tauto]. }
      rewrite HG. unfold lhas. rewrite LG, D. cbn [bind].
      destruct holder_access as (ls & Hn & Hl & _ & _ & Ha).
      destruct ls as [|l ls].
      { exfalso. destruct (built_lines _ _ _ G _ _ _ _ _ B) as (ls' & F & _ & m & Z & _).
        cbn in Hn. rewrite <- Hn in F. inversion F; subst ls'. discriminate Z. }
      destruct (Ha 0 l eq_refl) as [H0 _]. unfold hitem in *. cbn [Z.of_nat] in H0. rewrite H0. cbn [bind as_line].
      apply smem_false in HA. now rewrite HA.
  Qed.

  Lemma holder_minperiod : exists ls m,
    hiter h = Ok (map (fun l => ALine l) ls) /\
    dget (hd_attrs h) "_minperiods" = Some (IPers (map (@h_mp A) ls)) /\
    dget (hd_attrs h) "_minperiod" = Some (IPer m) /\
    In m (map (@h_mp A) ls) /\ forall l, In l ls -> (h_mp l <= m)%Z.
  Proof.
    destruct (built_lines _ _ _ G _ _ _ _ _ B) as (ls & F & I & m & Z & M).
    destruct (construct_inv _ _ _ _ _ _ B) as (d0 & d1 & d2 & pm & _ & _ & _ & _ & M' & Hd & _).
    rewrite M in M'. inversion M'; subst pm. cbn [fst snd] in Hd.
    exists ls, m. split; [exact I|]. rewrite Hd.
    split; [rewrite dget_dset_other by discriminate; apply dget_dset_same|].
    split; [apply dget_dset_same|].
    clear - Z. unfold zmax_list in Z. destruct ls as [|l0 ls]; cbn [map] in *; [discriminate|]. inversion Z as [Q]. clear Z.
    assert (forall (l : list Z) x, (In (fold_left Z.max l x) (x :: l)) /\ forall y, In y (x :: l) -> (y <= fold_left Z.max l x)%Z) as K.
    { induction l as [|y l IH]; intros x; cbn [fold_left].
      - split; [now left|]. intros y [<-|[]]. lia.
      - destruct (IH (Z.max x y)) as [I1 I2]. split.
        + destruct I1 as [E|E]; [|right; now right]. destruct (Z.max_spec x y) as [[_ E']|[_ E']]; rewrite E' in *; cbn; auto.
        + intros z Hz. assert (z = x \/ z = y \/ In z l) as [->|[->|Hz']] by (cbn in Hz; intuition); [| |now apply I2; right];
          (transitivity (Z.max x y); [lia|apply I2; now left]). }
    destruct (K (map (@h_mp A) ls) (h_mp l0)) as [K1 K2]. split; [exact K1|].
    intros l Hl. apply K2. destruct Hl as [->|Hl]; [now left|right; now apply in_map].
  Qed.

  Lemma holder_attrs_after :
    (forall s, In s (temporaries (List.length islots)) -> dget (hd_attrs h) s = None) /\
    (forall k p, k < List.length islots -> In p ["i"; "input"] -> leaves body (p ++ dec k) ->
       dget (hd_attrs h) (p ++ dec k) = Some (IIn k)) /\
    (forall k s p, nth_error islots k = Some s -> In p ["i_"; "input_"] -> leaves body (p ++ dec k) ->
       dget (hd_attrs h) (p ++ dec k) = Some (IStr s)) /\
    (forall x, dget (hd_attrs h) x <> None ->
       In x ["outputs"; "o"; "inputs"; "i"; "_minperiods"; "_minperiod"; "params"; "p"] \/
       (exists k p, k < List.length islots /\ In p ["i"; "input"; "i_"; "input_"] /\ x = (p ++ dec k)%string) \/
       (exists v, In (ASet x v) body)).
  Proof.
    destruct (construct_inv _ _ _ _ _ _ B) as (d0 & d1 & d2 & pm & E0 & E1 & _ & E2 & _ & Hd & _).
    destruct (before_spec _ _ E0) as (_ & _ & Num & Nam & Keys).
    assert (NT : forall s, In s (temporaries (List.length islots)) -> s <> "_minperiods" /\ s <> "_minperiod").
    { intros s Hs. unfold temporaries in Hs. rewrite !in_app_iff, !in_flat_map in Hs. cbn [In] in Hs.
      destruct Hs as [Hs|[(k & _ & Hs)|(k & _ & Hs)]].
      - intuition (subst; discriminate).
      - destruct Hs as [<-|[<-|[]]]; cbn; split; discriminate.
      - destruct Hs as [<-|[<-|[]]]; cbn; split; discriminate. }
    assert (AT : forall p k, In p ["i"; "input"; "i_"; "input_"] ->
              ~ In (p ++ dec k)%string (temporaries (List.length islots)) /\
              (p ++ dec k)%string <> "_minperiods" /\ (p ++ dec k)%string <> "_minperiod").
    { intros p k Hp. split.
      - intros Hs. unfold temporaries in Hs. rewrite !in_app_iff, !in_flat_map in Hs.
        assert (Hp' : In p prefixes) by (cbn in *; intuition).
        destruct Hs as [Hs|[(j & _ & Hs)|(j & _ & Hs)]].
        + pose proof (@numbered_dec p k Hp') as Q. rewrite fixed_not_numbered in Q; [discriminate|]. clear - Hs. unfold fixed_names. cbn [In] in *. tauto.
        + cbn [In] in Hs. destruct Hs as [E|[E|[]]]; symmetry in E; apply prefix_head in E; try assumption; try (cbn; tauto);
            destruct E as [-> _]; cbn in Hp; intuition congruence.
        + cbn [In] in Hs. destruct Hs as [E|[E|[]]]; symmetry in E; apply prefix_head in E; try assumption; try (cbn; tauto);
            destruct E as [-> _]; cbn in Hp; intuition congruence.
      - cbn in Hp. destruct Hp as [<-|[<-|[<-|[<-|[]]]]]; cbn; split; discriminate. }
    assert (Keep : forall x, ~ In x (temporaries (List.length islots)) -> x <> "_minperiods" -> x <> "_minperiod" ->
              dget (hd_attrs h) x = dget d1 x).
    { intros x T N1 N2. rewrite Hd, dget_dset_other, dget_dset_other by assumption.
      rewrite (ddels_get _ _ x E2). apply smem_false in T. now rewrite T. }
    split; [|split; [|split]].
    - intros s Hs. destruct (NT s Hs) as [N1 N2]. rewrite Hd, dget_dset_other, dget_dset_other by assumption.
      rewrite (ddels_get _ _ s E2). apply smem_spec in Hs. now rewrite Hs.
    - intros k p Hk Hp Hl. destruct (AT p k) as (T & N1 & N2); [cbn in *; tauto|].
      rewrite Keep, (acts_leaves _ E1 Hl) by assumption. apply Num; [assumption|cbn in *; tauto].
    - intros k s p Hk Hp Hl. destruct (AT p k) as (T & N1 & N2); [cbn in *; tauto|].
      rewrite Keep, (acts_leaves _ E1 Hl) by assumption. apply Nam; [assumption|cbn in *; tauto].
    - intros x Hx.
      destruct (string_dec x "_minperiods") as [->|N1]; [left; cbn; tauto|].
      destruct (string_dec x "_minperiod") as [->|N2]; [left; cbn; tauto|].
      destruct (in_dec string_dec x (temporaries (List.length islots))) as [T|T].
      { exfalso. apply Hx. rewrite Hd, dget_dset_other, dget_dset_other by assumption.
        rewrite (ddels_get _ _ x E2). apply smem_spec in T. now rewrite T. }
      rewrite Keep in Hx by assumption.
      destruct (acts_keys _ _ _ E1 Hx) as [K|K]; [|right; right; exact K].
      destruct (Keys x K) as [Fx|(k & p & Hk & Hp & ->)].
      + left. cbn in Fx. unfold temporaries in T. rewrite !in_app_iff in T. cbn [In] in T.
        destruct Fx as [<-|[<-|[<-|[<-|[<-|[<-|[<-|[<-|[<-|[<-|[<-|[<-|[<-|[]]]]]]]]]]]]]]; cbn; try tauto; exfalso; apply T; tauto.
      + right; left. exists k, p. split; [assumption|]. split; [|reflexivity].
        unfold prefixes in Hp. cbn [In] in Hp. unfold temporaries in T. rewrite !in_app_iff, !in_flat_map in T.
        assert (Hs : In k (seq 0 (List.length islots))) by (apply in_seq; lia).
        destruct Hp as [<-|[<-|[<-|[<-|[<-|[<-|[<-|[<-|[]]]]]]]]]; cbn [In]; try tauto; exfalso; apply T; right.
        * left. exists k. cbn; tauto.
        * left. exists k. cbn; tauto.
        * right. exists k. cbn; tauto.
        * right. exists k. cbn; tauto.
  Qed.
End Built.

(** ** Failing constructions *)
Lemma construct_missing : forall (A : Type) bases decl ext cls islots mps extra body (outs : list (string * hval A)) d0 d1 d2 o,
  lgenerate bases decl ext = Ok cls ->
  attrs_before islots mps = Ok d0 -> acts d0 body = Ok d1 -> lsets (new_cont cls (lnames cls)) outs = Ok o ->
  ddels d1 (temporaries (List.length islots)) = Ok d2 ->
  forall s, In s (lnames cls) -> (forall n v, In (n, v) outs -> resolve cls n <> Slot s) ->
  construct cls (lnames cls) islots mps extra body outs = Raise AttributeError.
Proof.
  intros A bases decl ext cls islots mps extra body outs d0 d1 d2 o G E0 E1 E2 E3 s Hs Hn.
  unfold construct. rewrite E0. cbn [bind]. rewrite E1. cbn [bind]. rewrite E2. cbn [bind]. rewrite E3. cbn [bind].
  destruct (lgenerate_wf _ _ _ G) as [_ W].
  destruct (lsets_shape _ _ E2) as [Sc Ss]. cbn in Sc, Ss.
  assert (LS : forall x, In x (lnames cls) -> lget o x = match dget (c_vals o) x with Some l => Ok (ALine l) | None => Raise AttributeError end).
  { intros x Hx. unfold lget. now rewrite Sc, (W x Hx). }
  assert (D : dget (c_vals o) s = None).
  { destruct (@lsets_get A outs (new_cont cls (lnames cls)) o s E2 (W s Hs)) as [(v & l & (l1 & n & l2 & -> & R & _) & _)|[_ D]].
    - exfalso. apply (Hn n v); [apply in_or_app; right; now left|exact R].
    - exact D. }
  assert (I : liter o = Raise AttributeError).
  { unfold liter. rewrite Ss. assert (K : forall ns, incl ns (lnames cls) -> In s ns -> lmapM (lget o) ns = Raise AttributeError).
    { induction ns as [|x ns IH]; intros Hi []; cbn [lmapM].
      - subst x. rewrite (LS s Hs), D. reflexivity.
      - rewrite (LS x (Hi x (or_introl eq_refl))). destruct (dget (c_vals o) x); cbn [bind]; [|reflexivity].
        rewrite IH; [reflexivity| |assumption]. intros y Hy. apply Hi. now right. }
    apply K; [apply incl_refl|exact Hs]. }
  unfold minperiods. now rewrite I.
Qed.
Lemma construct_none : forall (A : Type) cls islots mps extra body (outs : list (string * hval A)) d0 d1 d2 o,
  lnames cls = [] ->
  attrs_before islots mps = Ok d0 -> acts d0 body = Ok d1 -> lsets (new_cont cls (lnames cls)) outs = Ok o ->
  ddels d1 (temporaries (List.length islots)) = Ok d2 ->
  construct cls (lnames cls) islots mps extra body outs = Raise ValueError.
Proof.
  intros A cls islots mps extra body outs d0 d1 d2 o N E0 E1 E2 E3.
  unfold construct. rewrite E0. cbn [bind]. rewrite E1. cbn [bind]. rewrite E2. cbn [bind]. rewrite E3. cbn [bind].
  destruct (lsets_shape _ _ E2) as [_ Ss]. cbn in Ss. unfold minperiods, liter. now rewrite Ss, N.
Qed.
Lemma construct_deleted : forall (A : Type) cls islots mps extra body (outs : list (string * hval A)) d0 d1 o,
  attrs_before islots mps = Ok d0 -> acts d0 body = Ok d1 -> lsets (new_cont cls (lnames cls)) outs = Ok o ->
  forall s, In s (temporaries (List.length islots)) -> dget d1 s = None ->
  construct cls (lnames cls) islots mps extra body outs = Raise AttributeError.
Proof.
  intros A cls islots mps extra body outs d0 d1 o E0 E1 E2 s Hs Hd.
  unfold construct. rewrite E0. cbn [bind]. rewrite E1. cbn [bind]. rewrite E2. cbn [bind].
  now rewrite (ddels_missing _ _ _ Hs Hd).
Qed.

(** an undeclared name given by the body *)
Lemma undeclared : forall (A : Type) bases decl ext cls islots mps extra body (outs : list (string * hval A)) h s v,
  lgenerate bases decl ext = Ok cls -> lmaps cls = [] ->
  construct cls (lnames cls) islots mps extra body outs = Ok h ->
  In (s, v) outs -> ~ In s (lnames cls) ->
  hcontains h s = Ok true /\ ~ In s (hkeys h) /\ hitem h (KStr s) = Raise ValueError /\
  forall d, frame (hd_out h) = Ok d -> ~ In s (dkeys d).
Proof.
  intros A bases decl ext cls islots mps extra body outs h s v G Hm B Hi Hn.
  destruct (built_shape _ _ _ _ _ _ B) as [Sc Ss].
  destruct (construct_inv _ _ _ _ _ _ B) as (d0 & d1 & d2 & pm & _ & _ & L & _).
  assert (Rs : forall x, resolve cls x = if smem x (lnames cls) then Slot x else Plain x).
  { intros x. unfold resolve. now rewrite Hm. }
  split; [|split; [|split]].
  - assert (P : forall os (c c' : cont A), c_cls c = cls -> lsets c os = Ok c' ->
              In s (map fst os) \/ dget (c_vals c) s <> None -> dget (c_vals c') s <> None).
    { clear - Rs. induction os as [|[n v] os IH]; cbn [lsets]; intros c c' Ec H K.
      - inversion H; subst. cbn in K. tauto.
      - destruct (lset c n v) as [c1|] eqn:E; [|discriminate H]. cbn [bind] in H.
        destruct (lset_shape _ _ _ E) as [Ec1 _]. rewrite Ec in Ec1.
        apply (IH _ _ Ec1 H). unfold lset in E.
        destruct (to_line v n) as [l|]; [|discriminate E]. cbn [bind] in E.
        rewrite Ec, Rs in E.
        assert (D : exists w, c_vals c1 = dset (c_vals c) n w).
        { destruct (smem n (lnames cls)); [|destruct (smem n lines_ro); [discriminate E|]]; inversion E; subst; cbn; eauto. }
        destruct D as [w D]. rewrite D. cbn [map fst In] in K.
        destruct (string_dec n s) as [->|Ne].
        + rewrite dget_dset_same. right; discriminate.
        + rewrite dget_dset_other by congruence. tauto. }
    specialize (P outs (new_cont cls (lnames cls)) _ eq_refl L).
    assert (D : dget (c_vals (hd_out h)) s <> None).
    { apply P. left. apply (in_map fst) in Hi. exact Hi. }
    unfold hcontains, lhas, lget. rewrite Sc, Rs. apply smem_false in Hn. rewrite Hn.
    destruct (smem s lines_ro); [reflexivity|]. destruct (dget (c_vals (hd_out h)) s); [reflexivity|congruence].
  - unfold hkeys, lkeys. now rewrite Ss.
  - apply (holder_errors _ _ _ _ _ _ B). exact Hn.
  - intros d Hd. destruct (holder_frame _ _ _ G _ _ _ _ _ B) as (ls & _ & F & K). rewrite F in Hd. inversion Hd; subst.
    unfold dkeys. now rewrite K.
Qed.

(** ** The indicators of the package *)
Definition shadowed : list string := ["add"; "div"; "sub"].
Definition name_ok (e : entry) (s : string) : bool :=
  negb (smem s holder_props) && negb (numbered s) &&
  negb (smem s ["outputs"; "o"; "inputs"; "i"; "_minperiods"; "_minperiod"; "params"; "p"]) &&
  Bool.eqb (smem s holder_own) (smem (e_name e) shadowed).
Definition names_ok (e : entry) : bool :=
  match outputs_of e with Ok c => forallb (name_ok e) (lnames c) | Raise _ => true end.
Lemma table_names_ok : forallb names_ok table = true.
Proof. vm_compute. reflexivity. Qed.

Lemma chain_nonempty : forall n e, In e table -> chain (S n) (e_name e) <> [].
Proof.
  intros n e He. generalize dependent n. unfold chain, find_class. generalize dependent table. intros t He n.
  destruct (find (fun e0 => String.eqb (e_name e0) (e_name e)) t) eqn:F; [discriminate|].
  eapply find_none in F; [|exact He]. rewrite String.eqb_refl in F. discriminate.
Qed.
Lemma outputs_of_generated : forall e c, In e table -> outputs_of e = Ok c ->
  exists bases decl ext, lgenerate bases decl ext = Ok c.
Proof.
  intros e c He H. unfold outputs_of in H.
  destruct (chain depth_bound (e_name e)) as [|x ch] eqn:E.
  - exfalso. exact (chain_nonempty 9 He E).
  - cbn [lines_of] in H. match type of H with bind ?X _ = _ => destruct X as [b|]; [|discriminate H] end.
    cbn [bind] in H. eauto.
Qed.

Lemma package_direct : forall (A : Type) e c islots mps extra body (outs : list (string * hval A)) h s,
  In e table -> outputs_of e = Ok c -> In s (lnames c) ->
  construct c (lnames c) islots mps extra body outs = Ok h ->
  ~ In s extra -> (forall v, ~ In (ASet s v) body) ->
  (In (e_name e) ["add"; "div"; "sub"] -> hget h s = Ok (FClass s)) /\
  (~ In (e_name e) ["add"; "div"; "sub"] ->
     exists l, hget h s = Ok (FOut (ALine l)) /\ lget (hd_out h) s = Ok (ALine l)).
Proof.
  intros A e c islots mps extra body outs h s He Ho Hs B Nx Nb.
  destruct (outputs_of_generated He Ho) as (bases & decl & ext & G).
  pose proof table_names_ok as T. rewrite forallb_forall in T. specialize (T e He). unfold names_ok in T.
  rewrite Ho, forallb_forall in T. specialize (T s Hs). unfold name_ok in T.
  rewrite !andb_true_iff in T. destruct T as [[[T1 T2] T3] T4].
  apply negb_true_iff in T1, T2, T3. apply eqb_prop in T4.
  destruct (construct_inv _ _ _ _ _ _ B) as (d0 & d1 & d2 & pm & _ & _ & _ & _ & _ & _ & Hx).
  assert (NA : ~ In s (dkeys (hd_attrs h))).
  { intros H. destruct (holder_attrs_after _ _ _ _ _ _ B) as (_ & _ & _ & K).
    destruct (K s) as [K1|[(k & p & _ & Hp & ->)|[v K1]]].
    - intros E. apply dget_none in E. contradiction.
    - apply smem_spec in K1. congruence.
    - rewrite numbered_dec in T2; [discriminate|]. clear - Hp. cbn in *. intuition.
    - exact (Nb v K1). }
  split; intros Hn.
  - apply smem_spec in Hn. unfold shadowed in T4. rewrite Hn in T4.
    unfold hget. rewrite T1. apply dget_none in NA. rewrite NA, T4. reflexivity.
  - apply smem_false in Hn. unfold shadowed in T4. rewrite Hn in T4.
    apply (holder_direct _ _ _ G _ _ _ _ _ B _ Hs). unfold reserved.
    rewrite <- smem_spec, T1, <- (smem_spec holder_own), T4, Hx.
    intros [H|[H|[H|H]]]; [discriminate|discriminate|exact (Nx H)|exact (NA H)].
Qed.

Lemma stored_iff : forall (A : Type) cls, lmaps cls = [] -> forall s os (c c' : cont A), c_cls c = cls -> lsets c os = Ok c' ->
  (In s (map fst os) \/ dget (c_vals c) s <> None <-> dget (c_vals c') s <> None).
Proof.
  intros A cls Hm s.
  assert (Rs : forall x, resolve cls x = if smem x (lnames cls) then Slot x else Plain x).
  { intros x. unfold resolve. now rewrite Hm. }
  induction os as [|[n v] os IH]; cbn [lsets]; intros c c' Ec H.
  - inversion H; subst. cbn. tauto.
  - destruct (lset c n v) as [c1|] eqn:E; [|discriminate H]. cbn [bind] in H.
    destruct (lset_shape _ _ _ E) as [Ec1 _]. rewrite Ec in Ec1.
    rewrite <- (IH _ _ Ec1 H). unfold lset in E.
    destruct (to_line v n) as [l|]; [|discriminate E]. cbn [bind] in E.
    rewrite Ec, Rs in E.
    assert (D : exists w, c_vals c1 = dset (c_vals c) n w).
    { destruct (smem n (lnames cls)); [|destruct (smem n lines_ro); [discriminate E|]]; inversion E; subst; cbn; eauto. }
    destruct D as [w D]. rewrite D. cbn [map fst In].
    destruct (string_dec n s) as [->|Ne].
    + rewrite dget_dset_same. split; [intros _; right; discriminate|auto].
    + rewrite dget_dset_other by congruence. tauto.
Qed.
Lemma contains_iff : forall (A : Type) bases decl ext cls islots mps extra body (outs : list (string * hval A)) h,
  lgenerate bases decl ext = Ok cls -> lmaps cls = [] ->
  construct cls (lnames cls) islots mps extra body outs = Ok h ->
  forall s, exists b, hcontains h s = Ok b /\
    (b = true <-> In s (lnames cls) \/ In s (map fst outs) \/ In s lines_ro \/ In s lines_methods).
Proof.
  intros A bases decl ext cls islots mps extra body outs h G Hm B s.
  destruct (built_shape _ _ _ _ _ _ B) as [Sc Ss].
  destruct (construct_inv _ _ _ _ _ _ B) as (d0 & d1 & d2 & pm & _ & _ & L & _).
  pose proof (@stored_iff A cls Hm s outs (new_cont cls (lnames cls)) _ eq_refl L) as P. cbn [new_cont c_vals dget] in P.
  assert (Rs : resolve cls s = if smem s (lnames cls) then Slot s else Plain s) by (unfold resolve; now rewrite Hm).
  destruct (smem s (lnames cls)) eqn:E.
  - apply smem_spec in E. destruct (holder_access _ _ _ G _ _ _ _ _ B) as (ls & Hn & _ & _ & _ & Ha).
    rewrite <- Hn in E. apply in_map_iff in E. destruct E as (l & <- & Hl). apply In_nth_error in Hl. destruct Hl as [k Hk].
    destruct (Ha k l Hk) as (_ & _ & _ & _ & C & _). exists true. split; [exact C|].
    split; [intros _; left|reflexivity]. rewrite <- Hn. apply in_map. eapply nth_error_In; eassumption.
  - apply smem_false in E. unfold hcontains, lhas, lget. rewrite Sc, Rs.
    destruct (smem s lines_ro) eqn:E1.
    { exists true. apply smem_spec in E1. split; [reflexivity|tauto]. }
    apply smem_false in E1. destruct (dget (c_vals (hd_out h)) s) as [l|] eqn:D.
    { exists true. split; [reflexivity|]. destruct (proj2 P) as [H|H]; [discriminate|tauto|tauto]. }
    destruct (smem s lines_methods) eqn:E2.
    { exists true. apply smem_spec in E2. split; [reflexivity|tauto]. }
    apply smem_false in E2. exists false. split; [reflexivity|].
    split; [discriminate|]. intros [H|[H|[H|H]]]; try contradiction. exfalso. apply (proj1 P); [now left|reflexivity].
Qed.

Lemma frame_once : forall (A : Type) (h : holder A) d c, hdf None h = Ok (d, c) ->
  frame (hd_out h) = Ok d /\
  forall edits o, lsetitems (hd_out h) edits = Ok o -> hdf c (with_outputs h o) = Ok (d, c).
Proof.
  intros A h d c H. unfold hdf in H. destruct (frame (hd_out h)) as [d'|e]; [|discriminate H]. cbn [bind] in H.
  inversion H; subst. split; reflexivity.
Qed.
