(** Facts about parameter declarations and the keyword split. *)
From Coq Require Import List String Bool Arith ZArith Lia.
From Verif Require Import Series Py PyFacts Params.
Import ListNotations.
Set Implicit Arguments.
Local Open Scope string_scope.
Local Open Scope list_scope.

(** ** Specification *)

(** [own] declares parameter [n] with the values [vals] (default, documentation, ...); in a sequence the last
    entry for a name counts, in a dict a value that is not a tuple is the default alone *)
Definition declares (own : pdecl) (n : string) (vals : list pyval) : Prop :=
  match own with
  | DSeq l => exists l1 l2, l = l1 ++ (n, vals) :: l2 /\ ~ In n (map fst l2)
  | DDict d => In (n, PTuple vals) d \/ exists v, In (n, v) d /\ vals = [v] /\ forall l, v <> PTuple l
  end.
Definition undeclared (own : pdecl) (n : string) : Prop :=
  match own with DSeq l => ~ In n (map fst l) | DDict d => ~ In n (map fst d) end.
(** a Python dict has each key once *)
Definition wf_decl (own : pdecl) : Prop :=
  match own with DSeq _ => True | DDict d => NoDup (map fst d) end.
Definition not_tuple (v : pyval) : Prop := forall l, v <> PTuple l.

(** the indicator classes: generated from indicator classes and a declaration *)
Inductive is_class : pclass -> Prop :=
| is_class_gen : forall bases own c,
    (forall b, In b bases -> is_class b) -> wf_decl own -> generate bases own = Ok c -> is_class c.

(** ** Declarations *)
Lemma decl_dict_seq : forall l, decl_dict (DSeq l) = dupdate [] (map (fun e => (fst e, PTuple (snd e))) l).
Proof.
  intro l. unfold decl_dict, dupdate. generalize (@nil (string * pyval)) as acc.
  induction l as [|[a b] l IH]; intro acc; cbn; [reflexivity|]. apply IH.
Qed.
Lemma decl_nodup : forall own, wf_decl own -> NoDup (dkeys (decl_dict own)).
Proof.
  intros [l|d] H; [|exact H]. rewrite decl_dict_seq. apply dupdate_nodup. constructor.
Qed.
Lemma decl_get : forall own n vals, wf_decl own -> declares own n vals ->
  dget (decl_dict own) n = Some (PTuple vals) \/
  exists v, dget (decl_dict own) n = Some v /\ vals = [v] /\ not_tuple v.
Proof.
  intros [l|d] n vals Hw H; cbn in H.
  - left. destruct H as [l1 [l2 [-> H]]]. rewrite decl_dict_seq, dget_dupdate, map_app. cbn [map fst snd].
    rewrite rev_app_distr. cbn [rev]. rewrite <- app_assoc, dget_app.
    assert (E : dget (rev (map (fun e : string * list pyval => (fst e, PTuple (snd e))) l2)) n = None).
    { apply dget_none. unfold dkeys. rewrite map_rev, <- in_rev, map_map. exact H. }
    rewrite E. cbn. now rewrite String.eqb_refl.
  - destruct H as [H|[v [H [-> Hv]]]].
    + left. now apply dget_nodup.
    + right. exists v. split; [now apply dget_nodup|]. auto.
Qed.
Lemma undecl_get : forall own n, undeclared own n -> dget (decl_dict own) n = None.
Proof.
  intros [l|d] n H; cbn in H.
  - rewrite decl_dict_seq, dget_dupdate.
    assert (E : dget (rev (map (fun e : string * list pyval => (fst e, PTuple (snd e))) l)) n = None).
    { apply dget_none. unfold dkeys. rewrite map_rev, <- in_rev, map_map. exact H. }
    now rewrite E.
  - now apply dget_none.
Qed.

(** ** The generator *)
Definition head_of (v : pyval) : option pyval :=
  match v with PTuple [] => None | PTuple (d :: _) => Some d | v => Some v end.

Lemma gen_step_ok : forall dd st n v st', gen_step dd st n v = Ok st' ->
  exists d i, head_of v = Some d /\
    pdefaults st' = dset (pdefaults st) n d /\ pinfos st' = dset (pinfos st) n i.
Proof.
  unfold gen_step. intros dd st n v st' H.
  destruct (match v with PTuple l => l | w => [w] end) as [|d others] eqn:E; [discriminate|].
  assert (Hd : head_of v = Some d).
  { destruct v; cbn; try congruence. subst. reflexivity. }
  destruct (match match others with d0 :: _ => d0 | [] => PStr "" end with
      | PBool b => _ | _ => _ end) as [pdoc preq].
  injection H as <-. cbn. exists d. eexists. split; [exact Hd|]. split; reflexivity.
Qed.
Lemma gen_step_err : forall dd st n v e, gen_step dd st n v = Raise e -> e = ValueError /\ v = PTuple [].
Proof.
  unfold gen_step. intros dd st n v e H.
  destruct (match v with PTuple l => l | w => [w] end) as [|d others] eqn:E.
  - injection H as <-. split; [reflexivity|]. destruct v; try discriminate. now subst.
  - destruct (match match others with d0 :: _ => d0 | [] => PStr "" end with
      | PBool b => _ | _ => _ end) as [pdoc preq]. discriminate.
Qed.

Lemma gen_loop_get : forall dd es st st', gen_loop dd st es = Ok st' -> forall n,
  dget (pdefaults st') n =
  match dget (rev es) n with Some v => head_of v | None => dget (pdefaults st) n end.
Proof.
  induction es as [|[a v] es IH]; intros st st' H n; cbn in *.
  - now injection H as <-.
  - destruct (gen_step dd st a v) as [st1|] eqn:E; [|discriminate]. cbn in H.
    rewrite (IH _ _ H n), dget_app. destruct (dget (rev es) n); [reflexivity|]. cbn.
    apply gen_step_ok in E. destruct E as [d [i [Hd [-> _]]]].
    destruct (String.eqb_spec a n) as [->|Hn].
    + now rewrite dget_dset_same.
    + rewrite dget_dset_other by congruence. reflexivity.
Qed.
Lemma gen_loop_nodup : forall dd es st st', gen_loop dd st es = Ok st' ->
  NoDup (dkeys (pdefaults st)) -> NoDup (dkeys (pdefaults st')).
Proof.
  induction es as [|[a v] es IH]; intros st st' H Hn; cbn in *.
  - now injection H as <-.
  - destruct (gen_step dd st a v) as [st1|] eqn:E; [|discriminate]. cbn in H.
    apply (IH _ _ H). apply gen_step_ok in E. destruct E as [d [i [_ [-> _]]]]. now apply dset_nodup.
Qed.
Lemma gen_loop_err : forall dd es st e, gen_loop dd st es = Raise e ->
  e = ValueError /\ exists n, In (n, PTuple []) es.
Proof.
  induction es as [|[a v] es IH]; intros st e H; cbn in *; [discriminate|].
  destruct (gen_step dd st a v) as [st1|e1] eqn:E; cbn in H.
  - apply IH in H. destruct H as [-> [n H]]. split; [reflexivity|]. exists n. now right.
  - injection H as <-. apply gen_step_err in E. destruct E as [-> ->]. split; [reflexivity|]. exists a. now left.
Qed.
Lemma gen_loop_fails : forall dd es st n, In (n, PTuple []) es -> gen_loop dd st es = Raise ValueError.
Proof.
  induction es as [|[a v] es IH]; intros st n H; cbn in *; [destruct H|].
  destruct (gen_step dd st a v) as [st1|e1] eqn:E; cbn.
  - destruct H as [H|H]; [injection H as -> ->; discriminate|]. eauto.
  - apply gen_step_err in E. now destruct E as [-> _].
Qed.
Lemma is_class_nodup : forall c, is_class c -> NoDup (dkeys (pdefaults c)).
Proof.
  intros c H. destruct H as [bases own c _ _ H]. unfold generate in H.
  eapply gen_loop_nodup; [exact H|]. constructor.
Qed.

Lemma generate_get : forall bases own c, wf_decl own -> generate bases own = Ok c -> forall n,
  dget (pdefaults c) n =
  match dget (decl_dict own) n with
  | Some v => head_of v
  | None => match dget (rev (flat_map pdefaults bases)) n with Some v => head_of v | None => None end
  end.
Proof.
  intros bases own c Hw H n. unfold generate in H.
  rewrite (gen_loop_get _ _ _ H n), rev_app_distr, dget_app, dget_rev by now apply decl_nodup.
  destruct (dget (decl_dict own) n); [reflexivity|]. now destruct (dget (rev (flat_map pdefaults bases)) n).
Qed.
Lemma bases_get : forall bs1 b bs2 n v, is_class b -> dget (pdefaults b) n = Some v ->
  (forall b', In b' bs2 -> dget (pdefaults b') n = None) ->
  dget (rev (flat_map pdefaults (bs1 ++ b :: bs2))) n = Some v.
Proof.
  intros bs1 b bs2 n v Hb Hv H. rewrite flat_map_app. cbn [flat_map].
  rewrite !rev_app_distr, <- app_assoc, dget_app.
  assert (E : dget (rev (flat_map pdefaults bs2)) n = None).
  { apply dget_none. unfold dkeys. rewrite map_rev, <- in_rev. intro Hi. apply in_map_iff in Hi.
    destruct Hi as [[x w] [Hx Hi]]. cbn in Hx. subst x. apply in_flat_map in Hi. destruct Hi as [b' [Hb' Hi]].
    apply (in_map fst) in Hi. cbn in Hi. specialize (H _ Hb'). apply dget_none in H. contradiction. }
  rewrite E, dget_app, dget_rev by now apply is_class_nodup. now rewrite Hv.
Qed.
Lemma bases_none : forall bases n, (forall b, In b bases -> dget (pdefaults b) n = None) ->
  dget (rev (flat_map pdefaults bases)) n = None.
Proof.
  intros bases n H. apply dget_none. unfold dkeys. rewrite map_rev, <- in_rev. intro Hi. apply in_map_iff in Hi.
  destruct Hi as [[x w] [Hx Hi]]. cbn in Hx. subst x. apply in_flat_map in Hi. destruct Hi as [b' [Hb' Hi]].
  apply (in_map fst) in Hi. cbn in Hi. specialize (H _ Hb'). apply dget_none in H. contradiction.
Qed.

Lemma head_not_tuple : forall v, not_tuple v -> head_of v = Some v.
Proof. intros v H. destruct v; cbn; try reflexivity. exfalso. eapply H. reflexivity. Qed.

Lemma own_default : forall bases own c n d r, wf_decl own -> generate bases own = Ok c ->
  declares own n (d :: r) -> dget (pdefaults c) n = Some d.
Proof.
  intros bases own c n d r Hw H Hd. rewrite (generate_get _ _ Hw H n).
  destruct (decl_get _ _ _ Hw Hd) as [E|[v [E [Ev Hv]]]]; rewrite E; cbn; [reflexivity|].
  injection Ev as -> _. now apply head_not_tuple.
Qed.
Lemma inherited_default : forall bases own c n bs1 b bs2 v, (forall b, In b bases -> is_class b) ->
  wf_decl own -> generate bases own = Ok c ->
  bases = bs1 ++ b :: bs2 -> undeclared own n -> dget (pdefaults b) n = Some v ->
  (forall b', In b' bs2 -> dget (pdefaults b') n = None) ->
  dget (pdefaults c) n = head_of v.
Proof.
  intros bases own c n bs1 b bs2 v Hb Hw H -> Hu Hv Hn.
  rewrite (generate_get _ _ Hw H n), (undecl_get _ _ Hu).
  assert (E := @bases_get bs1 b bs2 n v). rewrite E; auto.
  apply Hb. apply in_or_app. right. now left.
Qed.
Lemma no_default : forall bases own c n, wf_decl own -> generate bases own = Ok c ->
  undeclared own n -> (forall b, In b bases -> dget (pdefaults b) n = None) -> dget (pdefaults c) n = None.
Proof.
  intros bases own c n Hw H Hu Hb. rewrite (generate_get _ _ Hw H n), (undecl_get _ _ Hu).
  now rewrite bases_none.
Qed.

Lemma defaults_inherited : forall bases own c, (forall b, In b bases -> is_class b) -> wf_decl own ->
  generate bases own = Ok c ->
  (forall n d r, declares own n (d :: r) -> dget (pdefaults c) n = Some d) /\
  (forall n bs1 b bs2 v, bases = bs1 ++ b :: bs2 -> undeclared own n ->
     dget (pdefaults b) n = Some v -> not_tuple v ->
     (forall b', In b' bs2 -> dget (pdefaults b') n = None) ->
     dget (pdefaults c) n = Some v) /\
  (forall n, undeclared own n -> (forall b, In b bases -> dget (pdefaults b) n = None) ->
     dget (pdefaults c) n = None).
Proof.
  intros bases own c Hb Hw H. repeat split.
  - intros. eapply own_default; eauto.
  - intros n bs1 b bs2 v E Hu Hv Ht Hn. rewrite <- (head_not_tuple Ht).
    eapply inherited_default; eauto.
  - intros. eapply no_default; eauto.
Qed.

(** any number of generations of subclasses that do not mention the parameter *)
Inductive descends (n : string) : pclass -> pclass -> Prop :=
| desc_refl : forall c, descends n c c
| desc_step : forall c c1 own c2, descends n c c1 -> is_class c1 -> wf_decl own -> undeclared own n ->
    generate [c1] own = Ok c2 -> descends n c c2.
Lemma chain_default : forall n c c' v, descends n c c' -> dget (pdefaults c) n = Some v -> not_tuple v ->
  dget (pdefaults c') n = Some v.
Proof.
  intros n c c' v H Hv Ht. induction H as [|c c1 own c2 H IH Hc Hw Hu Hg]; [exact Hv|].
  rewrite <- (head_not_tuple Ht). eapply (@inherited_default [c1] own c2 n [] c1 []); eauto.
  - intros b [<-|[]]. exact Hc.
  - intros b' [].
Qed.

(** class creation fails exactly on an empty tuple *)
Lemma generate_total : forall bases own,
  (exists e, generate bases own = Raise e) <->
  ((exists b n, In b bases /\ In (n, PTuple []) (pdefaults b)) \/ exists n, In (n, PTuple []) (decl_dict own)).
Proof.
  intros bases own. unfold generate. split.
  - intros [e H]. apply gen_loop_err in H. destruct H as [_ [n H]]. apply in_app_or in H.
    destruct H as [H|H]; [left|right; eauto]. apply in_flat_map in H. destruct H as [b [H1 H2]]. eauto.
  - intros H. exists ValueError. destruct H as [[b [n [H1 H2]]]|[n H]].
    + apply gen_loop_fails with (n := n). apply in_or_app. left. apply in_flat_map. eauto.
    + apply gen_loop_fails with (n := n). apply in_or_app. now right.
Qed.

Fixpoint psize (v : pyval) : nat :=
  match v with
  | PTuple l => S (fold_right (fun x a => (psize x + a)%nat) 0%nat l)
  | PInfo d r => S (psize d + psize r)
  | _ => 1
  end.
Lemma not_own_member : forall d r, d <> PTuple (d :: r).
Proof. intros d r H. apply (f_equal psize) in H. cbn in H. lia. Qed.

Lemma tuple_inherited : forall bases own n bs1 b bs2 t, (forall b, In b bases -> is_class b) ->
  wf_decl own -> bases = bs1 ++ b :: bs2 -> undeclared own n -> dget (pdefaults b) n = Some (PTuple t) ->
  (forall b', In b' bs2 -> dget (pdefaults b') n = None) ->
  (t = [] -> generate bases own = Raise ValueError) /\
  (forall c d r, t = d :: r -> generate bases own = Ok c ->
     dget (pdefaults c) n = Some d /\ dget (pdefaults c) n <> Some (PTuple t)).
Proof.
  intros bases own n bs1 b bs2 t Hb Hw E Hu Hv Hn. split.
  - intros ->. unfold generate. apply gen_loop_fails with (n := n). apply in_or_app. left.
    apply in_flat_map. exists b. split; [subst; apply in_or_app; right; now left|now apply dget_in].
  - intros c d r -> H. rewrite (@inherited_default bases own c n bs1 b bs2 _ Hb Hw H E Hu Hv Hn).
    cbn. split; [reflexivity|].
    intro Q. injection Q as Q. exact (not_own_member Q).
Qed.

(** ** Documentation *)
Definition lost : pyval * pyval := (PStr "", PBool false).
Lemma gen_loop_info : forall es st st' n, gen_loop (PStr "") st es = Ok st' ->
  (forall v, In (n, v) es -> not_tuple v \/ exists d, v = PTuple [d]) ->
  (forall i, dget (pinfos st) n = Some i -> i = lost) ->
  (forall i, dget (pinfos st') n = Some i -> i = lost).
Proof.
  induction es as [|[a v] es IH]; intros st st' n H Hv Hi i Hg; cbn in H.
  - injection H as <-. auto.
  - destruct (gen_step (PStr "") st a v) as [st1|] eqn:E; [|discriminate]. cbn in H.
    eapply IH; eauto; [intros w Hw; apply Hv; now right|].
    intros j Hj. destruct (string_dec a n) as [->|Hn].
    + assert (Q : exists d, match v with PTuple l => l | w => [w] end = [d]).
      { destruct (Hv v) as [Ht|[d ->]]; [now left| |eauto].
        exists v. destruct v; try reflexivity. exfalso. eapply Ht. reflexivity. }
      destruct Q as [d Q]. unfold gen_step in E. rewrite Q in E. injection E as <-. cbn in Hj.
      rewrite dget_dset_same in Hj. injection Hj as <-. unfold lost. f_equal.
      destruct (dmem (pdefaults st) n); reflexivity.
    + apply gen_step_ok in E. destruct E as [d [k [_ [_ Ep]]]]. rewrite Ep in Hj.
      rewrite dget_dset_other in Hj by congruence. auto.
Qed.
Lemma gen_loop_keys : forall dd es st st', gen_loop dd st es = Ok st' ->
  dkeys (pinfos st) = dkeys (pdefaults st) -> dkeys (pinfos st') = dkeys (pdefaults st').
Proof.
  assert (K : forall (A B : Type) (d : dict A) (e : dict B) k x y, dkeys d = dkeys e -> dkeys (dset d k x) = dkeys (dset e k y)).
  { induction d as [|[a u] d IH]; intros [|[b w] e] k x y H; cbn in *; try discriminate; [reflexivity|].
    injection H as <- H. destruct (String.eqb a k); cbn; [now f_equal|]. f_equal. now apply IH. }
  induction es as [|[a v] es IH]; intros st st' H Hk; cbn in H.
  - now injection H as <-.
  - destruct (gen_step dd st a v) as [st1|] eqn:E; [|discriminate]. cbn in H. eapply IH; eauto.
    apply gen_step_ok in E. destruct E as [d [k [_ [-> ->]]]]. now apply K.
Qed.
Lemma pbdocs_none : forall bases, (forall b, In b bases -> dget (pinfos b) "doc" = None) ->
  dget (pbdocs bases) "doc" = None.
Proof.
  unfold pbdocs. intros bases.
  assert (G : forall acc, dget acc "doc" = None -> (forall b, In b bases -> dget (pinfos b) "doc" = None) ->
    dget (fold_left (fun acc b => dupdate acc (pinfos b)) bases acc) "doc" = None).
  { induction bases as [|b bases IH]; intros acc Ha H; cbn; [exact Ha|]. apply IH.
    - rewrite dget_dupdate.
      assert (E : dget (rev (pinfos b)) "doc" = None).
      { apply dget_none. unfold dkeys. rewrite map_rev, <- in_rev. apply dget_none. apply H. now left. }
      now rewrite E.
    - intros b' Hb. apply H. now right. }
  intro H. apply G; auto.
Qed.

Lemma doc_lost : forall bases own c n, (forall b, In b bases -> is_class b) -> wf_decl own ->
  generate bases own = Ok c ->
  (forall b, In b bases -> dget (pinfos b) "doc" = None) ->
  (forall b v, In b bases -> dget (pdefaults b) n = Some v -> not_tuple v) ->
  (undeclared own n \/ exists d, declares own n [d] /\ not_tuple d) ->
  dget (pdefaults c) n <> None ->
  dget (pinfos c) n = Some (PStr "", PBool false).
Proof.
  intros bases own c n Hb Hw H Hdoc Hv Ho Hin. unfold generate in H.
  unfold pbdocs_get_doc in H. rewrite (pbdocs_none _ Hdoc) in H.
  assert (Hk := gen_loop_keys _ _ _ H eq_refl).
  destruct (dget (pinfos c) n) as [i|] eqn:E.
  - f_equal. eapply (@gen_loop_info _ _ _ n H); eauto.
    + intros v Hi. apply in_app_or in Hi. destruct Hi as [Hi|Hi].
      * left. apply in_flat_map in Hi. destruct Hi as [b [Hb1 Hb2]]. eapply Hv; eauto.
        apply dget_nodup; auto. apply is_class_nodup. auto.
      * assert (G : dget (decl_dict own) n = Some v) by (apply dget_nodup; auto; now apply decl_nodup).
        destruct Ho as [Ho|[d [Ho Hd]]].
        -- apply undecl_get in Ho. congruence.
        -- destruct (decl_get _ _ _ Hw Ho) as [Q|[w [Q [Q1 Q2]]]].
           ++ right. exists d. congruence.
           ++ left. congruence.
    + cbn. discriminate.
  - exfalso. apply dget_none in E. rewrite Hk in E. apply dget_none in E. contradiction.
Qed.

(** ** Keyword arguments *)
Lemma pop_declared_spec : forall params kwargs, NoDup (dkeys kwargs) ->
  pop_declared params (dkeys kwargs) kwargs =
  Ok (filter (fun kv => dmem params (fst kv)) kwargs, filter (fun kv => negb (dmem params (fst kv))) kwargs).
Proof.
  intros params.
  assert (G : forall kw pre, NoDup (dkeys (pre ++ kw)) ->
     (forall kv, In kv pre -> dmem params (fst kv) = false) ->
     pop_declared params (dkeys kw) (pre ++ kw) =
     Ok (filter (fun kv => dmem params (fst kv)) kw, pre ++ filter (fun kv => negb (dmem params (fst kv))) kw)).
  { induction kw as [|[k v] kw IH]; intros pre Hn Hp; cbn [dkeys map fst pop_declared filter].
    - reflexivity.
    - destruct (dmem params k) eqn:E; cbn [negb].
      + assert (Hk : ~ In k (dkeys pre)).
        { unfold dkeys in *. rewrite map_app in Hn. cbn in Hn. apply NoDup_remove_2 in Hn. intro Hi. apply Hn.
          apply in_or_app. now left. }
        assert (G1 : dget (pre ++ (k, v) :: kw) k = Some v).
        { rewrite dget_app. apply dget_none in Hk. rewrite Hk. cbn. now rewrite String.eqb_refl. }
        assert (G2 : dremove (pre ++ (k, v) :: kw) k = pre ++ kw).
        { clear - Hk. induction pre as [|[a b] pre IH]; cbn in *; [now rewrite String.eqb_refl|].
          destruct (String.eqb_spec a k) as [->|]; [exfalso; auto|]. f_equal. apply IH. auto. }
        rewrite G1, G2. fold (dkeys kw). rewrite IH; [reflexivity| |exact Hp].
        unfold dkeys in *. rewrite map_app in *. cbn in Hn. now apply NoDup_remove_1 in Hn.
      + fold (dkeys kw). change (pre ++ (k, v) :: kw) with (pre ++ [(k, v)] ++ kw). rewrite app_assoc.
        rewrite IH.
        * now rewrite <- app_assoc.
        * rewrite <- app_assoc. exact Hn.
        * intros kv Hkv. apply in_app_or in Hkv. destruct Hkv as [Hkv|[<-|[]]]; auto. }
  intros kwargs Hn. exact (G kwargs [] Hn (fun kv H => match H with end)).
Qed.

Lemma kwargs_split : forall c kwargs, NoDup (dkeys (pdefaults c)) -> NoDup (dkeys kwargs) ->
  exists ps rest, from_kwargs c kwargs = Ok (ps, rest) /\
    dkeys ps = dkeys (pdefaults c) /\
    (forall k d, dget (pdefaults c) k = Some d ->
       dget ps k = Some (match dget kwargs k with Some v => v | None => d end)) /\
    rest = filter (fun kv => negb (dmem (pdefaults c) (fst kv))) kwargs.
Proof.
  intros c kwargs Hc Hk. unfold from_kwargs. rewrite pop_declared_spec by exact Hk. cbn [bind fst snd].
  eexists. eexists. split; [reflexivity|]. split; [|split; [|reflexivity]].
  - apply dkeys_dupdate. intros x Hx. apply in_map_iff in Hx. destruct Hx as [[a b] [<- Hx]].
    apply filter_In in Hx. destruct Hx as [_ Hx]. now apply dmem_spec in Hx.
  - intros k d Hd. rewrite dget_dupdate.
    assert (Hnf : NoDup (dkeys (filter (fun kv : string * pyval => dmem (pdefaults c) (fst kv)) kwargs))).
    { clear - Hk. unfold dkeys in *. induction kwargs as [|[a b] kw IH]; cbn in *; [constructor|].
      inversion Hk; subst. destruct (dmem (pdefaults c) a); cbn; [|auto]. constructor; [|auto].
      intro Hi. apply H1. apply in_map_iff in Hi. destruct Hi as [x [<- Hi]]. apply filter_In in Hi.
      apply in_map. tauto. }
    rewrite dget_rev by exact Hnf.
    destruct (dget kwargs k) as [v|] eqn:E.
    + assert (G : dget (filter (fun kv : string * pyval => dmem (pdefaults c) (fst kv)) kwargs) k = Some v).
      { apply dget_nodup; [exact Hnf|]. apply filter_In. split; [now apply dget_in|]. cbn.
        apply dmem_spec. apply dget_in in Hd. now apply (in_map fst) in Hd. }
      now rewrite G.
    + assert (G : dget (filter (fun kv : string * pyval => dmem (pdefaults c) (fst kv)) kwargs) k = None).
      { apply dget_none. apply dget_none in E. intro Hi. apply E. apply in_map_iff in Hi.
        destruct Hi as [x [<- Hi]]. apply filter_In in Hi. apply in_map. tauto. }
      now rewrite G.
Qed.

Lemma class_kwargs_split : forall c kwargs, is_class c -> NoDup (map fst kwargs) ->
  exists ps rest, from_kwargs c kwargs = Ok (ps, rest) /\
    map fst ps = map fst (pdefaults c) /\
    (forall k d, dget (pdefaults c) k = Some d ->
       dget ps k = Some (match dget kwargs k with Some v => v | None => d end)) /\
    rest = filter (fun kv => negb (dmem (pdefaults c) (fst kv))) kwargs.
Proof. intros c kwargs Hc. apply kwargs_split. now apply is_class_nodup. Qed.

(** ** own declarations *)
Lemma gen_loop_own : forall dd n v i, (forall st st', gen_step dd st n v = Ok st' -> dget (pinfos st') n = Some i) ->
  forall es st st', gen_loop dd st es = Ok st' ->
  (dget (rev es) n = Some v \/ (dget (rev es) n = None /\ dget (pinfos st) n = Some i)) ->
  dget (pinfos st') n = Some i.
Proof.
  intros dd n v i Hstep. induction es as [|[a w] es IH]; intros st st' H Hc; cbn [gen_loop bind] in H.
  - injection H as <-. destruct Hc as [Hc|[_ Hc]]; [discriminate|exact Hc].
  - destruct (gen_step dd st a w) as [st1|e1] eqn:E; [|discriminate].
    apply (IH st1 st' H). cbn [rev] in Hc. rewrite dget_app in Hc. cbn [dget] in Hc.
    destruct (dget (rev es) n) as [u|] eqn:Eu; [destruct Hc as [Hc|[Hc _]]; [now left|discriminate]|].
    right. split; [reflexivity|]. destruct (String.eqb a n) eqn:Ea.
    + apply String.eqb_eq in Ea. subst a. destruct Hc as [Hc|[Hc _]]; [|discriminate].
      injection Hc as ->. eapply Hstep; eauto.
    + destruct Hc as [Hc|[_ Hc]]; [discriminate|].
      destruct (gen_step_ok _ _ _ _ E) as [d [j [_ [_ Hj]]]]. rewrite Hj, dget_dset_other; [exact Hc|].
      intros ->. rewrite String.eqb_refl in Ea. discriminate.
Qed.
Lemma own_info : forall bases own c n d s b, wf_decl own -> generate bases own = Ok c -> s <> "" ->
  (declares own n [d; PStr s; PBool b] \/ declares own n [d; PBool b; PStr s]) ->
  dget (pinfos c) n = Some (PStr s, PBool b).
Proof.
  intros bases own c n d s b Hw H Hs Hd. unfold generate in H.
  assert (Ht : truthy (PStr s) = true).
  { cbn. destruct (String.eqb_spec s ""); [contradiction|reflexivity]. }
  assert (Hg : exists v, dget (decl_dict own) n = Some v /\ (v = PTuple [d; PStr s; PBool b] \/ v = PTuple [d; PBool b; PStr s])).
  { destruct Hd as [Hd|Hd]; destruct (@decl_get own n _ Hw Hd) as [E|[v [_ [E _]]]]; try discriminate; eauto. }
  destruct Hg as [v [Hv Hvv]].
  apply (@gen_loop_own (pbdocs_get_doc bases) n v (PStr s, PBool b)) with (2 := H).
  - intros st st' E. unfold gen_step in E.
    destruct Hvv as [-> | ->]; destruct (dmem (pdefaults st) n); injection E as <-; cbn [pinfos];
      rewrite dget_dset_same; unfold py_or; rewrite ?Ht; try reflexivity.
  - left. rewrite rev_app_distr, dget_app.
    assert (dget (rev (decl_dict own)) n = Some v) as ->; [|reflexivity].
    rewrite dget_rev by (apply decl_nodup; exact Hw). exact Hv.
Qed.
