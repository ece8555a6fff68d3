(** Facts about the generation of inputs and outputs. *)
From Coq Require Import List String Bool Arith Lia.
From Verif Require Import Series Py PyFacts LinesGen.
Import ListNotations.
Set Implicit Arguments.
Local Open Scope string_scope.
Local Open Scope list_scope.

(** ** Specification *)
(** last occurrences, in order *)
Fixpoint keep_last (l : list string) : list string :=
  match l with
  | [] => []
  | x :: r => if in_dec string_dec x r then keep_last r else x :: keep_last r
  end.
(** names written in a declaration, and the renamings written explicitly *)
Definition def_names (d : ldef) : list string :=
  match d with LName s => [s] | LPair n _ => [n] | LDict m => map fst m end.
Definition def_maps (d : ldef) : list (string * string) :=
  match d with LName _ => [] | LPair n o => [(n, o)] | LDict m => m end.
Definition names_of (decl : list ldef) : list string := flat_map def_names decl.
Definition maps_of (decl : list ldef) : list (string * string) := flat_map def_maps decl.
(** [new] renames [old]: explicitly, or by standing at the position of a name of the bases that is not declared
    again *)
Definition renames (bases : list (list string)) (decl : list ldef) (new old : string) : Prop :=
  In (new, old) (maps_of decl) \/
  (~ In new (map fst (maps_of decl)) /\
   exists i, nth_error (names_of decl) i = Some new /\ nth_error (List.concat bases) i = Some old /\
             ~ In old (names_of decl)).

(** ** keep_last *)
Lemma fromkeys_acc_app : forall a b seen,
  fromkeys_acc seen (a ++ b) = fromkeys_acc seen a ++ fromkeys_acc (rev a ++ seen) b.
Proof.
  assert (P : forall b s1 s2, (forall x, In x s1 <-> In x s2) -> fromkeys_acc s1 b = fromkeys_acc s2 b).
  { induction b as [|x b IH]; intros s1 s2 H; cbn; [reflexivity|].
    assert (E : smem x s1 = smem x s2).
    { destruct (smem x s1) eqn:E1, (smem x s2) eqn:E2; try reflexivity.
      - apply smem_spec in E1. apply H in E1. apply smem_spec in E1. congruence.
      - apply smem_spec in E2. apply H in E2. apply smem_spec in E2. congruence. }
    rewrite E. destruct (smem x s2); [now apply IH|]. f_equal. apply IH. intro y. cbn. now rewrite H. }
  induction a as [|x a IH]; intros b seen; cbn; [reflexivity|].
  destruct (smem x seen) eqn:E.
  - rewrite IH. f_equal. apply P. intro y. rewrite !in_app_iff. cbn. apply smem_spec in E.
    split; [tauto|]. intros [[H|[<-|[]]]|H]; auto.
  - cbn. rewrite IH. f_equal. f_equal. apply P. intro y. rewrite !in_app_iff. cbn. tauto.
Qed.
Lemma keep_last_spec : forall l, rev (fromkeys (rev l)) = keep_last l.
Proof.
  induction l as [|x l IH]; [reflexivity|]. cbn [rev keep_last].
  unfold fromkeys in *. rewrite fromkeys_acc_app, rev_app_distr, IH. rewrite app_nil_r, rev_involutive. cbn.
  destruct (in_dec string_dec x l) as [H|H].
  - apply smem_spec in H. now rewrite H.
  - apply smem_false in H. now rewrite H.
Qed.
Lemma keep_last_in : forall l x, In x (keep_last l) <-> In x l.
Proof.
  induction l as [|y l IH]; intro x; cbn; [tauto|].
  destruct (in_dec string_dec y l) as [H|H]; cbn; rewrite IH; [|tauto]. split; [tauto|]. intros [<-|Hi]; auto.
Qed.
Lemma keep_last_nodup : forall l, NoDup (keep_last l).
Proof.
  induction l as [|y l IH]; cbn; [constructor|].
  destruct (in_dec string_dec y l) as [H|H]; [exact IH|]. constructor; [|exact IH]. now rewrite keep_last_in.
Qed.

(** ** parsing *)
Lemma parse_spec : forall decl, parse_decl decl = (names_of decl, dupdate [] (maps_of decl)).
Proof.
  intro decl. unfold parse_decl.
  assert (G : forall decl cd mp, fold_left parse_def decl (cd, mp) = (cd ++ names_of decl, dupdate mp (maps_of decl))).
  { clear. induction decl as [|d decl IH]; intros cd mp; cbn.
    - now rewrite app_nil_r.
    - destruct d as [s|n o|m]; cbn [parse_def]; rewrite IH; cbn [def_names def_maps];
        rewrite <- app_assoc; f_equal; unfold dupdate; now rewrite fold_left_app. }
  rewrite G. reflexivity.
Qed.

Lemma dsetdefault_get : forall (d : dict string) k v x,
  dget (dsetdefault d k v) x = match dget d x with Some w => Some w | None => if String.eqb k x then Some v else None end.
Proof.
  intros d k v x. unfold dsetdefault. destruct (dget d k) eqn:E.
  - destruct (dget d x) eqn:Ex; [reflexivity|]. destruct (String.eqb_spec k x); [congruence|reflexivity].
  - rewrite dget_app. destruct (dget d x); reflexivity.
Qed.
Lemma dsetdefault_nodup : forall (d : dict string) k v, NoDup (dkeys d) -> NoDup (dkeys (dsetdefault d k v)).
Proof.
  intros d k v H. unfold dsetdefault. destruct (dget d k) eqn:E; [exact H|].
  apply dget_none in E. rewrite <- dkeys_dset_new by exact E. now apply dset_nodup.
Qed.

(** the fold over name pairs keeps what is there and takes the first pair for a new key *)
Lemma automap_get : forall names ps d x,
  dget (fold_left (fun acc p => if smem (snd p) names then acc else dsetdefault acc (fst p) (snd p)) ps d) x =
  match dget d x with
  | Some w => Some w
  | None => dget (filter (fun p => negb (smem (snd p) names)) ps) x
  end.
Proof.
  induction ps as [|[a b] ps IH]; intros d x; cbn.
  - now destruct (dget d x).
  - rewrite IH. destruct (smem b names) eqn:E; cbn; [reflexivity|].
    rewrite dsetdefault_get. destruct (dget d x); [reflexivity|]. now destruct (String.eqb a x).
Qed.
Lemma automap_nodup : forall names ps d, NoDup (dkeys d) ->
  NoDup (dkeys (fold_left (fun acc p => if smem (snd p) names then acc else dsetdefault acc (fst p) (snd p)) ps d)).
Proof.
  induction ps as [|[a b] ps IH]; intros d H; cbn; [exact H|]. apply IH.
  destruct (smem b names); [exact H|]. now apply dsetdefault_nodup.
Qed.
Lemma nth_combine : forall (A B : Type) (l : list A) (l' : list B) a b,
  In (a, b) (combine l l') <-> exists i, nth_error l i = Some a /\ nth_error l' i = Some b.
Proof.
  induction l as [|x l IH]; intros [|y l'] a b; cbn.
  - split; [tauto|]. intros [[|i] [H _]]; discriminate.
  - split; [tauto|]. intros [[|i] [H _]]; discriminate.
  - split; [tauto|]. intros [[|i] [_ H]]; discriminate.
  - split.
    + intros [H|H]; [injection H as -> ->; exists 0; auto|]. apply IH in H. destruct H as [i H]. exists (S i). exact H.
    + intros [[|i] [H1 H2]]; cbn in *.
      * left. congruence.
      * right. apply IH. eauto.
Qed.
Lemma combine_keys_nodup : forall (A B : Type) (l : list A) (l' : list B), NoDup l -> NoDup (map fst (combine l l')).
Proof.
  induction l as [|x l IH]; intros [|y l'] H; cbn; try constructor; inversion H; subst; [|auto].
  intro Hi. apply in_map_iff in Hi. destruct Hi as [[u v] [<- Hi]]. apply in_combine_l in Hi. contradiction.
Qed.
Lemma filter_keys_nodup : forall (V : Type) (f : string * V -> bool) (d : dict V), NoDup (dkeys d) -> NoDup (dkeys (filter f d)).
Proof.
  unfold dkeys. induction d as [|[a b] d IH]; cbn; intro H; [constructor|]. inversion H; subst.
  destruct (f (a, b)); cbn; [|auto]. constructor; [|auto]. intro Hi. apply H2.
  apply in_map_iff in Hi. destruct Hi as [x [<- Hi]]. apply filter_In in Hi. apply in_map. tauto.
Qed.

Definition distinct_decl (decl : list ldef) : Prop := NoDup (names_of decl).

Lemma maps_names : forall decl n o, In (n, o) (maps_of decl) -> In n (names_of decl).
Proof.
  intros decl n o H. unfold maps_of, names_of in *. apply in_flat_map in H. destruct H as [d [Hd H]].
  apply in_flat_map. exists d. split; [exact Hd|]. destruct d; cbn in *; [destruct H| |].
  - destruct H as [H|[]]. injection H as -> ->. auto.
  - apply (in_map fst) in H. exact H.
Qed.
Lemma maps_keys_nodup : forall decl, NoDup (names_of decl) -> NoDup (dkeys (maps_of decl)).
Proof.
  induction decl as [|d decl IH]; cbn; intro H; [constructor|].
  assert (H1 : NoDup (names_of decl)).
  { clear - H. induction (def_names d) as [|x l IH]; cbn in H; [exact H|]. inversion H; auto. }
  assert (H2 : forall x, In x (def_names d) -> ~ In x (names_of decl)).
  { clear - H. induction (def_names d) as [|x l IH]; cbn in *; [tauto|]. inversion H; subst. intros y [<-|Hy].
    - intro Hi. apply H2. apply in_or_app. now right.
    - auto. }
  assert (H3 : NoDup (def_names d)).
  { clear - H. induction (def_names d) as [|x l IH]; cbn in H; [constructor|]. inversion H; subst. constructor; auto.
    intro Hi. apply H2. apply in_or_app. now left. }
  unfold dkeys, maps_of in *. cbn. rewrite map_app.
  assert (G : forall a b : list string, NoDup a -> NoDup b -> (forall x, In x a -> ~ In x b) -> NoDup (a ++ b)).
  { induction a as [|x a IHa]; intros b Ha Hb Hd; cbn; [exact Hb|]. inversion Ha; subst. constructor.
    - rewrite in_app_iff. intros [Hi|Hi]; [contradiction|]. exact (Hd x (or_introl eq_refl) Hi).
    - apply IHa; auto. intros y Hy. apply Hd. now right. }
  apply G; [|now apply IH|].
  - destruct d; cbn in *; try constructor; auto; constructor.
  - intros x Hx Hi. apply (H2 x).
    + destruct d; cbn in *; auto.
    + apply in_map_iff in Hi. destruct Hi as [[u v] [<- Hi]]. eapply maps_names; eauto.
Qed.

Lemma final_maps : forall bases decl, NoDup (names_of decl) -> forall new old,
  In (new, old) (automap (names_of decl) (List.concat bases) (dupdate [] (maps_of decl))) <-> renames bases decl new old.
Proof.
  intros bases decl Hn new old.
  set (d := dupdate [] (maps_of decl)).
  assert (Hd : NoDup (dkeys d)) by (apply dupdate_nodup; constructor).
  assert (Hdg : forall x, dget d x = dget (maps_of decl) x).
  { intro x. unfold d. rewrite dget_dupdate, dget_rev by now apply maps_keys_nodup.
    now destruct (dget (maps_of decl) x). }
  assert (Ha : NoDup (dkeys (automap (names_of decl) (List.concat bases) d))) by (apply automap_nodup; exact Hd).
  assert (E : In (new, old) (automap (names_of decl) (List.concat bases) d) <->
              dget (automap (names_of decl) (List.concat bases) d) new = Some old).
  { split; [now apply dget_nodup|apply dget_in]. }
  rewrite E. unfold automap. rewrite automap_get, Hdg. unfold renames.
  destruct (dget (maps_of decl) new) as [o|] eqn:Eo.
  - split.
    + intro H. injection H as ->. left. now apply dget_in.
    + intros [H|[H _]].
      * apply dget_nodup in H; [congruence|now apply maps_keys_nodup].
      * exfalso. apply H. apply dget_in in Eo. apply (in_map fst) in Eo. exact Eo.
  - assert (Hno : ~ In new (map fst (maps_of decl))) by now apply dget_none.
    split.
    + intro H. right. split; [exact Hno|]. apply dget_in in H. apply filter_In in H. destruct H as [H1 H2].
      apply nth_combine in H1. destruct H1 as [i [Hi1 Hi2]]. exists i. repeat split; auto.
      cbn in H2. apply smem_false. now destruct (smem old (names_of decl)).
    + intros [H|[_ [i [H1 [H2 H3]]]]].
      * exfalso. apply Hno. apply (in_map fst) in H. exact H.
      * apply dget_nodup.
        -- apply filter_keys_nodup. apply combine_keys_nodup. exact Hn.
        -- apply filter_In. split; [apply nth_combine; eauto|]. cbn. apply smem_false in H3. now rewrite H3.
Qed.

Lemma lgenerate_own : forall bases decl ext, names_of decl <> [] ->
  lgenerate bases decl ext =
  let m := automap (names_of decl) (List.concat bases) (dupdate [] (maps_of decl)) in
  Ok (mkLClass (filter (fun x => negb (smem x (map snd m))) (keep_last (names_of decl))) m).
Proof.
  intros bases decl ext H. unfold lgenerate. rewrite parse_spec.
  destruct (names_of decl) as [|x l] eqn:E; [congruence|]. rewrite <- E. cbn [bind].
  now rewrite keep_last_spec.
Qed.
Lemma lgenerate_inherit : forall bases decl ext, names_of decl = [] ->
  lgenerate bases decl ext =
  match ext with
  | ExtStr s => Ok (mkLClass (keep_last (List.concat bases ++ [s])) [])
  | ExtTuple l => Ok (mkLClass (keep_last (List.concat bases ++ l)) [])
  | ExtList _ => Raise TypeError
  end.
Proof.
  intros bases decl ext H. unfold lgenerate. rewrite parse_spec, H.
  assert (Hm : maps_of decl = []).
  { destruct (maps_of decl) as [|[n o] l] eqn:E; [reflexivity|]. exfalso.
    assert (In n (names_of decl)) by (eapply maps_names; rewrite E; now left). rewrite H in H0. destruct H0. }
  rewrite Hm.
  destruct ext as [s|l|l]; cbn; try reflexivity; f_equal; f_equal; rewrite keep_last_spec;
    (match goal with |- filter ?f ?l = _ => transitivity (filter (fun _ => true) l); [reflexivity|] end);
    clear; (match goal with |- filter _ ?l = _ => induction l as [|x r IH]; cbn; congruence end).
Qed.

Lemma own_names : forall bases decl ext, names_of decl <> [] -> NoDup (names_of decl) ->
  exists c, lgenerate bases decl ext = Ok c /\
    (forall new old, In (new, old) (lmaps c) <-> renames bases decl new old) /\
    lnames c = filter (fun x => negb (smem x (map snd (lmaps c)))) (names_of decl) /\
    (forall x, In x (lnames c) <-> In x (names_of decl) /\ ~ exists new, renames bases decl new x).
Proof.
  intros bases decl ext Hne Hn. rewrite lgenerate_own by exact Hne. cbn zeta.
  eexists. split; [reflexivity|]. cbn [lmaps lnames].
  split; [intros; now apply final_maps|]. split.
  - f_equal. clear Hne. induction (names_of decl) as [|x l IH]; cbn; [reflexivity|]. inversion Hn; subst.
    destruct (in_dec string_dec x l); [contradiction|]. f_equal. auto.
  - intro x. rewrite filter_In, keep_last_in.
    assert (E : negb (smem x (map snd (automap (names_of decl) (List.concat bases) (dupdate [] (maps_of decl))))) = true
                <-> ~ exists new, renames bases decl new x).
    { rewrite negb_true_iff, smem_false. split; intros H1 H2; apply H1.
      - destruct H2 as [new H2]. apply final_maps in H2; [|exact Hn]. apply (in_map snd) in H2. exact H2.
      - apply in_map_iff in H2. destruct H2 as [[n o] [<- H2]]. exists n. now apply final_maps in H2. }
    now rewrite E.
Qed.

(** ** resolution of old names *)
Lemma last_map_some : forall (l : list string) x, last (map Some (l ++ [x])) None = Some x.
Proof. intros l x. rewrite map_app. cbn. apply last_last. Qed.

Lemma resolve_exact : forall c new old ms n o, lmaps c = ms ++ [(n, o)] -> In (new, old) (lmaps c) ->
  ~ In n (map snd (lmaps c)) -> In n (lnames c) -> resolve c old = Slot n.
Proof.
  intros c new old ms n o E Hin Hn Hl. unfold resolve.
  assert (H1 : smem old (map snd (lmaps c)) = true).
  { apply smem_spec. apply (in_map snd) in Hin. exact Hin. }
  rewrite H1. unfold last_name. rewrite E. unfold dkeys. rewrite map_app. cbn [map fst].
  rewrite last_map_some. rewrite <- E. apply smem_false in Hn. rewrite Hn. apply smem_spec in Hl. now rewrite Hl.
Qed.
Lemma resolve_iff : forall c new old ms n o, lmaps c = ms ++ [(n, o)] -> In (new, old) (lmaps c) ->
  ~ In n (map snd (lmaps c)) -> In n (lnames c) -> (resolve c old = Slot new <-> new = n).
Proof.
  intros c new old ms n o E Hin Hn Hl. rewrite (@resolve_exact c new old ms n o E Hin Hn Hl). split; intro H; congruence.
Qed.

Lemma resolve_single : forall bases decl ext c new old, NoDup (names_of decl) ->
  lgenerate bases decl ext = Ok c -> lmaps c = [(new, old)] -> new <> old ->
  resolve c old = Slot new.
Proof.
  intros bases decl ext c new old Hn H E Hd.
  assert (Hne : names_of decl <> []).
  { intro Q. rewrite lgenerate_inherit in H by exact Q. destruct ext; try discriminate; injection H as <-; discriminate. }
  destruct (@own_names bases decl ext Hne Hn) as [c' [Hc' [Hm [_ Hl]]]].
  assert (c' = c) by congruence. subst c'.
  assert (Hren : renames bases decl new old) by (apply Hm; rewrite E; now left).
  assert (Hin : In new (lnames c)).
  { apply Hl. split.
    - destruct Hren as [Hr|[_ [i [Hi _]]]]; [eapply maps_names; eauto|eapply nth_error_In; eauto].
    - intros [x Hx]. apply Hm in Hx. rewrite E in Hx. destruct Hx as [Hx|[]]. injection Hx as <- <-. congruence. }
  apply (@resolve_exact c new old [] new old); auto.
  - rewrite E. now left.
  - rewrite E. cbn. intros [Hx|[]]; congruence.
Qed.
