(** Lemmas on the help texts and parameters of the package. *)
From Coq Require Import List String Bool ZArith Lia.
From Verif Require Import Series Py PyFacts LinesGen Params ParamsFacts Table Registry RegistryFacts ParamTable Docs DocsSpec DocsFacts.
Import ListNotations.
Local Open Scope string_scope.
Local Open Scope list_scope.
Local Open Scope nat_scope.

Lemma made_all : forall ss base c, made object_class base -> (forall s, In s ss -> wf_decl (s_par s)) ->
  declare_all object_class base ss = Ok c -> made object_class c.
Proof.
  induction ss as [|s ss IH]; intros base c M W H; cbn [declare_all] in H; [now injection H as <-|].
  destruct (declare object_class base s) as [c'|] eqn:E; [|discriminate H]. cbn [bind] in H.
  apply (IH c' c); [|intros x Hx; apply W; now right|exact H]. eapply made_declared; [exact M|apply W; now left|exact E].
Qed.
Lemma stmts_wf : forall ch ss s, stmts_of ch = Some ss -> In s ss -> wf_decl (s_par s).
Proof.
  induction ch as [|e ch IH]; intros ss s H Hi; cbn [stmts_of] in H; [injection H as <-; destruct Hi|].
  destruct (find_params (e_name e)) as [p|]; [|discriminate H]. destruct (stmts_of ch) as [ss'|]; [|discriminate H].
  injection H as <-. apply in_app_iff in Hi as [Hi|[<-|[]]]; [eapply IH; [reflexivity|exact Hi]|exact I].
Qed.
Lemma class_made : forall n c, class_of n = Some (Ok c) -> made object_class c.
Proof.
  intros n c H. unfold class_of in H. destruct (stmts_of (chain depth_bound n)) as [ss|] eqn:E; [|discriminate H].
  cbn [option_map] in H. injection H as H. eapply made_all; [apply made_root| |exact H]. intros s Hs. eapply stmts_wf; eassumption.
Qed.

(** the classes of the package, computed once *)
Definition package : list (string * option (res hclass)) := map (fun e => (e_name e, class_of (e_name e))) table.
Lemma in_package : forall e c, In e table -> class_of (e_name e) = Some (Ok c) -> In (e_name e, Some (Ok c)) package.
Proof. intros e c H <-. unfold package. now apply (in_map (fun x => (e_name x, class_of (e_name x)))). Qed.
Definition all_ok (f : string -> hclass -> bool) : bool :=
  forallb (fun x => match snd x with Some (Ok c) => f (fst x) c | _ => false end) package.
Lemma all_ok_spec : forall f, all_ok f = true -> forall e c, In e table -> class_of (e_name e) = Some (Ok c) -> f (e_name e) c = true.
Proof.
  intros f H e c He Hc. unfold all_ok in H. rewrite forallb_forall in H.
  exact (H _ (in_package _ _ He Hc)).
Qed.

Lemma package_total : forall e, In e table -> exists c, class_of (e_name e) = Some (Ok c) /\ made object_class c.
Proof.
  assert (K : all_ok (fun _ _ => true) = true) by (vm_compute; reflexivity).
  intros e He. unfold all_ok in K. rewrite forallb_forall in K.
  assert (Hi : In (e_name e, class_of (e_name e)) package) by (unfold package; now apply (in_map (fun x => (e_name x, class_of (e_name x))))).
  specialize (K _ Hi). cbn [fst snd] in K. destruct (class_of (e_name e)) as [[c|x]|] eqn:E; try discriminate K.
  exists c. split; [reflexivity|]. exact (class_made _ _ E).
Qed.

Definition pair_eqb (a b : string * string) : bool := String.eqb (fst a) (fst b) && String.eqb (snd a) (snd b).
Lemma pair_eqb_spec : forall a b, pair_eqb a b = true <-> a = b.
Proof.
  intros [a1 a2] [b1 b2]. unfold pair_eqb. cbn [fst snd]. rewrite andb_true_iff, !String.eqb_eq. split; [intros [-> ->]; reflexivity|].
  intros H. now injection H as -> ->.
Qed.
Definition pmem (a : string * string) (l : list (string * string)) : bool := existsb (pair_eqb a) l.
Lemma pmem_spec : forall a l, pmem a l = true <-> In a l.
Proof.
  intros a l. unfold pmem. rewrite existsb_exists. split.
  - intros (x & Hx & E). apply pair_eqb_spec in E. now subst.
  - intros H. exists a. split; [exact H|now apply pair_eqb_spec].
Qed.

(** the names listed as aliases *)
Lemma package_names : forall e c l a, In e table -> class_of (e_name e) = Some (Ok c) -> In (SAliases l) (h_help c) -> In a l ->
  (dget public_ns a = Some (NClass (e_name e)) <-> ~ In (e_name e, a) foreign_names).
Proof.
  assert (K : all_ok (fun n c => forallb (fun a => Bool.eqb (is_class_b (dget public_ns a) n) (negb (pmem (n, a) foreign_names)))
                (h_alias c)) = true) by (vm_compute; reflexivity).
  intros e c l a He Hc Hl Ha. pose proof (all_ok_spec _ K e c He Hc) as F. rewrite forallb_forall in F.
  assert (El : l = h_alias c).
  { destruct (made_help object_class _ (class_made _ _ Hc)) as (doc & E). rewrite E in Hl. apply in_help in Hl.
    destruct Hl as [H|[[H1 H]|[[_ H]|[[_ H]|[[_ H]|[_ H]]]]]]; try discriminate H. now injection H as ->. }
  subst l. specialize (F a Ha). apply eqb_prop in F. rewrite <- pmem_spec. split.
  - intros H. rewrite H in F. cbn [is_class_b] in F. rewrite String.eqb_refl in F. destruct (pmem (e_name e, a) foreign_names); [discriminate F|discriminate].
  - intros H. apply is_class_spec. rewrite F. now destruct (pmem (e_name e, a) foreign_names).
Qed.

(** the parameters without description *)
Lemma package_undescribed : forall e c l p, In e table -> class_of (e_name e) = Some (Ok c) -> In (SParams l) (h_help c) -> In p l ->
  (sp_doc p = None <-> In (e_name e, sp_name p) undescribed).
Proof.
  assert (K : all_ok (fun n c => forallb (fun p => Bool.eqb (match sp_doc p with None => true | _ => false end)
                (pmem (n, sp_name p) undescribed)) (show_params object_class (h_par c))) = true) by (vm_compute; reflexivity).
  intros e c l p He Hc Hl Hp. pose proof (all_ok_spec _ K e c He Hc) as F. rewrite forallb_forall in F.
  apply (in_params _ _ _ (class_made _ _ Hc)) in Hl as [-> _]. specialize (F p Hp). apply eqb_prop in F.
  rewrite <- pmem_spec, <- F. destruct (sp_doc p); split; congruence.
Qed.

(** the description exists in a base class *)
Definition describes (n x : string) : bool :=
  match class_of n with
  | Some (Ok c) => existsb (fun p => String.eqb (sp_name p) x && match sp_doc p with None => false | _ => true end)
                     (show_params object_class (h_par c))
  | _ => false
  end.
Lemma lost_descriptions : forall n x, In (n, x) undescribed -> (n, x) <> ("wma", "coef") ->
  exists b c l p d, In b (chain depth_bound n) /\ e_name b <> n /\ class_of (e_name b) = Some (Ok c) /\
    In (SParams l) (h_help c) /\ In p l /\ sp_name p = x /\ sp_doc p = Some d.
Proof.
  assert (K : forallb (fun q => pair_eqb q ("wma", "coef") ||
     existsb (fun b => negb (String.eqb (e_name b) (fst q)) && describes (e_name b) (snd q)) (chain depth_bound (fst q))) undescribed = true)
    by (vm_compute; reflexivity).
  intros n x Hi Hn. rewrite forallb_forall in K. specialize (K _ Hi). cbn [fst snd] in K. apply orb_true_iff in K as [K|K].
  - apply pair_eqb_spec in K. contradiction.
  - apply existsb_exists in K as (b & Hb & K). apply andb_true_iff in K as [K1 K2]. unfold describes in K2.
    destruct (class_of (e_name b)) as [[c|]|] eqn:E; try discriminate K2. apply existsb_exists in K2 as (p & Hp & K2).
    apply andb_true_iff in K2 as [K2 K3]. destruct (sp_doc p) as [d|] eqn:Ed; [|discriminate K3].
    exists b, c, (show_params object_class (h_par c)), p, d. split; [exact Hb|].
    split; [intros C; rewrite C, String.eqb_refl in K1; discriminate K1|]. split; [exact E|]. split.
    + apply (in_params _ _ _ (class_made _ _ E)). split; [reflexivity|]. intros C. rewrite C in Hp. destruct Hp.
    + split; [exact Hp|]. split; [now apply String.eqb_eq|exact Ed].
Qed.

(** no class of the package has a tuple as default, or a parameter called doc *)
Lemma package_defaults : forall e c n v, In e table -> class_of (e_name e) = Some (Ok c) -> In (n, v) (pdefaults (h_par c)) ->
  not_tuple v /\ n <> "doc".
Proof.
  assert (K : all_ok (fun _ c => forallb (fun nv => negb (String.eqb (fst nv) "doc") && match snd nv with PTuple _ => false | _ => true end)
     (pdefaults (h_par c))) = true) by (vm_compute; reflexivity).
  intros e c n v He Hc Hi. pose proof (all_ok_spec _ K e c He Hc) as F. rewrite forallb_forall in F. specialize (F _ Hi).
  cbn [fst snd] in F. apply andb_true_iff in F as [F1 F2]. split.
  - intros l ->. discriminate F2.
  - intros ->. discriminate F1.
Qed.
