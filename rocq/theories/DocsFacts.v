(** Lemmas on help texts. *)
From Coq Require Import List String Bool ZArith Lia.
From Verif Require Import Series Py PyFacts LinesGen Params ParamsFacts Table Registry ParamTable Docs DocsSpec.
Import ListNotations.
Local Open Scope string_scope.
Local Open Scope list_scope.
Local Open Scope nat_scope.

Section DocsFacts.
  Variable cn : nat -> option string.

  Lemma in_opt : forall A (f : list A -> section) l x, In x (opt_section f l) <-> l <> [] /\ x = f l.
  Proof.
    intros A f [|a l] x; cbn.
    - split; [intros []|intros [H _]; now elim H].
    - split; [intros [<-|[]]; split; [discriminate|reflexivity]|intros [_ ->]; now left].
  Qed.
  (** the sections of a help text *)
  Lemma in_help : forall doc alias ins outs p ta x, In x (help cn doc alias ins outs p ta) <->
    x = SText doc \/ (alias <> [] /\ x = SAliases alias) \/ (ins <> [] /\ x = SInputs ins) \/ (outs <> [] /\ x = SOutputs outs) \/
    (show_params cn p <> [] /\ x = SParams (show_params cn p)) \/ (ta <> "" /\ x = STalib ta).
  Proof.
    intros. unfold help. rewrite !in_app_iff, !in_opt. cbn [In].
    destruct (String.eqb_spec ta ""); cbn [In]; intuition (subst; auto; congruence).
  Qed.
  Lemma made_help : forall c, made cn c -> exists doc,
    h_help c = help cn doc (h_alias c) (lnames (h_in c)) (lnames (h_out c)) (h_par c) (h_talib c).
  Proof.
    intros c [|base s c' _ _ H]; [exists ""; reflexivity|]. unfold declare in H.
    destruct (lgenerate [lnames (h_in base)] (s_in s) (s_inext s)) as [i|]; [|discriminate H]. cbn [bind] in H.
    destruct (lgenerate [lnames (h_out base)] (s_out s) (s_outext s)) as [o|]; [|discriminate H]. cbn [bind] in H.
    destruct (generate [h_par base] (s_par s)) as [p|]; [|discriminate H]. cbn [bind] in H. injection H as <-.
    exists (s_doc s). reflexivity.
  Qed.
  Lemma declared : forall base s c, declare cn base s = Ok c ->
    h_help c = help cn (s_doc s) (h_alias c) (lnames (h_in c)) (lnames (h_out c)) (h_par c) (h_talib c) /\
    h_alias c = match s_alias s with Some a => a | None => h_alias base end /\
    h_talib c = match s_talib s with Some a => a | None => h_talib base end /\
    generate [h_par base] (s_par s) = Ok (h_par c).
  Proof.
    intros base s c H. unfold declare in H.
    destruct (lgenerate [lnames (h_in base)] (s_in s) (s_inext s)) as [i|]; [|discriminate H]. cbn [bind] in H.
    destruct (lgenerate [lnames (h_out base)] (s_out s) (s_outext s)) as [o|]; [|discriminate H]. cbn [bind] in H.
    destruct (generate [h_par base] (s_par s)) as [p|]; [|discriminate H]. cbn [bind] in H. injection H as <-. auto.
  Qed.
  Lemma made_class : forall c, made cn c -> is_class (h_par c).
  Proof.
    intros c H. induction H as [|base s c M IH W D].
    - apply (@is_class_gen [] (DSeq [])); [intros b []|exact I|reflexivity].
    - apply declared in D as (_ & _ & _ & G). apply (@is_class_gen [h_par base] (s_par s)); [|exact W|exact G].
      intros b [<-|[]]. exact IH.
  Qed.

  (** inputs and outputs are those of the class *)
  Lemma help_lines : forall c, made cn c -> forall l,
    (In (SInputs l) (h_help c) <-> l = lnames (h_in c) /\ l <> []) /\
    (In (SOutputs l) (h_help c) <-> l = lnames (h_out c) /\ l <> []).
  Proof.
    intros c M l. destruct (made_help _ M) as (doc & ->). rewrite !in_help. split; split; intros H.
    - destruct H as [H|[[_ H]|[[H1 H]|[[_ H]|[[_ H]|[_ H]]]]]]; try discriminate H. injection H as ->. auto.
    - destruct H as [-> H]. auto.
    - destruct H as [H|[[_ H]|[[_ H]|[[H1 H]|[[_ H]|[_ H]]]]]]; try discriminate H. injection H as ->. auto.
    - destruct H as [-> H]. auto 6.
  Qed.

  Lemma in_params : forall c l, made cn c -> In (SParams l) (h_help c) <-> l = show_params cn (h_par c) /\ l <> [].
  Proof.
    intros c l M. destruct (made_help _ M) as (doc & ->). rewrite in_help. split; intros H.
    - destruct H as [H|[[_ H]|[[_ H]|[[_ H]|[[H1 H]|[_ H]]]]]]; try discriminate H. injection H as ->. auto.
    - destruct H as [-> H]. auto 8.
  Qed.
  (** all parameters are listed, in order, each once; the default shown is the one a call uses that does not give the
      parameter *)
  Lemma help_params : forall c, made cn c ->
    (forall l, In (SParams l) (h_help c) -> map sp_name l = map fst (pdefaults (h_par c))) /\
    (pdefaults (h_par c) <> [] -> exists l, In (SParams l) (h_help c)) /\
    (forall l p kwargs, In (SParams l) (h_help c) -> In p l -> NoDup (map fst kwargs) -> ~ In (sp_name p) (map fst kwargs) ->
       exists ps rest v, from_kwargs (h_par c) kwargs = Ok (ps, rest) /\ dget ps (sp_name p) = Some v /\ sp_default p = show cn v).
  Proof.
    intros c M. split; [|split].
    - intros l H. apply (in_params _ _ M) in H as [-> _]. unfold show_params. rewrite map_map. reflexivity.
    - intros H. exists (show_params cn (h_par c)). apply (in_params _ _ M). split; [reflexivity|].
      unfold show_params. destruct (pdefaults (h_par c)); [now elim H|discriminate].
    - intros l p kwargs H Hp Nk Hn. apply (in_params _ _ M) in H as [-> _]. unfold show_params in Hp.
      apply in_map_iff in Hp as ([n v] & <- & Hi). cbn [sp_name sp_default fst snd] in *.
      destruct (class_kwargs_split kwargs (made_class _ M) Nk) as (ps & rest & E & _ & G & _).
      exists ps, rest, v. split; [exact E|]. split; [|reflexivity].
      assert (D : dget (pdefaults (h_par c)) n = Some v).
      { apply dget_nodup; [apply is_class_nodup, made_class; exact M|exact Hi]. }
      rewrite (G _ _ D). replace (dget kwargs n) with (@None pyval); [reflexivity|]. symmetry. now apply dget_none.
  Qed.

  (** the aliases are those of the class statement, or else those the base class lists *)
  Lemma help_aliases : forall base s c, made cn base -> declare cn base s = Ok c -> forall l,
    In (SAliases l) (h_help c) <->
    match s_alias s with Some a => l = a /\ l <> [] | None => In (SAliases l) (h_help base) end.
  Proof.
    intros base s c M D l. apply declared in D as (-> & A & _). rewrite in_help.
    assert (E : In (SAliases l) (h_help base) <-> l = h_alias base /\ l <> []).
    { destruct (made_help _ M) as (doc & ->). rewrite in_help. split; intros H.
      - destruct H as [H|[[H1 H]|[[_ H]|[[_ H]|[[_ H]|[_ H]]]]]]; try discriminate H. injection H as ->. auto.
      - destruct H as [-> H]. auto. }
    assert (L : forall a, (SAliases l = SText (s_doc s) \/ (a <> [] /\ SAliases l = SAliases a) \/
       (lnames (h_in c) <> [] /\ SAliases l = SInputs (lnames (h_in c))) \/ (lnames (h_out c) <> [] /\ SAliases l = SOutputs (lnames (h_out c))) \/
       (show_params cn (h_par c) <> [] /\ SAliases l = SParams (show_params cn (h_par c))) \/ (h_talib c <> "" /\ SAliases l = STalib (h_talib c)))
       <-> l = a /\ l <> []).
    { intros a. split; intros H.
      - destruct H as [H|[[H1 H]|[[_ H]|[[_ H]|[[_ H]|[_ H]]]]]]; try discriminate H. injection H as ->. auto.
      - destruct H as [-> H]. auto. }
    rewrite A. destruct (s_alias s) as [a|]; rewrite L; [reflexivity|]. now rewrite E.
  Qed.

  (** the introduction is that of the class statement alone; the text on ta-lib is that of the nearest class *)
  Lemma help_texts : forall base s c, made cn base -> declare cn base s = Ok c ->
    (forall d, In (SText d) (h_help c) <-> d = s_doc s) /\
    (forall d, In (STalib d) (h_help c) <->
       match s_talib s with Some a => d = a /\ d <> "" | None => In (STalib d) (h_help base) end).
  Proof.
    intros base s c M D. apply declared in D as (-> & _ & T & _). split; intros d; rewrite in_help.
    - split; intros H.
      + destruct H as [H|[[_ H]|[[_ H]|[[_ H]|[[_ H]|[_ H]]]]]]; try discriminate H. now injection H as ->.
      + left. now subst.
    - assert (E : In (STalib d) (h_help base) <-> d = h_talib base /\ d <> "").
      { destruct (made_help _ M) as (doc & ->). rewrite in_help. split; intros H.
        - destruct H as [H|[[_ H]|[[_ H]|[[_ H]|[[_ H]|[H1 H]]]]]]; try discriminate H. injection H as ->. auto.
        - destruct H as [-> H]. auto 8. }
      assert (L : forall a, h_talib c = a -> (STalib d = SText (s_doc s) \/ (h_alias c <> [] /\ STalib d = SAliases (h_alias c)) \/
         (lnames (h_in c) <> [] /\ STalib d = SInputs (lnames (h_in c))) \/ (lnames (h_out c) <> [] /\ STalib d = SOutputs (lnames (h_out c))) \/
         (show_params cn (h_par c) <> [] /\ STalib d = SParams (show_params cn (h_par c))) \/ (h_talib c <> "" /\ STalib d = STalib (h_talib c)))
         <-> d = a /\ d <> "").
      { intros a Ha. split; intros H.
        - destruct H as [H|[[_ H]|[[_ H]|[[_ H]|[[_ H]|[H1 H]]]]]]; try discriminate H. injection H as ->. auto.
        - destruct H as [-> H]. subst a. auto 8. }
      destruct (s_talib s) as [a|]; rewrite (L _ T); [reflexivity|]. now rewrite E.
  Qed.

  (** a parameter the class statement does not describe has no description, whatever the base class says *)
  Lemma help_undescribed : forall base s c n, made cn base -> wf_decl (s_par s) -> declare cn base s = Ok c ->
    dget (pinfos (h_par base)) "doc" = None -> (forall v, dget (pdefaults (h_par base)) n = Some v -> not_tuple v) ->
    (undeclared (s_par s) n \/ exists d, declares (s_par s) n [d] /\ not_tuple d) ->
    forall l p, In (SParams l) (h_help c) -> In p l -> sp_name p = n -> sp_doc p = None.
  Proof.
    intros base s c n M W D Hd Ht Hu l p Hl Hp <-.
    assert (Mc : made cn c) by (eapply made_declared; eassumption).
    apply (in_params _ _ Mc) in Hl as [-> _]. unfold show_params in Hp. apply in_map_iff in Hp as ([n v] & <- & Hi).
    cbn [sp_name sp_doc fst] in *. apply declared in D as (_ & _ & _ & G). unfold described.
    rewrite (@doc_lost [h_par base] (s_par s) (h_par c) n); [reflexivity| |exact W|exact G| | |exact Hu|].
    - intros b [<-|[]]. now apply made_class.
    - intros b [<-|[]]. exact Hd.
    - intros b w [<-|[]]. apply Ht.
    - rewrite (dget_nodup _ _ _ (is_class_nodup (made_class _ Mc)) Hi). discriminate.
  Qed.
  (** a parameter it describes has that description *)
  Lemma help_described : forall base s c n d t b, made cn base -> wf_decl (s_par s) -> declare cn base s = Ok c -> t <> "" ->
    (declares (s_par s) n [d; PStr t; PBool b] \/ declares (s_par s) n [d; PBool b; PStr t]) ->
    forall l p, In (SParams l) (h_help c) -> In p l -> sp_name p = n -> sp_doc p = Some (PStr t).
  Proof.
    intros base s c n d t b M W D Ht Hd l p Hl Hp <-.
    assert (Mc : made cn c) by (eapply made_declared; eassumption).
    apply (in_params _ _ Mc) in Hl as [-> _]. unfold show_params in Hp. apply in_map_iff in Hp as ([n v] & <- & Hi).
    cbn [sp_name sp_doc fst] in *. apply declared in D as (_ & _ & _ & G). unfold described.
    rewrite (@own_info [h_par base] (s_par s) (h_par c) n d t b W G Ht Hd). cbn [truthy].
    destruct (String.eqb_spec t ""); [contradiction|reflexivity].
  Qed.
End DocsFacts.
