(** C120: the help text of an indicator class; C18 for the package. *)
From Coq Require Import List String Bool ZArith.
From Verif Require Import Series Py LinesGen Params ParamsFacts Table Registry ParamTable Docs DocsSpec DocsFacts PackageDocs TightFacts.
Import ListNotations.
Local Open Scope string_scope.
Local Open Scope list_scope.
Local Open Scope nat_scope.

(** C120: the help text lists the inputs and outputs of the class, in their order *)
Theorem C120_lines : forall cn c, made cn c -> forall l,
  (In (SInputs l) (h_help c) <-> l = lnames (h_in c) /\ l <> []) /\
  (In (SOutputs l) (h_help c) <-> l = lnames (h_out c) /\ l <> []).
Proof. exact help_lines. Qed.
Print Assumptions C120_lines.
(** C120: it lists all parameters, and the default shown is the one that every call uses which does not give the
    parameter *)
Theorem C120_defaults : forall cn c, made cn c ->
  (forall l, In (SParams l) (h_help c) -> map sp_name l = map fst (pdefaults (h_par c))) /\
  (pdefaults (h_par c) <> [] -> exists l, In (SParams l) (h_help c)) /\
  (forall l p kwargs, In (SParams l) (h_help c) -> In p l -> NoDup (map fst kwargs) -> ~ In (sp_name p) (map fst kwargs) ->
     exists ps rest v, from_kwargs (h_par c) kwargs = Ok (ps, rest) /\ dget ps (sp_name p) = Some v /\ sp_default p = show cn v).
Proof. exact help_params. Qed.
Print Assumptions C120_defaults.
(** C120: how a default is shown: text in quotes, a class by its name, anything else as it prints *)
Theorem C120_shown : forall cn v,
  (forall s, show cn v = ShQuoted s <-> v = PStr s) /\
  (forall n, show cn v = ShClass n <-> exists k, v = PObj k /\ cn k = Some n) /\
  ((forall s, v <> PStr s) -> (forall k n, v = PObj k -> cn k <> Some n) -> show cn v = ShValue v).
Proof. exact shown_as. Qed.
Print Assumptions C120_shown.
(** C120: a parameter which the class itself describes has that description; any other has none, whatever the base class
    says *)
Theorem C120_described : forall cn base s c n d t b, made cn base -> wf_decl (s_par s) -> declare cn base s = Ok c -> t <> "" ->
  (declares (s_par s) n [d; PStr t; PBool b] \/ declares (s_par s) n [d; PBool b; PStr t]) ->
  forall l p, In (SParams l) (h_help c) -> In p l -> sp_name p = n -> sp_doc p = Some (PStr t).
Proof. exact help_described. Qed.
Print Assumptions C120_described.
Theorem C120_undescribed_refuted : forall cn base s c n, made cn base -> wf_decl (s_par s) -> declare cn base s = Ok c ->
  dget (pinfos (h_par base)) "doc" = None -> (forall v, dget (pdefaults (h_par base)) n = Some v -> not_tuple v) ->
  (undeclared (s_par s) n \/ exists d, declares (s_par s) n [d] /\ not_tuple d) ->
  forall l p, In (SParams l) (h_help c) -> In p l -> sp_name p = n -> sp_doc p = None.
Proof. exact help_undescribed. Qed.
Print Assumptions C120_undescribed_refuted.
(** C120: a class that declares no alias lists those of its base class, which name the base class *)
Theorem C120_aliases_refuted : forall cn base s c, made cn base -> declare cn base s = Ok c -> forall l,
  In (SAliases l) (h_help c) <->
  match s_alias s with Some a => l = a /\ l <> [] | None => In (SAliases l) (h_help base) end.
Proof. exact help_aliases. Qed.
Print Assumptions C120_aliases_refuted.
(** C120: the introduction is that of the class itself and is empty if it has none; the text on ta-lib is that of the
    nearest class with a method _talib, if it has one *)
Theorem C120_texts : forall cn base s c, made cn base -> declare cn base s = Ok c ->
  (forall d, In (SText d) (h_help c) <-> d = s_doc s) /\
  (forall d, In (STalib d) (h_help c) <->
     match s_talib s with Some a => d = a /\ d <> "" | None => In (STalib d) (h_help base) end).
Proof. exact help_texts. Qed.
Print Assumptions C120_texts.

(** C120: the classes of the package.  All of them are made *)
Theorem C120_package : forall e, In e table -> exists c, class_of (e_name e) = Some (Ok c) /\ made object_class c.
Proof. exact package_total. Qed.
Print Assumptions C120_package.
(** C120: the names they list as aliases are theirs, with 15 exceptions, which belong to another class *)
Theorem C120_package_names_refuted : forall e c l a, In e table -> class_of (e_name e) = Some (Ok c) ->
  In (SAliases l) (h_help c) -> In a l ->
  (dget public_ns a = Some (NClass (e_name e)) <-> ~ In (e_name e, a) foreign_names).
Proof. exact package_names. Qed.
Print Assumptions C120_package_names_refuted.
(** C120: 102 parameters are listed without description ... *)
Theorem C120_package_descriptions_refuted : forall e c l p, In e table -> class_of (e_name e) = Some (Ok c) ->
  In (SParams l) (h_help c) -> In p l -> (sp_doc p = None <-> In (e_name e, sp_name p) undescribed).
Proof. exact package_undescribed. Qed.
Print Assumptions C120_package_descriptions_refuted.
(** ... and all but one are described in the help text of a base class *)
Theorem C120_package_lost : forall n x, In (n, x) undescribed -> (n, x) <> ("wma", "coef") ->
  exists b c l p d, In b (chain depth_bound n) /\ e_name b <> n /\ class_of (e_name b) = Some (Ok c) /\
    In (SParams l) (h_help c) /\ In p l /\ sp_name p = x /\ sp_doc p = Some d.
Proof. exact lost_descriptions. Qed.
Print Assumptions C120_package_lost.

(** C18 (and C19): no class of the package has a tuple as default, so none of its defaults is damaged by inheritance *)
Theorem C18_package : forall e c n v, In e table -> class_of (e_name e) = Some (Ok c) -> In (n, v) (pdefaults (h_par c)) ->
  not_tuple v /\ n <> "doc".
Proof. exact package_defaults. Qed.
Print Assumptions C18_package.

(** natr: the average true range in percent *)
Definition natr_help : list section :=
  [SText "natr"; SAliases ["NATR"; "NormalizedAverageTrueRange"]; SInputs ["high"; "low"; "close"]; SOutputs ["natr"];
   SParams [mkSP "_period" (ShValue (PInt 1)) None; mkSP "period" (ShValue (PInt 14)) None; mkSP "_ma" (ShClass "smma") None]].
Example C120_run : option_map (fun r => match r with Ok c => h_help c | Raise _ => [] end) (class_of "natr") = Some natr_help.
Proof. vm_compute. reflexivity. Qed.
Example C120_run_atr : option_map (fun r => match r with Ok c => nth_error (h_help c) 4 | Raise _ => None end) (class_of "atr") =
  Some (Some (SParams [mkSP "_period" (ShValue (PInt 1)) None;
                       mkSP "period" (ShValue (PInt 14)) (Some (PStr "Period to consider"));
                       mkSP "_ma" (ShClass "smma") (Some (PStr "Moving average to use"))])).
Proof. vm_compute. reflexivity. Qed.
(** a class of a user below rsi, without aliases, docstring and parameters *)
Definition my_rsi : dstmt := mkDStmt "" None [] (ExtTuple []) [] (ExtTuple []) (DSeq [("period", [PInt 9])]) None.
Example C120_user : exists base c, class_of "rsi" = Some (Ok base) /\ made object_class base /\ declare object_class base my_rsi = Ok c /\
  In (SText "") (h_help c) /\ In (SAliases (h_alias base)) (h_help c) /\ h_alias base <> [] /\
  (exists l p, In (SParams l) (h_help c) /\ In p l /\ p = mkSP "period" (ShValue (PInt 9)) None).
Proof.
  destruct (class_of "rsi") as [[base|x]|] eqn:E; [| |]; try (vm_compute in E; discriminate E).
  pose proof (class_made _ _ E) as M. vm_compute in E. injection E as <-.
  eexists _, _. split; [reflexivity|]. split; [exact M|]. split; [vm_compute; reflexivity|]. split; [now left|].
  split; [right; now left|]. split; [discriminate|]. eexists. eexists. split; [cbn; do 4 right; now left|]. split; [cbn; left; reflexivity|reflexivity].
Qed.
Example C120_lengths : List.length foreign_names = 15 /\ List.length undescribed = 102 /\ List.length table = 117.
Proof. vm_compute. auto. Qed.
