(** Property theorems C139: which operations lines and indicators have.
    Model: Install.v.  A frame is the namespace of an active call; [is_body f] says that it is that of a class body. *)
From Coq Require Import String List Bool Arith Lia.
From Verif Require Import Py PyFacts Holder Protocol Install InstallFacts.
Import ListNotations.
Local Open Scope string_scope.
Local Open Scope list_scope.

(** ** C139: an operation is installed in the class whose body is being executed, whatever functions are between,
    and in no other place *)
Theorem C139_nearest_class :
  forall lvl (helpers : list frame) (body : frame) outer op a,
    (lvl <= List.length helpers)%nat -> Forall (fun h => ~ is_body h) helpers -> is_body body ->
    install_cls lvl op a false (helpers ++ body :: outer) = helpers ++ dset body op a :: outer /\
    install_cls lvl op a true (helpers ++ body :: outer) = helpers ++ dset body op (AProperty a) :: outer.
Proof. exact install_nearest. Qed.
Print Assumptions C139_nearest_class.
Theorem C139_outside :
  forall lvl op a propertize (st : list frame), Forall (fun h => ~ is_body h) st -> install_cls lvl op a propertize st = st.
Proof. exact install_outside. Qed.
Print Assumptions C139_outside.
Example C139_nearest_met : is_body fresh /\ ~ is_body [("name", AText "add")] /\
  install_cls 2 "add" (AOp "binary_op" "add") false [[]; [("name", AText "add")]; fresh; fresh] =
  [[]; [("name", AText "add")]; fresh ++ [("add", AOp "binary_op" "add")]; fresh].
Proof. split; [left; reflexivity|]. split; [|reflexivity]. intros [H|[]]. discriminate. Qed.
(** a loop over a table installs each operation of the table with its own function, and changes no other name but the
    two variables of the loop *)
Theorem C139_table :
  forall keyed maker table (body : frame) outer,
    is_body body -> NoDup (map fst table) -> ~ In "name" (map fst table) -> ~ In "opargs" (map fst table) ->
    exists body', exec (body :: outer) (Loop keyed maker table) = body' :: outer /\
      (forall op, In (op, false) table -> dget body' op = Some (AOp maker op)) /\
      (forall op, In (op, true) table -> dget body' op = Some (AProperty (AOp maker op))) /\
      (forall k, ~ In k (map fst table) -> k <> "name" -> k <> "opargs" -> dget body' k = dget body k).
Proof. exact installed. Qed.
Print Assumptions C139_table.
Example C139_table_met : is_body fresh /\ NoDup (map fst multiops) /\ ~ In "name" (map fst multiops) /\ ~ In "opargs" (map fst multiops).
Proof.
  split; [left; reflexivity|]. split.
  - repeat constructor; cbn; intuition discriminate.
  - split; cbn; intuition discriminate.
Qed.
(** the classes of the package: no table and no method of the body overwrites an operation of another table *)
Theorem C139_line :
  forall outer op (D := class_dict body_of_Line outer),
    (In op binop_table -> dget D op = Some (AOp "binary_op" op)) /\
    (In op redop_table -> dget D op = Some (AOp "reduction_op" op)) /\
    (In op stdop_table -> dget D op = Some (AOp "standard_op" op)) /\
    (In op ["expanding"; "ewm"; "_ewm"; "rolling"] -> dget D op = Some (AOp "multifunc_op" op)) /\
    (In op ["iloc"; "loc"] -> dget D op = Some (AProperty (AOp "multifunc_op" op))).
Proof. exact line_ops. Qed.
Print Assumptions C139_line.
Theorem C139_indicator :
  forall outer op, In op binop_table -> dget (class_dict body_of_LinesHolder outer) op = Some (AOp "binary_op" op).
Proof. exact holder_ops. Qed.
Print Assumptions C139_indicator.
Theorem C139_nothing_else_partial :
  forall outer k, dget (class_dict body_of_Line outer) k <> None ->
    In k (binop_table ++ redop_table ++ stdop_table ++ ["expanding"; "ewm"; "_ewm"; "rolling"; "iloc"; "loc"] ++ line_names ++
          ["__module__"; "__qualname__"; "name"; "opargs"]).
Proof. exact nothing_else. Qed.
Print Assumptions C139_nothing_else_partial.
(** the variables of the loops stay behind as attributes: line.name is 'loc' and the name of an indicator '__xor__' *)
Theorem C139_nothing_else_refuted :
  forall outer,
    dget (class_dict body_of_Line outer) "name" = Some (AText "loc") /\ dget (class_dict body_of_Line outer) "opargs" = Some AOther /\
    dget (class_dict body_of_LinesHolder outer) "name" = Some (AText "__xor__").
Proof. exact left_over. Qed.
Print Assumptions C139_nothing_else_refuted.
Example C139_line_met : In "add" binop_table /\ In "mean" redop_table /\ In "abs" stdop_table /\
  dget (class_dict body_of_Line []) "update" = None.
Proof. repeat split; cbn; tauto. Qed.
(** the tables name what Holder.v takes as the attributes of lines, each once *)
Example C139_tables :
  NoDup (binop_table ++ redop_table ++ stdop_table) /\
  (forall s, In s Holder.redop_names <-> In s redop_table) /\
  (forall s, In s ("__abs__" :: Holder.stdop_names) <-> In s stdop_table) /\
  (forall s, In s (Protocol.binop_dunders ++ Holder.binop_names) <-> In s binop_table).
Proof.
  assert (T : forall l m, forallb (fun x => smem x m) l = true -> forall s, In s l -> In s m).
  { intros l m H s I. rewrite forallb_forall in H. specialize (H _ I). apply existsb_exists in H. destruct H as (x & Hx & E).
    apply String.eqb_eq in E. now subst. }
  split; [|split; [|split]].
  - assert (D : fromkeys (binop_table ++ redop_table ++ stdop_table) = binop_table ++ redop_table ++ stdop_table) by (vm_compute; reflexivity).
    rewrite <- D. apply PyFacts.fromkeys_nodup.
  - intro s. split; apply T; vm_compute; reflexivity.
  - intro s. split; apply T; vm_compute; reflexivity.
  - intro s. split; apply T; vm_compute; reflexivity.
Qed.
