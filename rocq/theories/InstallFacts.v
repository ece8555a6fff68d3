(** Facts about Install.v. *)
From Coq Require Import String List Bool Arith Lia.
From Verif Require Import Py PyFacts Install.
Import ListNotations.
Set Implicit Arguments.
Local Open Scope string_scope.
Local Open Scope list_scope.

Definition is_body (f : frame) : Prop := In "__module__" (map fst f).
Lemma body_mem f : is_body f <-> dmem f "__module__" = true.
Proof.
  unfold is_body, dmem. change (map fst f) with (dkeys f). pose proof (dget_none f "__module__") as N.
  destruct (dget f "__module__"); split; intro H; try reflexivity; try discriminate.
  - destruct (in_dec string_dec "__module__" (dkeys f)) as [I|I]; [exact I|]. apply N in I. discriminate.
  - exfalso. apply (proj1 N eq_refl). exact H.
Qed.
Lemma body_dset f k v : is_body f -> is_body (dset f k v).
Proof.
  rewrite !body_mem. unfold dmem. destruct (string_dec "__module__" k) as [<-|N].
  - now rewrite dget_dset_same.
  - now rewrite dget_dset_other.
Qed.
Lemma install_up_skip hs f fs n a : Forall (fun h => ~ is_body h) hs -> is_body f ->
  install_up (hs ++ f :: fs) n a = hs ++ dset f n a :: fs.
Proof.
  intros Hh Hf. induction Hh as [|h hs Hh _ IH]; cbn [app install_up].
  - rewrite body_mem in Hf. now rewrite Hf.
  - rewrite body_mem in Hh. destruct (dmem h "__module__"); [now elim Hh|]. now rewrite IH.
Qed.
Lemma install_up_none hs n a : Forall (fun h => ~ is_body h) hs -> install_up hs n a = hs.
Proof.
  intros Hh. induction Hh as [|h hs Hh _ IH]; cbn [install_up]; [reflexivity|].
  rewrite body_mem in Hh. destruct (dmem h "__module__"); [now elim Hh|]. now rewrite IH.
Qed.
Lemma install_nearest lvl hs f fs n a : (lvl <= List.length hs)%nat -> Forall (fun h => ~ is_body h) hs -> is_body f ->
  install_cls lvl n a false (hs ++ f :: fs) = hs ++ dset f n a :: fs /\
  install_cls lvl n a true (hs ++ f :: fs) = hs ++ dset f n (AProperty a) :: fs.
Proof.
  intros L Hh Hf. unfold install_cls. rewrite firstn_app, skipn_app. replace (lvl - List.length hs) with 0 by lia.
  cbn [firstn skipn]. rewrite app_nil_r. assert (H2 : Forall (fun h => ~ is_body h) (skipn lvl hs)).
  { rewrite <- (firstn_skipn lvl hs) in Hh. apply Forall_app in Hh. apply Hh. }
  rewrite !(fun x => @install_up_skip _ f fs n x H2 Hf). rewrite !app_assoc, !firstn_skipn. auto.
Qed.
Lemma install_outside lvl n a p st : Forall (fun h => ~ is_body h) st -> install_cls lvl n a p st = st.
Proof.
  intro H. unfold install_cls. rewrite install_up_none; [apply firstn_skipn|].
  rewrite <- (firstn_skipn lvl st) in H. apply Forall_app in H. apply H.
Qed.
Lemma make_eq maker op p f fs : is_body f -> make maker op p (f :: fs) = dset f op (if p then AProperty (AOp maker op) else AOp maker op) :: fs.
Proof.
  intro H. unfold make, install_cls. cbn [firstn skipn app]. rewrite (@install_up_skip [] f fs _ _ (Forall_nil _) H). reflexivity.
Qed.

Definition made maker (e : string * bool) : attr := if snd e then AProperty (AOp maker (fst e)) else AOp maker (fst e).
Definition turn_f (keyed : bool) maker (f : frame) (e : string * bool) : frame :=
  let f1 := dset f "name" (AText (fst e)) in
  let f2 := if keyed then dset f1 "opargs" AOther else f1 in dset f2 (fst e) (made maker e).
Lemma turn_eq keyed maker f fs e : is_body f -> turn keyed maker (f :: fs) e = turn_f keyed maker f e :: fs.
Proof.
  intro H. unfold turn, turn_f. cbn [bind_here]. destruct keyed; cbn [bind_here]; rewrite make_eq by (repeat apply body_dset; exact H); reflexivity.
Qed.
Lemma turn_body keyed maker f e : is_body f -> is_body (turn_f keyed maker f e).
Proof. intro H. unfold turn_f. destruct keyed; repeat apply body_dset; exact H. Qed.
Lemma loop_eq keyed maker table : forall f fs, is_body f ->
  fold_left (turn keyed maker) table (f :: fs) = fold_left (turn_f keyed maker) table f :: fs /\ is_body (fold_left (turn_f keyed maker) table f).
Proof.
  induction table as [|e t IH]; intros f fs H; cbn [fold_left]; [split; auto|]. rewrite turn_eq by exact H. apply IH. now apply turn_body.
Qed.
Lemma turn_other keyed maker f e k : k <> fst e -> k <> "name" -> k <> "opargs" -> dget (turn_f keyed maker f e) k = dget f k.
Proof. intros A B C. unfold turn_f. destruct keyed; rewrite !dget_dset_other; auto. Qed.
Lemma loop_other keyed maker table : forall f k, ~ In k (map fst table) -> k <> "name" -> k <> "opargs" ->
  dget (fold_left (turn_f keyed maker) table f) k = dget f k.
Proof.
  induction table as [|e t IH]; intros f k N A B; cbn [fold_left]; [reflexivity|]. cbn [map In] in N.
  rewrite IH by tauto. apply turn_other; auto.
Qed.
Lemma loop_in keyed maker table : NoDup (map fst table) -> ~ In "name" (map fst table) -> ~ In "opargs" (map fst table) ->
  forall f e, In e table -> dget (fold_left (turn_f keyed maker) table f) (fst e) = Some (made maker e).
Proof.
  induction table as [|e t IH]; intros D A B f x I; [contradiction|]. cbn [fold_left]. cbn [map] in *.
  apply NoDup_cons_iff in D. destruct D as [D1 D2]. destruct I as [->|I].
  - rewrite loop_other; [unfold turn_f; destruct keyed; apply dget_dset_same|exact D1| |]; intro E; [apply A|apply B]; left; now symmetry.
  - apply IH; auto; intro E; [apply A|apply B]; now right.
Qed.
Lemma installed keyed maker table f fs : is_body f -> NoDup (map fst table) -> ~ In "name" (map fst table) -> ~ In "opargs" (map fst table) ->
  exists f', exec (f :: fs) (Loop keyed maker table) = f' :: fs /\
    (forall op, In (op, false) table -> dget f' op = Some (AOp maker op)) /\
    (forall op, In (op, true) table -> dget f' op = Some (AProperty (AOp maker op))) /\
    (forall k, ~ In k (map fst table) -> k <> "name" -> k <> "opargs" -> dget f' k = dget f k).
Proof.
  intros H D A B. cbn [exec]. destruct (@loop_eq keyed maker table f fs H) as [E _]. eexists. split; [exact E|]. split; [|split].
  - intros op I. exact (@loop_in keyed maker table D A B f _ I).
  - intros op I. exact (@loop_in keyed maker table D A B f _ I).
  - intros k N K1 K2. now apply loop_other.
Qed.

(** the body does not depend on what is around it *)
Definition exec_f (f : frame) (s : stmt) : frame :=
  match s with Def n => dset f n AOther | Loop keyed maker table => fold_left (turn_f keyed maker) table f end.
Lemma body_eq body : forall f fs, is_body f -> fold_left exec body (f :: fs) = fold_left exec_f body f :: fs.
Proof.
  induction body as [|s b IH]; intros f fs H; cbn [fold_left]; [reflexivity|]. destruct s as [n|keyed maker table]; cbn [exec exec_f bind_here].
  - apply IH. now apply body_dset.
  - destruct (@loop_eq keyed maker table f fs H) as [-> B]. now apply IH.
Qed.
Lemma class_dict_eq body outer : class_dict body outer = class_dict body [].
Proof. unfold class_dict. assert (H : is_body fresh) by (left; reflexivity). now rewrite !body_eq by exact H. Qed.
Lemma class_outer body outer : exists f, fold_left exec body (fresh :: outer) = f :: outer /\ f = class_dict body [].
Proof.
  assert (H : is_body fresh) by (left; reflexivity). unfold class_dict. rewrite !body_eq by exact H. cbn [hd]. eauto.
Qed.

Definition attr_eqb_op (maker : string) (prop : bool) (op : string) (o : option attr) : bool :=
  match o with
  | Some (AOp m n) => negb prop && String.eqb m maker && String.eqb n op
  | Some (AProperty (AOp m n)) => prop && String.eqb m maker && String.eqb n op
  | _ => false
  end.
Lemma attr_eqb_ok maker prop op o : attr_eqb_op maker prop op o = true ->
  o = Some (if prop then AProperty (AOp maker op) else AOp maker op).
Proof.
  destruct o as [[m n|[m n|a|s|]|s|]|]; cbn; try discriminate; intro H;
    apply andb_true_iff in H; destruct H as [H E3]; apply andb_true_iff in H; destruct H as [E1 E2];
    apply String.eqb_eq in E2; apply String.eqb_eq in E3; subst; try (destruct prop; discriminate); try reflexivity; destruct prop; [discriminate|reflexivity].
Qed.
Lemma table_ok body maker (table : list (string * bool)) outer :
  forallb (fun e => attr_eqb_op maker (snd e) (fst e) (dget (class_dict body []) (fst e))) table = true ->
  forall op p, In (op, p) table -> dget (class_dict body outer) op = Some (if p then AProperty (AOp maker op) else AOp maker op).
Proof.
  intros H op p I. rewrite forallb_forall in H. specialize (H _ I). rewrite class_dict_eq. now apply attr_eqb_ok.
Qed.
Lemma line_ops outer (op : string) (D := class_dict body_of_Line outer) :
  (In op binop_table -> dget D op = Some (AOp "binary_op" op)) /\
  (In op redop_table -> dget D op = Some (AOp "reduction_op" op)) /\
  (In op stdop_table -> dget D op = Some (AOp "standard_op" op)) /\
  (In op ["expanding"; "ewm"; "_ewm"; "rolling"] -> dget D op = Some (AOp "multifunc_op" op)) /\
  (In op ["iloc"; "loc"] -> dget D op = Some (AProperty (AOp "multifunc_op" op))).
Proof.
  assert (P : forall l, In op l -> In (op, false) (plain_ops l)) by (intros l I; unfold plain_ops; apply in_map_iff; eauto).
  split; [|split; [|split; [|split]]]; intro I.
  - apply (@table_ok body_of_Line "binary_op" binops outer) with (p := false); [vm_compute; reflexivity|now apply P].
  - apply (@table_ok body_of_Line "reduction_op" redops outer) with (p := false); [vm_compute; reflexivity|now apply P].
  - apply (@table_ok body_of_Line "standard_op" stdops outer) with (p := false); [vm_compute; reflexivity|now apply P].
  - apply (@table_ok body_of_Line "multifunc_op" multiops outer) with (p := false); [vm_compute; reflexivity|].
    cbn in I |- *. repeat (destruct I as [<-|I]; [tauto|]). destruct I.
  - apply (@table_ok body_of_Line "multifunc_op" multiops outer) with (p := true); [vm_compute; reflexivity|].
    cbn in I |- *. repeat (destruct I as [<-|I]; [tauto|]). destruct I.
Qed.
Lemma holder_ops outer (op : string) : In op binop_table -> dget (class_dict body_of_LinesHolder outer) op = Some (AOp "binary_op" op).
Proof.
  intro I. apply (@table_ok body_of_LinesHolder "binary_op" binops outer) with (p := false); [vm_compute; reflexivity|].
  unfold binops, plain_ops. apply in_map_iff. eauto.
Qed.
Lemma left_over outer :
  dget (class_dict body_of_Line outer) "name" = Some (AText "loc") /\ dget (class_dict body_of_Line outer) "opargs" = Some AOther /\
  dget (class_dict body_of_LinesHolder outer) "name" = Some (AText "__xor__").
Proof. rewrite !(class_dict_eq _ outer). vm_compute. auto. Qed.
Definition line_names : list string :=
  ["_minperiod"; "_series"; "_name"; "__hash__"; "__call__"; "__iter__"; "__len__"; "__getitem__"; "__setitem__"; "_clone";
   "mpseries"; "series"; "index"; "_period"; "_setval"; "_minperiodize"; "_apply"; "_applymulti"].
Lemma nothing_else outer k : dget (class_dict body_of_Line outer) k <> None ->
  In k (binop_table ++ redop_table ++ stdop_table ++ ["expanding"; "ewm"; "_ewm"; "rolling"; "iloc"; "loc"] ++ line_names ++
        ["__module__"; "__qualname__"; "name"; "opargs"]).
Proof.
  rewrite class_dict_eq. intro H. set (all := binop_table ++ _).
  assert (I : In k (dkeys (class_dict body_of_Line []))).
  { destruct (in_dec string_dec k (dkeys (class_dict body_of_Line []))) as [I|I]; [exact I|]. apply dget_none in I. contradiction. }
  assert (F : forallb (fun x => smem x all) (dkeys (class_dict body_of_Line [])) = true) by (vm_compute; reflexivity).
  rewrite forallb_forall in F. specialize (F _ I). unfold smem in F. apply existsb_exists in F. destruct F as (x & Hx & E).
  apply String.eqb_eq in E. now subst.
Qed.
