(** Property theorems C31, C32, C73: public names, registry, groups. *)
From Coq Require Import List String Ascii Bool Arith Lia Sorted Permutation.
From Verif Require Import Series Py PyFacts LinesGen Table Registry RegistryFacts RegistryFacts2.
Import ListNotations.
Set Implicit Arguments.
Local Open Scope string_scope.
Local Open Scope list_scope.

(** ** C31 *)
(** every declared alias names its class or is one of the listed collisions, where another class took it *)
Theorem C31_exact : forall e a, In e table -> In a (e_alias e) ->
  dget public_ns a = Some (NClass (e_name e)) \/
  exists other, In (a, e_name e, other) collisions /\ other <> e_name e /\ dget public_ns a = Some (NClass other).
Proof. exact aliases_exact. Qed.
Print Assumptions C31_exact.
(** every listed collision is one *)
Theorem C31_refuted : forall a c o, In (a, c, o) collisions ->
  c <> o /\ dget public_ns a = Some (NClass o) /\ exists e, In e table /\ e_name e = c /\ In a (e_alias e).
Proof. exact collisions_real. Qed.
Print Assumptions C31_refuted.
(** the class names themselves are never taken *)
Theorem C31_class_names : forall e, In e table -> private (e_name e) = false ->
  dget public_ns (e_name e) = Some (NClass (e_name e)).
Proof. exact class_names_public. Qed.
Print Assumptions C31_class_names.
Example C31_ex : (exists e, In e table /\ e_name e = "rsi" /\ In "RSI" (e_alias e)) /\
  dget public_ns "RSI" = Some (NClass "rsi") /\ In ("SAR", "sar", "sarext") collisions /\
  dget public_ns "SAR" = Some (NClass "sarext").
Proof.
  split.
  - destruct (find (fun e => String.eqb (e_name e) "rsi") table) as [e|] eqn:E; [|vm_compute in E; discriminate].
    exists e. apply find_some in E as E'. destruct E' as [H1 H2]. split; [exact H1|]. split; [now apply String.eqb_eq|].
    vm_compute in E. injection E as <-. cbn. tauto.
  - split; [vm_compute; reflexivity|]. split; [cbn; tauto|vm_compute; reflexivity].
Qed.

(** ** C32 *)
(** for every sequence of class statements, in any modules, with repeated names *)
Theorem C32_listing : forall ops,
  let r := register_all ops in
  StronglySorted slt (get_ind_names r) /\
  (forall n, In n (get_ind_names r) <-> exists op, In op ops /\ listed op /\ r_name op = n) /\
  List.length (get_indicators r) = List.length (get_ind_names r) /\
  (forall k n, nth_error (get_ind_names r) k = Some n ->
     exists pre op post, ops = pre ++ op :: post /\ listed op /\ r_name op = n /\
       (forall o, In o post -> listed o -> r_name o <> n) /\
       nth_error (get_indicators r) k = Some (Some (r_cls op))).
Proof. exact registry_listing. Qed.
Print Assumptions C32_listing.
(** the order of the listing is that of strings: the common start ended, or a smaller code point follows *)
Theorem C32_order : forall ops, StronglySorted before (get_ind_names (register_all ops)).
Proof. exact registry_order. Qed.
Print Assumptions C32_order.
(** get_ind_by_name pairs the two listings *)
Theorem C32_by_name : forall r k n c, nth_error (get_ind_by_name r) k = Some (n, c) <->
  nth_error (get_ind_names r) k = Some n /\ nth_error (get_indicators r) k = Some c.
Proof. exact by_name. Qed.
Print Assumptions C32_by_name.
Example C32_by_name_ex :
  let r := register_all [mkRegOp ["btalib"; "indicators"; "sma"] "sma" 0 []; mkRegOp ["btalib"; "indicators"; "ema"] "ema" 1 []] in
  get_ind_by_name r = [("ema", Some 1); ("sma", Some 0)] /\ nth_error (get_ind_by_name r) 1 = Some ("sma", Some 0).
Proof. split; reflexivity. Qed.
Example C32_order_ex : before "sma" "smacc" /\ before "ema" "sma" /\ before "RSI" "rsi" /\ ~ before "sma" "ema".
Proof.
  split; [exists "sma"; left; do 2 eexists; split; reflexivity|].
  split; [exists ""; right; do 4 eexists; split; [reflexivity|]; split; [reflexivity|]; cbn; lia|].
  split; [exists ""; right; do 4 eexists; split; [reflexivity|]; split; [reflexivity|]; cbn; lia|].
  intro H. apply before_iff in H as [H _]. discriminate.
Qed.
Example C32_ex :
  let ops := [mkRegOp ["btalib"; "indicators"; "sma"] "sma" 0 []; mkRegOp ["btalib"; "indicators"; "ema"] "_ema" 1 [];
              mkRegOp ["btalib"; "indicators"; "ema"] "ema" 2 []; mkRegOp ["user"; "a"; "b"] "mine" 3 [];
              mkRegOp ["btalib"; "indicators"; "ema"] "sma" 4 []] in
  get_ind_names (register_all ops) = ["ema"; "sma"] /\ get_indicators (register_all ops) = [Some 2; Some 4].
Proof. split; reflexivity. Qed.
Example C32_package_ex : List.length (get_ind_names (register_all package_ops)) = 109.
Proof. vm_compute. reflexivity. Qed.

(** ** C73 *)
(** the listing by group, for every sequence of class statements *)
Theorem C73_listing : forall ops g c,
  in_group (register_all ops) g c <-> exists op, In op ops /\ listed op /\ r_cls op = c /\ In g (r_groups op).
Proof. exact registry_groups. Qed.
Print Assumptions C73_listing.
(** the groups, each once, and under each its classes in the order of the class statements *)
Theorem C73_by_group : forall ops, (forall op, In op ops -> NoDup (r_groups op)) ->
  NoDup (dkeys (get_ind_by_group (register_all ops))) /\
  (forall g, In g (dkeys (get_ind_by_group (register_all ops))) <-> filter (in_listing g) ops <> []) /\
  forall g l, In (g, l) (get_ind_by_group (register_all ops)) -> l = map r_cls (filter (in_listing g) ops).
Proof. exact registry_by_group. Qed.
Print Assumptions C73_by_group.
Theorem C73_selected : forall g op, in_listing g op = true <-> listed op /\ In g (r_groups op).
Proof. exact in_listing_spec. Qed.
Print Assumptions C73_selected.
(** get_groups lists each declared group once *)
Theorem C73_groups : forall ops, NoDup (get_groups (register_all ops)) /\
  forall g, In g (get_groups (register_all ops)) <-> exists op, In op ops /\ listed op /\ In g (r_groups op).
Proof. exact (fun ops => conj (groups_nodup ops) (group_nonempty ops)). Qed.
Print Assumptions C73_groups.
(** the names under each group, sorted; the lookup of the name of a class never fails *)
Theorem C73_names_by_group : forall ops, NoDup (map r_cls ops) ->
  (forall op, In op ops -> NoDup (r_groups op)) ->
  exists d, get_ind_names_by_group (register_all ops) = Ok d /\
    dkeys d = get_groups (register_all ops) /\
    forall g l, In (g, l) d -> StronglySorted weakly l /\ Permutation l (map r_name (filter (in_listing g) ops)).
Proof. exact registry_names_by_group. Qed.
Print Assumptions C73_names_by_group.
Example C73_groups_ex :
  let ops := [mkRegOp ["btalib"; "indicators"; "sma"] "sma" 0 ["overlap"];
              mkRegOp ["btalib"; "indicators"; "ema"] "_ema" 1 ["hidden"];
              mkRegOp ["btalib"; "indicators"; "ema"] "ema" 2 ["overlap"; "trend"]] in
  NoDup (map r_cls ops) /\ (forall op, In op ops -> NoDup (r_groups op)) /\
  get_groups (register_all ops) = ["overlap"; "trend"] /\
  get_ind_by_group (register_all ops) = [("overlap", [0; 2]); ("trend", [2])] /\
  get_ind_names_by_group (register_all ops) = Ok [("overlap", ["ema"; "sma"]); ("trend", ["ema"])].
Proof.
  split; [repeat constructor; cbn; lia|]. split.
  - intros op [<-|[<-|[<-|[]]]]; repeat constructor; cbn; intuition discriminate.
  - repeat split; reflexivity.
Qed.
(** in the package a public indicator appears under some group unless it is one of three, whose declaration is
    misspelt *)
Theorem C73_exact : forall i e, nth_error table i = Some e -> private (e_name e) = false ->
  ((exists g, in_group (register_all package_ops) g i) <-> ~ In (e_name e) ["cmo"; "smacc"; "mom"]).
Proof. exact package_groups. Qed.
Print Assumptions C73_exact.
Lemma mom_entry : exists i e, nth_error table i = Some e /\ e_name e = "mom".
Proof.
  assert (H : exists i e, nth_error table i = Some e /\ String.eqb (e_name e) "mom" = true).
  { destruct (find (fun e => String.eqb (e_name e) "mom") table) as [e|] eqn:E; [|vm_compute in E; discriminate].
    apply find_some in E. destruct E as [H1 H2]. apply In_nth_error in H1. destruct H1 as [i Hi]. eauto. }
  destruct H as [i [e [H1 H2]]]. exists i, e. split; [exact H1|now apply String.eqb_eq].
Qed.
Theorem C73_refuted : exists i e, nth_error table i = Some e /\ private (e_name e) = false /\
  ~ exists g, in_group (register_all package_ops) g i.
Proof.
  destruct mom_entry as [i [e [H1 H2]]]. exists i, e. split; [exact H1|].
  assert (Hp : private (e_name e) = false) by (rewrite H2; reflexivity).
  split; [exact Hp|]. rewrite (@package_groups i e H1 Hp), H2. cbn. tauto.
Qed.
Print Assumptions C73_refuted.
Example C73_ex : exists i e, nth_error table i = Some e /\ e_name e = "avgprice" /\ private (e_name e) = false /\
  in_group (register_all package_ops) "price" i.
Proof. exists 0. eexists. repeat split. vm_compute. eexists. split; [reflexivity|]. now left. Qed.
