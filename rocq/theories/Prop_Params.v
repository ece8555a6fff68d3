(** Property theorems C16-C19: parameters. *)
From Coq Require Import List String Bool Arith ZArith Lia.
From Verif Require Import Series Py PyFacts Params ParamsFacts.
Import ListNotations.
Set Implicit Arguments.
Local Open Scope string_scope.
Local Open Scope list_scope.

(** a base class with a documented parameter, a tuple default and a plain one *)
Definition exBaseDecl : pdecl :=
  DSeq [("period", [PInt 30; PStr "Period to consider"; PBool true]);
        ("levels", [PTuple [PInt 20; PInt 80]; PStr "Levels"]);
        ("coef", [PInt 1])].
Definition exBase : pclass :=
  mkPClass [("period", PInt 30); ("levels", PTuple [PInt 20; PInt 80]); ("coef", PInt 1)]
           [("period", (PStr "Period to consider", PBool true)); ("levels", (PStr "Levels", PBool false));
            ("coef", (PStr "", PBool false))].
Lemma exBase_class : is_class exBase.
Proof. apply (@is_class_gen [] exBaseDecl); [intros b []|exact I|reflexivity]. Qed.

(** ** C16 *)
Theorem C16_kwargs_split : forall c kwargs, is_class c -> NoDup (map fst kwargs) ->
  exists ps rest, from_kwargs c kwargs = Ok (ps, rest) /\
    map fst ps = map fst (pdefaults c) /\
    (forall k d, dget (pdefaults c) k = Some d ->
       dget ps k = Some (match dget kwargs k with Some v => v | None => d end)) /\
    rest = filter (fun kv => negb (dmem (pdefaults c) (fst kv))) kwargs.
Proof. exact class_kwargs_split. Qed.
Print Assumptions C16_kwargs_split.
Example C16_kwargs_split_ex : is_class exBase /\
  from_kwargs exBase [("x", PNone); ("period", PInt 5); ("y", PStr "a")] =
  Ok ([("period", PInt 5); ("levels", PTuple [PInt 20; PInt 80]); ("coef", PInt 1)], [("x", PNone); ("y", PStr "a")]).
Proof. split; [exact exBase_class|reflexivity]. Qed.

(** ** C17 *)
Theorem C17_defaults : forall bases own c, (forall b, In b bases -> is_class b) -> wf_decl own ->
  generate bases own = Ok c ->
  (forall n d r, declares own n (d :: r) -> dget (pdefaults c) n = Some d) /\
  (forall n bs1 b bs2 v, bases = bs1 ++ b :: bs2 -> undeclared own n ->
     dget (pdefaults b) n = Some v -> not_tuple v ->
     (forall b', In b' bs2 -> dget (pdefaults b') n = None) ->
     dget (pdefaults c) n = Some v) /\
  (forall n, undeclared own n -> (forall b, In b bases -> dget (pdefaults b) n = None) ->
     dget (pdefaults c) n = None).
Proof. exact defaults_inherited. Qed.
Print Assumptions C17_defaults.
(** through any number of generations *)
Theorem C17_chain : forall n c c' v, descends n c c' -> dget (pdefaults c) n = Some v -> not_tuple v ->
  dget (pdefaults c') n = Some v.
Proof. exact chain_default. Qed.
Print Assumptions C17_chain.
(** creating a class fails only on an empty tuple *)
Theorem C17_creation : forall bases own,
  (exists e, generate bases own = Raise e) <->
  ((exists b n, In b bases /\ In (n, PTuple []) (pdefaults b)) \/ exists n, In (n, PTuple []) (decl_dict own)).
Proof. exact generate_total. Qed.
Print Assumptions C17_creation.
Example C17_defaults_ex :
  let own := DDict [("fast", PTuple [PInt 12; PStr "Fast period"]); ("coef", PInt 2)] in
  wf_decl own /\ declares own "fast" [PInt 12; PStr "Fast period"] /\ undeclared own "period" /\
  exists c, generate [exBase] own = Ok c /\
    pdefaults c = [("period", PInt 30); ("levels", PInt 20); ("coef", PInt 2); ("fast", PInt 12)].
Proof.
  cbn. repeat split.
  - repeat constructor; cbn; intuition discriminate.
  - left. now left.
  - intuition discriminate.
  - eexists. split; reflexivity.
Qed.

(** ** C18 *)
(** false for every tuple default: the subclass gets the first element of the tuple, and an empty tuple makes
    the creation of the subclass fail *)
Theorem C18_refuted : forall bases own n bs1 b bs2 t, (forall b, In b bases -> is_class b) ->
  wf_decl own -> bases = bs1 ++ b :: bs2 -> undeclared own n -> dget (pdefaults b) n = Some (PTuple t) ->
  (forall b', In b' bs2 -> dget (pdefaults b') n = None) ->
  (t = [] -> generate bases own = Raise ValueError) /\
  (forall c d r, t = d :: r -> generate bases own = Ok c ->
     dget (pdefaults c) n = Some d /\ dget (pdefaults c) n <> Some (PTuple t)).
Proof. exact tuple_inherited. Qed.
Print Assumptions C18_refuted.
Example C18_refuted_ex :
  is_class exBase /\ dget (pdefaults exBase) "levels" = Some (PTuple [PInt 20; PInt 80]) /\
  undeclared (DSeq []) "levels" /\
  exists c, generate [exBase] (DSeq []) = Ok c /\ dget (pdefaults c) "levels" = Some (PInt 20).
Proof.
  split; [exact exBase_class|]. split; [reflexivity|]. split; [cbn; auto|]. eexists. split; reflexivity.
Qed.

(** ** C19 *)
(** false for every inherited parameter: whatever the base class reports, the subclass reports an empty
    documentation and "not required", also if it redeclares the default only *)
Theorem C19_refuted : forall bases own c n, (forall b, In b bases -> is_class b) -> wf_decl own ->
  generate bases own = Ok c ->
  (forall b, In b bases -> dget (pinfos b) "doc" = None) ->
  (forall b v, In b bases -> dget (pdefaults b) n = Some v -> not_tuple v) ->
  (undeclared own n \/ exists d, declares own n [d] /\ not_tuple d) ->
  dget (pdefaults c) n <> None ->
  dget (pinfos c) n = Some (PStr "", PBool false).
Proof. exact doc_lost. Qed.
Print Assumptions C19_refuted.
Example C19_refuted_ex :
  is_class exBase /\ dget (pinfos exBase) "period" = Some (PStr "Period to consider", PBool true) /\
  (exists c, generate [exBase] (DSeq []) = Ok c /\ dget (pinfos c) "period" = Some (PStr "", PBool false)) /\
  (exists c, generate [exBase] (DSeq [("period", [PInt 7])]) = Ok c /\
     dget (pinfos c) "period" = Some (PStr "", PBool false)).
Proof.
  split; [exact exBase_class|]. split; [reflexivity|].
  split; eexists; (split; [reflexivity|reflexivity]).
Qed.
(** what holds: a class reports the documentation and the flag of its own declaration, in either order *)
Theorem C19_declared_partial : forall bases own c n d s b, wf_decl own -> generate bases own = Ok c -> s <> "" ->
  (declares own n [d; PStr s; PBool b] \/ declares own n [d; PBool b; PStr s]) ->
  dget (pinfos c) n = Some (PStr s, PBool b).
Proof. exact own_info. Qed.
Print Assumptions C19_declared_partial.
Example C19_declared_ex : generate [] exBaseDecl = Ok exBase /\ declares exBaseDecl "period" [PInt 30; PStr "Period to consider"; PBool true].
Proof. split; [reflexivity|]. exists [], (tl (match exBaseDecl with DSeq l => l | _ => [] end)). split; [reflexivity|]. cbn. intuition discriminate. Qed.
