(** Property theorems C20, C21, C72: names of inputs and outputs. *)
From Coq Require Import List String Bool Arith Lia.
From Verif Require Import Series Py PyFacts LinesGen LinesGenFacts Table Registry RegistryFacts RegistryFacts2 PropLinesGenFacts.
Import ListNotations.
Set Implicit Arguments.
Local Open Scope string_scope.
Local Open Scope list_scope.

(** ** C20 *)
(** a class with a declaration: its names are the declared ones that are not renamed by another, in order; the
    renamings are the explicit ones and those by position *)
Theorem C20_own_declaration : forall bases decl ext, names_of decl <> [] -> NoDup (names_of decl) ->
  exists c, lgenerate bases decl ext = Ok c /\
    (forall new old, In (new, old) (lmaps c) <-> renames bases decl new old) /\
    lnames c = filter (fun x => negb (smem x (map snd (lmaps c)))) (names_of decl) /\
    (forall x, In x (lnames c) <-> In x (names_of decl) /\ ~ exists new, renames bases decl new x).
Proof. exact own_names. Qed.
Print Assumptions C20_own_declaration.
(** a declaration that names something twice *)
Theorem C20_own_duplicates : forall bases decl ext, names_of decl <> [] ->
  lgenerate bases decl ext =
  let m := automap (names_of decl) (List.concat bases) (dupdate [] (maps_of decl)) in
  Ok (mkLClass (filter (fun x => negb (smem x (map snd m))) (keep_last (names_of decl))) m).
Proof. exact lgenerate_own. Qed.
Print Assumptions C20_own_duplicates.
(** a class without one: the names of the bases followed by the extension *)
Theorem C20_inherited : forall bases decl ext, names_of decl = [] ->
  lgenerate bases decl ext =
  match ext with
  | ExtStr s => Ok (mkLClass (keep_last (List.concat bases ++ [s])) [])
  | ExtTuple l => Ok (mkLClass (keep_last (List.concat bases ++ l)) [])
  | ExtList _ => Raise TypeError
  end.
Proof. exact lgenerate_inherit. Qed.
Print Assumptions C20_inherited.
Theorem C20_keep_last : forall l, NoDup (keep_last l) /\ (forall x, In x (keep_last l) <-> In x l) /\
  (forall a x b, l = a ++ x :: b -> ~ In x b -> keep_last l = filter (fun y => negb (smem y (x :: b))) (keep_last a) ++ x :: keep_last b).
Proof.
  intro l. split; [apply keep_last_nodup|]. split; [apply keep_last_in|].
  intros a x b -> Hx. induction a as [|y a IH]; cbn [app keep_last].
  - destruct (in_dec string_dec x b); [contradiction|reflexivity].
  - rewrite IH. destruct (in_dec string_dec y (a ++ x :: b)) as [Hy|Hy], (in_dec string_dec y a) as [Hya|Hya].
    + reflexivity.
    + cbn [filter]. assert (E : smem y (x :: b) = true).
      { apply smem_spec. apply in_app_or in Hy. tauto. }
      rewrite E. reflexivity.
    + exfalso. apply Hy. apply in_or_app. now left.
    + cbn [filter]. assert (E : smem y (x :: b) = false).
      { apply smem_false. intro Q. apply Hy. apply in_or_app. now right. }
      rewrite E. reflexivity.
Qed.
Print Assumptions C20_keep_last.
(** the classes of the package: the names declared by the class itself, else those of its base class with the
    extension; Indicator has the input close and no outputs *)
Theorem C20_package : forall e l, In e table -> ancestry (e_name e) l ->
  (exists c, inputs_of e = Ok c /\ lnames c = expected e_inputs extension ["close"] l) /\
  (exists c, outputs_of e = Ok c /\ lnames c = expected e_outputs (fun _ => []) [] l).
Proof. exact package_names. Qed.
Print Assumptions C20_package.
Theorem C20_package_rooted : forall e, In e table -> exists l, ancestry (e_name e) l.
Proof. exact package_ancestry. Qed.
Print Assumptions C20_package_rooted.
Example C20_package_ex : exists e l, In e table /\ e_name e = "adxr" /\ ancestry (e_name e) l /\
  map e_name l = ["adxr"; "adx"; "dx"; "_di"; "_dm"] /\
  expected e_inputs extension ["close"] l = ["high"; "low"; "close"] /\
  expected e_outputs (fun _ => []) [] l = ["adxr"].
Proof.
  destruct (find (fun e => String.eqb (e_name e) "adxr") table) as [e|] eqn:E; [|vm_compute in E; discriminate].
  apply find_some in E as E'. destruct E' as [H1 H2]. apply String.eqb_eq in H2.
  destruct (@package_ancestry e H1) as [l Hl]. exists e, l. split; [exact H1|]. split; [exact H2|]. split; [exact Hl|].
  assert (L := ancestry_chain Hl (@ancestry_bound e _ H1 Hl)). subst l. rewrite H2.
  split; [|split]; vm_compute; reflexivity.
Qed.
Example C20_own_ex :
  let decl := [LName "a"; LPair "b" "x"; LDict [("c", "y"); ("d", "z")]] in
  names_of decl <> [] /\ NoDup (names_of decl) /\
  lgenerate [["q"; "r"]; ["s"]] decl (ExtTuple []) =
  Ok (mkLClass ["a"; "b"; "c"; "d"] [("b", "x"); ("c", "y"); ("d", "z"); ("a", "q")]).
Proof. cbn. split; [discriminate|]. split; [repeat constructor; cbn; intuition discriminate|reflexivity]. Qed.
Example C20_inherited_ex :
  names_of [] = [] /\ lgenerate [["a"; "b"]; ["c"; "a"]] [] (ExtStr "d") = Ok (mkLClass ["b"; "c"; "a"; "d"] []).
Proof. split; reflexivity. Qed.
Example C20_keep_last_ex : ["a"; "b"; "a"; "c"] = ["a"; "b"] ++ "a" :: ["c"] /\ ~ In "a" ["c"] /\
  keep_last ["a"; "b"; "a"; "c"] = ["b"; "a"; "c"].
Proof. split; [reflexivity|]. split; [cbn; intuition discriminate|reflexivity]. Qed.

(** ** C21 *)
(** one renaming: the old name refers to the new output *)
Theorem C21_single : forall bases decl ext c new old, NoDup (names_of decl) ->
  lgenerate bases decl ext = Ok c -> lmaps c = [(new, old)] -> new <> old ->
  resolve c old = Slot new.
Proof. exact resolve_single. Qed.
Print Assumptions C21_single.
(** any number of renamings: every old name refers to the new name listed last, so it refers to its own new
    name only if that is the last one *)
Theorem C21_exact : forall bases decl ext c, NoDup (names_of decl) ->
  lgenerate bases decl ext = Ok c ->
  (forall new old new' old', In (new, old) (lmaps c) -> In (new', old') (lmaps c) -> new <> old') ->
  forall new old, In (new, old) (lmaps c) ->
  exists final, last_name c = Some final /\ resolve c old = Slot final /\
    (resolve c old = Slot new <-> new = final).
Proof. exact generated_resolve. Qed.
Print Assumptions C21_exact.
Theorem C21_refuted : exists bases decl c,
  lgenerate bases decl (ExtTuple []) = Ok c /\
  renames bases decl "up" "upper" /\ resolve c "upper" = Slot "down" /\
  renames bases decl "down" "lower" /\ resolve c "lower" = Slot "down".
Proof.
  exists [["upper"; "lower"]], [LName "up"; LName "down"]. eexists. split; [reflexivity|].
  repeat split; try reflexivity; right; split; try (intros []).
  - exists 0. repeat split. cbn. intuition discriminate.
  - exists 1. repeat split. cbn. intuition discriminate.
Qed.
Print Assumptions C21_refuted.
(** the classes of the package rename at most one input or output each, so there every old name is right *)
Theorem C21_package : forall e, In e table ->
  (exists c, inputs_of e = Ok c /\ forall new old, In (new, old) (lmaps c) -> resolve c old = Slot new) /\
  (exists c, outputs_of e = Ok c /\ forall new old, In (new, old) (lmaps c) -> resolve c old = Slot new).
Proof. exact package_lines. Qed.
Print Assumptions C21_package.
Example C21_exact_ex :
  let decl := [LName "up"; LName "down"] in
  exists c, NoDup (names_of decl) /\ lgenerate [["upper"; "lower"]] decl (ExtTuple []) = Ok c /\
   (forall new old new' old', In (new, old) (lmaps c) -> In (new', old') (lmaps c) -> new <> old') /\
   In ("up", "upper") (lmaps c) /\ In ("down", "lower") (lmaps c).
Proof.
  eexists. split; [repeat constructor; cbn; intuition discriminate|]. split; [reflexivity|]. cbn. split.
  - intros new old new' old' [H|[H|[]]] [H'|[H'|[]]]; congruence.
  - tauto.
Qed.
Example C21_single_ex : exists c, lgenerate [["close"]] [LName "high"; LName "low"] (ExtTuple []) = Ok c /\
  lmaps c = [("high", "close")] /\ resolve c "close" = Slot "high".
Proof. eexists. split; [reflexivity|split; reflexivity]. Qed.
Example C21_package_ex : exists e c, In e table /\ e_name e = "atr" /\ outputs_of e = Ok c /\ lmaps c = [("atr", "tr")].
Proof.
  destruct (find (fun e => String.eqb (e_name e) "atr") table) as [e|] eqn:E; [|vm_compute in E; discriminate].
  exists e. eexists. apply find_some in E as E'. destruct E' as [H1 H2]. split; [exact H1|].
  split; [now apply String.eqb_eq|]. vm_compute in E. injection E as <-. split; vm_compute; reflexivity.
Qed.

(** ** C72 *)
(** false two generations down: the name of the first class is neither an output nor an alias any more.  In the
    package this is natr, derived from atr, derived from truerange, whose output is called tr. *)
Theorem C72_refuted : exists b c,
  lgenerate [["tr"]] [LName "atr"] (ExtTuple []) = Ok b /\ resolve b "tr" = Slot "atr" /\
  lgenerate [lnames b] [LName "natr"] (ExtTuple []) = Ok c /\ resolve c "atr" = Slot "natr" /\
  resolve c "tr" = Plain "tr".
Proof. do 2 eexists. repeat split; reflexivity. Qed.
Print Assumptions C72_refuted.
Theorem C72_package_refuted : exists e c, In e table /\ e_name e = "natr" /\ outputs_of e = Ok c /\
  map e_name (chain depth_bound "natr") = ["natr"; "atr"; "truerange"] /\
  resolve c "atr" = Slot "natr" /\ resolve c "tr" = Plain "tr".
Proof.
  destruct (find (fun e => String.eqb (e_name e) "natr") table) as [e|] eqn:E; [|vm_compute in E; discriminate].
  exists e. apply find_some in E as E'. destruct E' as [H1 H2]. apply String.eqb_eq in H2. vm_compute in E. injection E as <-.
  eexists. split; [exact H1|]. split; [exact H2|]. split; [vm_compute; reflexivity|].
  split; [vm_compute; reflexivity|]. split; vm_compute; reflexivity.
Qed.
Print Assumptions C72_package_refuted.
