(** C87-C93: the result object of an indicator. *)
From Coq Require Import List String Bool Arith ZArith.
From Verif Require Import Series Py LinesGen Table Registry Holder HolderSpec HolderFacts HolderFacts2 PropHolderFacts
  HolderNames TightFacts.
Import ListNotations.
Local Open Scope string_scope.
Local Open Scope list_scope.
Local Open Scope nat_scope.

(** a class with two outputs, built on one input; its code sets one attribute of its own, assigns an output twice and
    assigns a name that is not an output *)
Definition two_outputs : lclass := mkLClass ["fast"; "slow"] [].
Definition demo_outs : list (string * hval (list nat)) :=
  [("fast", HSer [9]); ("slow", HLine (mkH 3 "x" [5; 6])); ("fast", HLine (mkH 2 "y" [1; 2])); ("temp", HSer [7; 8])].
Definition demo : res (holder (list nat)) :=
  construct two_outputs ["fast"; "slow"] ["close"] [4%Z] [] [ASet "k" (IUser 1)] demo_outs.
Example demo_class : lgenerate [] [LName "fast"; LName "slow"] (ExtTuple []) = Ok two_outputs.
Proof. reflexivity. Qed.
Example demo_built : exists h, demo = Ok h /\ hlen h = 2 /\ dget (hd_attrs h) "k" = Some (IUser 1).
Proof. eexists. split; [vm_compute; reflexivity|split; reflexivity]. Qed.

(** C87: all the ways of getting at an output give the same line: by position from either end, by name, by attribute of
    the outputs, by iteration; the names are the declared ones, in order, and the line is what was assigned last *)
Theorem C87_access : forall (A : Type) bases decl ext cls, lgenerate bases decl ext = Ok cls ->
  forall islots mps extra body (outs : list (string * hval A)) h,
  construct cls (lnames cls) islots mps extra body outs = Ok h ->
  exists ls,
    map (@h_name A) ls = lnames cls /\ hlen h = List.length ls /\ hkeys h = lnames cls /\
    hiter h = Ok (map (fun l => ALine l) ls) /\
    forall k l, nth_error ls k = Some l ->
      hitem h (KInt (Z.of_nat k)) = Ok (ALine l) /\
      hitem h (KInt (Z.of_nat k - Z.of_nat (List.length ls))) = Ok (ALine l) /\
      hitem h (KStr (h_name l)) = Ok (ALine l) /\
      lget (hd_out h) (h_name l) = Ok (ALine l) /\
      hcontains h (h_name l) = Ok true /\
      exists v, last_given cls outs (h_name l) v /\ to_line v (h_name l) = Ok l.
Proof. exact @holder_access. Qed.
Print Assumptions C87_access.
Example C87_run : exists h, demo = Ok h /\
  hiter h = Ok [ALine (mkH 2 "fast" [1; 2]); ALine (mkH 3 "slow" [5; 6])] /\
  hitem h (KInt (-1)) = Ok (ALine (mkH 3 "slow" [5; 6])) /\ hitem h (KStr "fast") = Ok (ALine (mkH 2 "fast" [1; 2])).
Proof. eexists. split; [vm_compute; reflexivity|repeat split; reflexivity]. Qed.

(** C87: a position outside the range, an unknown name and a slice are refused *)
Theorem C87_errors : forall (A : Type) cls islots mps extra body (outs : list (string * hval A)) h,
  construct cls (lnames cls) islots mps extra body outs = Ok h ->
  (forall i, (i < - Z.of_nat (hlen h) \/ Z.of_nat (hlen h) <= i)%Z -> hitem h (KInt i) = Raise IndexError) /\
  (forall s, ~ In s (lnames cls) -> hitem h (KStr s) = Raise ValueError) /\
  (forall i j, hitem h (KSlice i j) = Raise TypeError).
Proof. exact @holder_errors. Qed.
Print Assumptions C87_errors.
Example C87_errors_run : exists h, demo = Ok h /\ hitem h (KInt 2) = Raise IndexError /\
  hitem h (KInt (-3)) = Raise IndexError /\ hitem h (KStr "temp") = Raise ValueError.
Proof. eexists. split; [vm_compute; reflexivity|repeat split; reflexivity]. Qed.

(** C87: _get(name, default) of the outputs gives the line of every output, and the default exactly for the names the
    outputs do not contain *)
Theorem C87_get : forall (A : Type) bases decl ext cls, lgenerate bases decl ext = Ok cls ->
  forall islots mps extra body (outs : list (string * hval A)) h,
  construct cls (lnames cls) islots mps extra body outs = Ok h ->
  (forall s, In s (lnames cls) -> exists l, hitem h (KStr s) = Ok (ALine l) /\ lget_dflt (hd_out h) s = Ok (Some (ALine l))) /\
  (forall s, hcontains h s = Ok false <-> lget_dflt (hd_out h) s = Ok None).
Proof. exact get_default. Qed.
Print Assumptions C87_get.
Example C87_get_run : exists h, demo = Ok h /\ lget_dflt (hd_out h) "slow" = Ok (Some (ALine (mkH 3 "slow" [5; 6]))) /\
  lget_dflt (hd_out h) "signal" = Ok None.
Proof. eexists. split; [vm_compute; reflexivity|split; reflexivity]. Qed.

(** C88: indicator.output gives the output exactly when the name is not one of the indicator's own attributes *)
Theorem C88_direct : forall (A : Type) bases decl ext cls, lgenerate bases decl ext = Ok cls ->
  forall islots mps extra body (outs : list (string * hval A)) h,
  construct cls (lnames cls) islots mps extra body outs = Ok h ->
  forall s, In s (lnames cls) ->
  ((exists l, hget h s = Ok (FOut (ALine l)) /\ lget (hd_out h) s = Ok (ALine l)) <-> ~ reserved h s).
Proof. exact @holder_direct. Qed.
Print Assumptions C88_direct.
Example C88_run : exists h, demo = Ok h /\ hget h "slow" = Ok (FOut (ALine (mkH 3 "slow" [5; 6]))) /\ ~ reserved h "slow".
Proof.
  eexists. split; [vm_compute; reflexivity|]. split; [reflexivity|].
  unfold reserved. rewrite <- !PyFacts.smem_spec. vm_compute. intuition discriminate.
Qed.

(** C88: in the package this holds for every output of every indicator but the outputs of add, div and sub, where the
    operation of that name is found instead *)
Theorem C88_package : forall (A : Type) e c islots mps extra body (outs : list (string * hval A)) h s,
  In e table -> outputs_of e = Ok c -> In s (lnames c) ->
  construct c (lnames c) islots mps extra body outs = Ok h ->
  ~ In s extra -> (forall v, ~ In (ASet s v) body) ->
  (In (e_name e) ["add"; "div"; "sub"] -> hget h s = Ok (FClass s)) /\
  (~ In (e_name e) ["add"; "div"; "sub"] ->
     exists l, hget h s = Ok (FOut (ALine l)) /\ lget (hd_out h) s = Ok (ALine l)).
Proof. exact @package_direct. Qed.
Print Assumptions C88_package.
Definition demo_add : res (holder (list nat)) :=
  construct (mkLClass ["add"] []) ["add"] ["input1"; "input2"] [1%Z; 1%Z] [] [] [("add", HSer [3])].
Example C88_refuted : exists h e, demo_add = Ok h /\ In e table /\ e_name e = "add" /\
  outputs_of e = Ok (mkLClass ["add"] []) /\ hget h "add" = Ok (FClass "add") /\
  hitem h (KStr "add") = Ok (ALine (mkH 1 "add" [3])).
Proof.
  eexists. exists (nth 4 table (mkEntry "" "" "" [] (ExtTuple []) [] [] [] 0)).
  split; [vm_compute; reflexivity|]. split; [|repeat split; vm_compute; reflexivity].
  vm_compute. do 4 right. left. reflexivity.
Qed.

(** C88: what is found for a name that is not an attribute of the indicator itself: an output (or another name the
    indicator assigned), else the method of the first output, else AttributeError *)
Theorem C88_order : forall (A : Type) bases decl ext cls, lgenerate bases decl ext = Ok cls ->
  forall islots mps extra body (outs : list (string * hval A)) h,
  construct cls (lnames cls) islots mps extra body outs = Ok h ->
  lmaps cls = [] -> forall s, ~ reserved h s -> ~ In s lines_ro -> ~ In s lines_methods ->
  (In s (lnames cls) \/ In s (map fst outs) -> exists l, hget h s = Ok (FOut (ALine l)) /\ lget (hd_out h) s = Ok (ALine l)) /\
  (~ In s (lnames cls) -> ~ In s (map fst outs) -> In s line_attrs ->
     exists l, hitem h (KInt 0) = Ok (ALine l) /\ hget h s = Ok (FFirst l s)) /\
  (~ In s (lnames cls) -> ~ In s (map fst outs) -> ~ In s line_attrs -> hget h s = Raise AttributeError).
Proof. exact @holder_lookup. Qed.
Print Assumptions C88_order.
Example C88_order_run : exists h, demo = Ok h /\ hget h "rolling" = Ok (FFirst (mkH 2 "fast" [1; 2]) "rolling") /\
  hget h "wrong" = Raise AttributeError /\ hget h "temp" = Ok (FOut (ALine (mkH 1 "temp" [7; 8]))).
Proof. eexists. split; [vm_compute; reflexivity|repeat split; reflexivity]. Qed.

(** C88: the same for any class, in which outputs of base classes may have been renamed: the name is looked up under the
    name it refers to *)
Theorem C88_lookup : forall (A : Type) bases decl ext cls, lgenerate bases decl ext = Ok cls ->
  forall islots mps extra body (outs : list (string * hval A)) h,
  construct cls (lnames cls) islots mps extra body outs = Ok h ->
  forall s n, refers cls s n -> ~ reserved h s -> ~ In n lines_ro -> ~ In n lines_methods ->
  ((exists m, In m (map fst outs) /\ refers cls m n) ->
     exists l, hget h s = Ok (FOut (ALine l)) /\ lget (hd_out h) s = Ok (ALine l)) /\
  (~ (exists m, In m (map fst outs) /\ refers cls m n) -> In s line_attrs ->
     exists l, hitem h (KInt 0) = Ok (ALine l) /\ hget h s = Ok (FFirst l s)) /\
  (~ (exists m, In m (map fst outs) /\ refers cls m n) -> ~ In s line_attrs -> hget h s = Raise AttributeError).
Proof. exact @lookup_all. Qed.
Print Assumptions C88_lookup.
(** C88: or the look-up does not end, when the renaming goes round in circles *)
Theorem C88_endless : forall (A : Type) cls islots mps extra body (outs : list (string * hval A)) h,
  construct cls (lnames cls) islots mps extra body outs = Ok h ->
  (forall s, (exists n, refers cls s n) \/ resolve cls s = Endless) /\
  forall s, resolve cls s = Endless -> ~ reserved h s -> hget h s = Raise RecursionError.
Proof. exact @endless_names. Qed.
Print Assumptions C88_endless.
(** a class that renames the output tr of its base to atr, and one in which the renaming goes round in circles *)
Definition renamed : lclass := mkLClass ["atr"] [("atr", "tr")].
Definition demo_renamed : res (holder (list nat)) :=
  construct renamed ["atr"] ["close"] [4%Z] [] [] [("tr", HSer [3; 4])].
Example C88_lookup_run : exists h, lgenerate [["tr"]] [LPair "atr" "tr"] (ExtTuple []) = Ok renamed /\
  demo_renamed = Ok h /\ refers renamed "tr" "atr" /\ refers renamed "rolling" "rolling" /\ ~ reserved h "tr" /\
  hget h "tr" = Ok (FOut (ALine (mkH 1 "atr" [3; 4]))) /\ hget h "atr" = hget h "tr" /\
  hget h "rolling" = Ok (FFirst (mkH 1 "atr" [3; 4]) "rolling") /\ hget h "wrong" = Raise AttributeError.
Proof.
  eexists. split; [reflexivity|]. split; [vm_compute; reflexivity|]. split; [left; reflexivity|]. split; [right; reflexivity|].
  split; [|repeat split; reflexivity].
  unfold reserved. rewrite <- !PyFacts.smem_spec. vm_compute. intuition discriminate.
Qed.
Definition circular : lclass := mkLClass ["c"] [("a", "b"); ("b", "a")].
Example C88_endless_run : exists h, lgenerate [] [LPair "a" "b"; LPair "b" "a"; LName "c"] (ExtTuple []) = Ok circular /\
  construct circular ["c"] ["close"] [4%Z] [] [] [("c", HSer [3; 4])] = Ok h /\
  resolve circular "a" = Endless /\ ~ reserved h "a" /\ hget h "a" = Raise RecursionError /\
  hcontains h "a" = Raise RecursionError /\ hcontains h "c" = Ok true.
Proof.
  eexists. split; [reflexivity|]. split; [vm_compute; reflexivity|]. split; [reflexivity|]. split; [|repeat split; reflexivity].
  unfold reserved. rewrite <- !PyFacts.smem_spec. vm_compute. intuition discriminate.
Qed.

(** C89: the data frame has the outputs as columns, in order, each with the values of that output *)
Theorem C89_frame : forall (A : Type) bases decl ext cls, lgenerate bases decl ext = Ok cls ->
  forall islots mps extra body (outs : list (string * hval A)) h,
  construct cls (lnames cls) islots mps extra body outs = Ok h ->
  exists ls,
    hiter h = Ok (map (fun l => ALine l) ls) /\
    frame (hd_out h) = Ok (combine (lnames cls) (map (@h_ser A) ls)) /\
    map fst (combine (lnames cls) (map (@h_ser A) ls)) = lnames cls.
Proof. exact @holder_frame. Qed.
Print Assumptions C89_frame.
Example C89_run : exists h, demo = Ok h /\ frame (hd_out h) = Ok [("fast", [1; 2]); ("slow", [5; 6])].
Proof. eexists. split; [vm_compute; reflexivity|reflexivity]. Qed.

(** C89: the frame is made when it is first asked for; an output assigned by position afterwards is seen by item and
    name, but every later reading of the frame gives the first one again *)
Theorem C89_once : forall (A : Type) (h : holder A) d c, hdf None h = Ok (d, c) ->
  frame (hd_out h) = Ok d /\
  forall edits o, lsetitems (hd_out h) edits = Ok o -> hdf c (with_outputs h o) = Ok (d, c).
Proof. exact @frame_once. Qed.
Print Assumptions C89_once.
Theorem C89_assign : forall (A : Type) bases decl ext cls, lgenerate bases decl ext = Ok cls ->
  forall islots mps extra body (outs : list (string * hval A)) h,
  construct cls (lnames cls) islots mps extra body outs = Ok h ->
  forall k s v l, nth_error (lnames cls) k = Some s -> to_line v s = Ok l ->
  exists o, lsetitem (hd_out h) (Z.of_nat k) v = Ok o /\
    hitem (with_outputs h o) (KInt (Z.of_nat k)) = Ok (ALine l) /\ lget o s = Ok (ALine l) /\
    forall i t, i <> k -> nth_error (lnames cls) i = Some t ->
      hitem (with_outputs h o) (KInt (Z.of_nat i)) = hitem h (KInt (Z.of_nat i)).
Proof. exact @holder_assign. Qed.
Print Assumptions C89_assign.
Example C89_once_run : exists h o, demo = Ok h /\
  hdf None h = Ok ([("fast", [1; 2]); ("slow", [5; 6])], Some [("fast", [1; 2]); ("slow", [5; 6])]) /\
  lsetitem (hd_out h) 1 (HSer [8]) = Ok o /\ hitem (with_outputs h o) (KInt 1) = Ok (ALine (mkH 1 "slow" [8])) /\
  frame o = Ok [("fast", [1; 2]); ("slow", [8])].
Proof. do 2 eexists. split; [vm_compute; reflexivity|]. split; [reflexivity|]. split; [vm_compute; reflexivity|split; reflexivity]. Qed.

(** C90: an indicator that leaves an output without a value cannot be built, nor can one without outputs *)
Theorem C90_missing : forall (A : Type) bases decl ext cls islots mps extra body (outs : list (string * hval A)) d0 d1 d2 o,
  lgenerate bases decl ext = Ok cls ->
  attrs_before islots mps = Ok d0 -> acts d0 body = Ok d1 -> lsets (new_cont cls (lnames cls)) outs = Ok o ->
  ddels d1 (temporaries (List.length islots)) = Ok d2 ->
  forall s, In s (lnames cls) -> (forall n v, In (n, v) outs -> resolve cls n <> Slot s) ->
  construct cls (lnames cls) islots mps extra body outs = Raise AttributeError.
Proof. exact construct_missing. Qed.
Print Assumptions C90_missing.
Example C90_run : exists d0 d2 o,
  attrs_before ["close"] [4%Z] = Ok d0 /\ acts d0 [] = Ok d0 /\
  lsets (new_cont two_outputs ["fast"; "slow"]) [("fast", HSer [9]); ("slwo", HSer [1])] = Ok o /\
  ddels d0 (temporaries 1) = Ok d2 /\
  construct two_outputs ["fast"; "slow"] ["close"] [4%Z] [] [] [("fast", HSer [9]); ("slwo", HSer [1])] = Raise AttributeError.
Proof. do 3 eexists. do 4 (split; [vm_compute; reflexivity|]). reflexivity. Qed.

Theorem C90_no_outputs : forall (A : Type) cls islots mps extra body (outs : list (string * hval A)) d0 d1 d2 o,
  lnames cls = [] ->
  attrs_before islots mps = Ok d0 -> acts d0 body = Ok d1 -> lsets (new_cont cls (lnames cls)) outs = Ok o ->
  ddels d1 (temporaries (List.length islots)) = Ok d2 ->
  construct cls (lnames cls) islots mps extra body outs = Raise ValueError.
Proof. exact construct_none. Qed.
Print Assumptions C90_no_outputs.
Example C90_no_outputs_run :
  construct (mkLClass [] []) [] ["close"] [4%Z] [] [] ([] : list (string * hval nat)) = Raise ValueError.
Proof. reflexivity. Qed.

(** C90: a name that was not declared is kept, but is no output: no key, no item, no column *)
Theorem C90_undeclared : forall (A : Type) bases decl ext cls islots mps extra body (outs : list (string * hval A)) h s v,
  lgenerate bases decl ext = Ok cls -> lmaps cls = [] ->
  construct cls (lnames cls) islots mps extra body outs = Ok h ->
  In (s, v) outs -> ~ In s (lnames cls) ->
  hcontains h s = Ok true /\ ~ In s (hkeys h) /\ hitem h (KStr s) = Raise ValueError /\
  forall d, frame (hd_out h) = Ok d -> ~ In s (dkeys d).
Proof. exact undeclared. Qed.
Print Assumptions C90_undeclared.
Example C90_undeclared_run : exists h, demo = Ok h /\ hcontains h "temp" = Ok true /\ hkeys h = ["fast"; "slow"].
Proof. eexists. split; [vm_compute; reflexivity|split; reflexivity]. Qed.

(** C91: the minimum period of an indicator is the largest of its outputs' *)
Theorem C91_minperiod : forall (A : Type) bases decl ext cls, lgenerate bases decl ext = Ok cls ->
  forall islots mps extra body (outs : list (string * hval A)) h,
  construct cls (lnames cls) islots mps extra body outs = Ok h ->
  exists ls m,
    hiter h = Ok (map (fun l => ALine l) ls) /\
    dget (hd_attrs h) "_minperiods" = Some (IPers (map (@h_mp A) ls)) /\
    dget (hd_attrs h) "_minperiod" = Some (IPer m) /\
    In m (map (@h_mp A) ls) /\ forall l, In l ls -> (h_mp l <= m)%Z.
Proof. exact @holder_minperiod. Qed.
Print Assumptions C91_minperiod.
Example C91_run : exists h, demo = Ok h /\ dget (hd_attrs h) "_minperiods" = Some (IPers [2%Z; 3%Z]) /\
  dget (hd_attrs h) "_minperiod" = Some (IPer 3).
Proof. eexists. split; [vm_compute; reflexivity|split; reflexivity]. Qed.

(** C92: while an indicator is built each input can be reached as i0, input0, d0, data0 and so on; the numbered
    names with an underscore hold the name of the input, not the input *)
Theorem C92_inside : forall slots mps d, attrs_before slots mps = Ok d ->
  (exists m, zmax_list mps = Ok m /\ dget d "_minperiods" = Some (IPers mps) /\ dget d "_minperiod" = Some (IPer m)) /\
  (dget d "outputs" = Some IOuts /\ dget d "o" = Some IOuts /\ dget d "lines" = Some IOuts /\ dget d "l" = Some IOuts /\
   dget d "inputs" = Some IIns /\ dget d "i" = Some IIns /\ dget d "datas" = Some IList /\ dget d "d" = Some IList /\
   dget d "data" = Some (IIn 0) /\ dget d "params" = Some IParams /\ dget d "p" = Some IParams) /\
  (forall k p, k < List.length slots -> In p ["i"; "input"; "d"; "data"] -> dget d (p ++ dec k) = Some (IIn k)) /\
  (forall k s p, nth_error slots k = Some s -> In p ["i_"; "input_"; "d_"; "data_"] -> dget d (p ++ dec k) = Some (IStr s)) /\
  (forall x, dget d x <> None -> In x fixed_names \/
     exists k p, k < List.length slots /\ In p prefixes /\ x = (p ++ dec k)%string).
Proof. exact before_spec. Qed.
Print Assumptions C92_inside.
Example C92_run : exists d, attrs_before ["high"; "low"] [1%Z; 5%Z] = Ok d /\ dget d "data1" = Some (IIn 1) /\
  dget d "i_1" = Some (IStr "low") /\ dget d "_minperiod" = Some (IPer 5) /\ dec 12 = "12".
Proof. eexists. split; [vm_compute; reflexivity|repeat split; reflexivity]. Qed.

(** C92: afterwards the temporary names are gone, the others stay, and nothing else is left but what the indicator's
    own code has set *)
Theorem C92_after : forall (A : Type) cls islots mps extra body (outs : list (string * hval A)) h,
  construct cls (lnames cls) islots mps extra body outs = Ok h ->
  (forall s, In s (temporaries (List.length islots)) -> dget (hd_attrs h) s = None) /\
  (forall k p, k < List.length islots -> In p ["i"; "input"] -> leaves body (p ++ dec k) ->
     dget (hd_attrs h) (p ++ dec k) = Some (IIn k)) /\
  (forall k s p, nth_error islots k = Some s -> In p ["i_"; "input_"] -> leaves body (p ++ dec k) ->
     dget (hd_attrs h) (p ++ dec k) = Some (IStr s)) /\
  (forall x, dget (hd_attrs h) x <> None ->
     In x ["outputs"; "o"; "inputs"; "i"; "_minperiods"; "_minperiod"; "params"; "p"] \/
     (exists k p, k < List.length islots /\ In p ["i"; "input"; "i_"; "input_"] /\ x = (p ++ dec k)%string) \/
     (exists v, In (ASet x v) body)).
Proof. exact @holder_attrs_after. Qed.
Print Assumptions C92_after.
Example C92_after_run : exists h, demo = Ok h /\ dget (hd_attrs h) "data0" = None /\ dget (hd_attrs h) "lines" = None /\
  dget (hd_attrs h) "i0" = Some (IIn 0) /\ dget (hd_attrs h) "input_0" = Some (IStr "close").
Proof. eexists. split; [vm_compute; reflexivity|repeat split; reflexivity]. Qed.

(** C92: an indicator whose code has removed one of the temporary names cannot be built *)
Theorem C92_deleted : forall (A : Type) cls islots mps extra body (outs : list (string * hval A)) d0 d1 o,
  attrs_before islots mps = Ok d0 -> acts d0 body = Ok d1 -> lsets (new_cont cls (lnames cls)) outs = Ok o ->
  forall s, In s (temporaries (List.length islots)) -> dget d1 s = None ->
  construct cls (lnames cls) islots mps extra body outs = Raise AttributeError.
Proof. exact construct_deleted. Qed.
Print Assumptions C92_deleted.
Example C92_deleted_run :
  construct two_outputs ["fast"; "slow"] ["close"] [4%Z] [] [ADel "data0"] demo_outs = Raise AttributeError.
Proof. vm_compute. reflexivity. Qed.

(** C93: [name in indicator] is true of every output, but not only of outputs: also of any other name the indicator
    assigned and of the methods and properties of the container *)
Theorem C93_contains : forall (A : Type) bases decl ext cls islots mps extra body (outs : list (string * hval A)) h,
  lgenerate bases decl ext = Ok cls -> lmaps cls = [] ->
  construct cls (lnames cls) islots mps extra body outs = Ok h ->
  forall s, exists b, hcontains h s = Ok b /\
    (b = true <-> In s (lnames cls) \/ In s (map fst outs) \/ In s lines_ro \/ In s lines_methods).
Proof. exact contains_iff. Qed.
Print Assumptions C93_contains.
Example C93_refuted : exists h, demo = Ok h /\ hcontains h "size" = Ok true /\ hcontains h "_get" = Ok true /\
  hkeys h = ["fast"; "slow"] /\ hcontains h "medium" = Ok false.
Proof. eexists. split; [vm_compute; reflexivity|repeat split; reflexivity]. Qed.

(** C93: the same for any class, in which outputs of base classes may have been renamed: the old name counts like the
    new one, and the test does not end when the renaming goes round in circles *)
Theorem C93_contains_all : forall (A : Type) bases decl ext cls, lgenerate bases decl ext = Ok cls ->
  forall islots mps extra body (outs : list (string * hval A)) h,
  construct cls (lnames cls) islots mps extra body outs = Ok h ->
  forall s,
  (resolve cls s = Endless -> hcontains h s = Raise RecursionError) /\
  (forall n, refers cls s n -> exists b, hcontains h s = Ok b /\
     (b = true <-> In n (lnames cls) \/ (exists m, In m (map fst outs) /\ refers cls m n) \/
                   In n lines_ro \/ In n lines_methods)).
Proof. exact @contains_all. Qed.
Print Assumptions C93_contains_all.
Example C93_contains_all_run : exists h, demo_renamed = Ok h /\ hcontains h "tr" = Ok true /\ hkeys h = ["atr"] /\
  hcontains h "wrong" = Ok false.
Proof. eexists. split; [vm_compute; reflexivity|repeat split; reflexivity]. Qed.
