(** Property theorems C10-C15 and C71, C81: how the arguments of a call become its inputs. *)
From Coq Require Import List String Ascii Bool Arith ZArith Lia.
From Verif Require Import Series Py Inputs InputsFacts ChoiceFacts PropInputsFacts TightFacts.
Import ListNotations.
Set Implicit Arguments.
Local Open Scope string_scope.
Local Open Scope list_scope.
Local Open Scope nat_scope.

(** ** C10 *)
(** every input gets a column, and no column feeds two inputs; any integer configuration, both
    settings of set_use_ohlc_indices_first *)
Theorem C10_one_to_one : forall cfg columns names,
  List.length names <= List.length columns -> no_string_for cfg names ->
  exists m, from_dataframe cfg 0 columns names = Ok m /\ map fst m = names /\ NoDup (map snd m) /\
            (forall c, In c (map snd m) -> c < List.length columns).
Proof. exact df_mapping. Qed.
Print Assumptions C10_one_to_one.
Example C10_one_to_one_ex :
  let cfg := mkIcfg [("high", CInt 7); ("low", CInt (-2)); ("close", CInt 0)] true in
  no_string_for cfg ["high"; "low"; "close"] /\
  from_dataframe cfg 0 ["Low"; "Vol"; "X"; "HIGH"] ["high"; "low"; "close"]
  = Ok [("high", 3); ("low", 0); ("close", 1)].
Proof.
  split; [|reflexivity]. intros n s H. cbn in H. intuition (subst; cbn; discriminate).
Qed.

(** with string remappings: whenever the call succeeds the assignment is still one to one, and the only
    way to fail is a configured column name that does not exist *)
Theorem C10_with_names : forall cfg columns names,
  List.length names <= List.length columns ->
  (forall m, from_dataframe cfg 0 columns names = Ok m ->
     map fst m = names /\ NoDup (map snd m) /\ (forall c, In c (map snd m) -> c < List.length columns)) /\
  (forall e, from_dataframe cfg 0 columns names = Raise e ->
     e = InputsError /\
     exists n s, In n names /\ dget (ohlc_indices cfg) n = Some (CStr s) /\ ~ In s (map lower columns)).
Proof.
  exact (fun cfg columns names Hl =>
    conj (fun m => @from_dataframe_inj cfg 0 columns names m)
         (fun e => @from_dataframe_err cfg columns names e Hl)).
Qed.
Print Assumptions C10_with_names.
Example C10_with_names_ex :
  let cfg := mkIcfg [("high", CStr "Top")] false in
  from_dataframe cfg 0 ["Top"; "low"] ["high"; "low"] = Raise InputsError /\
  from_dataframe (mkIcfg [("high", CStr "top")] false) 0 ["Top"; "low"] ["high"; "low"]
  = Ok [("high", 0); ("low", 1)].
Proof. split; reflexivity. Qed.

(** names of columns are compared without regard to case: the 26 capital letters become small, nothing else changes *)
Theorem C10_case : forall s i c, String.get i s = Some c ->
  exists d, String.get i (lower s) = Some d /\
    (65 <= nat_of_ascii c <= 90 -> nat_of_ascii d = nat_of_ascii c + 32) /\ (~ 65 <= nat_of_ascii c <= 90 -> d = c).
Proof. exact lower_letters. Qed.
Print Assumptions C10_case.
Example C10_case_ex : lower "[AZ]@z{0" = "[az]@z{0" /\ String.get 2 "[AZ]@z{0" = Some "Z"%char.
Proof. split; reflexivity. Qed.

(** ** C11 *)
Theorem C11_named : forall cfg columns names, ohlc_first cfg = false -> NoDup names ->
  (forall n, In n names -> exists i, first_col columns n i) ->
  exists m, from_dataframe cfg 0 columns names = Ok m /\ map fst m = names /\
    forall n i, In (n, i) m -> first_col columns n i.
Proof. exact df_named. Qed.
Print Assumptions C11_named.
Example C11_named_ex :
  NoDup ["high"; "low"; "close"] /\
  (forall n, In n ["high"; "low"; "close"] -> exists i, first_col ["Close"; "LOW"; "x"; "high"; "low"] n i) /\
  from_dataframe default_cfg 0 ["Close"; "LOW"; "x"; "high"; "low"] ["high"; "low"; "close"]
  = Ok [("high", 3); ("low", 1); ("close", 0)].
Proof.
  split; [repeat constructor; cbn; intuition discriminate|]. split; [|reflexivity].
  intros n H. cbn in H.
  assert (exists i, index_of n (map lower ["Close"; "LOW"; "x"; "high"; "low"]) = Some i) as [i Hi].
  { intuition (subst; eexists; reflexivity). }
  exists i. now apply index_first_col.
Qed.

(** ** C12 *)
(** true part: if every input declared before [n] is named as well, [n] gets its own column *)
Theorem C12_named_prefix_partial : forall cfg columns pre n post m i, ohlc_first cfg = false ->
  NoDup (pre ++ [n]) ->
  (forall x, In x (pre ++ [n]) -> exists j, first_col columns x j) ->
  from_dataframe cfg 0 columns (pre ++ n :: post) = Ok m -> NoDup (pre ++ n :: post) ->
  In (n, i) m -> first_col columns n i.
Proof. exact named_column. Qed.
Print Assumptions C12_named_prefix_partial.
Example C12_named_prefix_partial_ex :
  from_dataframe default_cfg 0 ["vol"; "low"; "high"; "x"] (["high"] ++ "low" :: ["close"])
  = Ok [("high", 2); ("low", 1); ("close", 3)].
Proof. reflexivity. Qed.

(** the property is false: the column called "low" is given to the input [high] *)
Theorem C12_refuted : exists columns names m,
  NoDup names /\ from_dataframe default_cfg 0 columns names = Ok m /\
  In "low" names /\ first_col columns "low" 1 /\ In ("high", 1) m /\ ~ In ("low", 1) m.
Proof. exact stolen. Qed.
Print Assumptions C12_refuted.
(** exactly when a missing first input is configured to a position whose column carries the name of
    a later input *)
Theorem C12_stolen_refuted : forall cfg columns a post m i n,
  ohlc_first cfg = false -> no_col columns a ->
  dget (ohlc_indices cfg) a = Some (CInt (Z.of_nat i)) -> i < List.length columns ->
  In n post -> first_col columns n i -> n <> a ->
  from_dataframe cfg 0 columns (a :: post) = Ok m ->
  In (a, i) m /\ ~ In (n, i) m.
Proof. exact stolen_general. Qed.
Print Assumptions C12_stolen_refuted.

(** ** C13 *)
Theorem C13_rejected : forall cfg depth names allow sl columns rest,
  S (List.length rest) < List.length names ->
  (List.length columns < List.length names \/ 0 < depth) ->
  bind_inputs cfg depth names allow sl (ADf columns :: rest) = (Raise InputsError, sl).
Proof. exact df_rejected. Qed.
Print Assumptions C13_rejected.
Example C13_rejected_ex :
  bind_inputs default_cfg 0 ["high"; "low"; "close"] 0 ["high"; "low"; "close"] [ADf ["high"; "low"]]
  = (Raise InputsError, ["high"; "low"; "close"]) /\
  bind_inputs default_cfg 2 ["high"; "low"] 1 ["high"; "low"] [ADf ["high"; "low"; "close"]]
  = (Raise InputsError, ["high"; "low"]) /\
  bind_inputs default_cfg 0 ["high"; "low"] 1 ["high"; "low"] [ADf ["high"; "low"; "close"]]
  = (Ok [("high", SCol 0 0); ("low", SCol 0 1)], ["high"; "low"]).
Proof. repeat split; reflexivity. Qed.

(** ** C14 *)
Theorem C14_single_input : forall cfg depth n allow columns rest,
  let got c := bind_inputs cfg depth [n] allow [n] (ADf columns :: rest) = (Ok [(n, SCol 0 c)], [n]) in
  let conf := dget (ohlc_indices cfg) n in
  let w := Z.of_nat (List.length columns) in
  (forall i, first_col columns n i -> got i) /\
  (no_col columns n ->
     (forall z, conf = Some (CInt z) -> (0 <= z < w)%Z -> got (Z.to_nat z)) /\
     (forall z, conf = Some (CInt z) -> (w <= z)%Z -> columns <> [] -> got 0) /\
     (conf = None -> columns <> [] -> got 0) /\
     (forall s, conf = Some (CStr s) ->
        bind_inputs cfg depth [n] allow [n] (ADf columns :: rest) = (Raise TypeError, [n])) /\
     (forall z, conf = Some (CInt z) -> (- w <= z < 0)%Z -> got (Z.to_nat (w + z))) /\
     (forall z, conf = Some (CInt z) -> (z < - w)%Z ->
        bind_inputs cfg depth [n] allow [n] (ADf columns :: rest) = (Raise IndexError, [n]))).
Proof. exact single_input. Qed.
Print Assumptions C14_single_input.
Example C14_single_input_ex :
  bind_inputs default_cfg 0 ["close"] 0 ["close"] [ADf ["a"; "Close"; "close"]]
  = (Ok [("close", SCol 0 1)], ["close"]) /\
  bind_inputs default_cfg 0 ["close"] 0 ["close"] [ADf ["a"; "b"; "c"; "d"; "e"]]
  = (Ok [("close", SCol 0 3)], ["close"]) /\
  bind_inputs default_cfg 0 ["close"] 0 ["close"] [ADf ["a"; "b"]]
  = (Ok [("close", SCol 0 0)], ["close"]).
Proof. repeat split; reflexivity. Qed.

(** ** C15 *)
(** exact outcome: the number of bars, not of outputs, is compared with the number of inputs *)
Theorem C15_exact_refuted : forall cfg depth names allow nouts bars rest,
  NoDup names -> S (List.length rest) < List.length names ->
  bind_inputs cfg depth names allow names (AHolder nouts bars :: rest) =
  ((if bars <? List.length names then Raise InputsError
    else if nouts <? List.length names then Raise AttributeError
    else Ok (combine names (outs 0 (List.length names)))), names).
Proof. exact holder_cases. Qed.
Print Assumptions C15_exact_refuted.
Example C15_exact_refuted_ex :
  bind_inputs default_cfg 1 ["high"; "low"; "close"] 0 ["high"; "low"; "close"] [AHolder 1 100]
  = (Raise AttributeError, ["high"; "low"; "close"]) /\
  bind_inputs default_cfg 1 ["high"; "low"; "close"] 0 ["high"; "low"; "close"] [AHolder 3 2]
  = (Raise InputsError, ["high"; "low"; "close"]) /\
  bind_inputs default_cfg 1 ["high"; "low"] 0 ["high"; "low"] [AHolder 3 20]
  = (Ok [("high", SOut 0 0); ("low", SOut 0 1)], ["high"; "low"]).
Proof. repeat split; reflexivity. Qed.

(** ** C71 *)
(** with at least as many arguments as inputs, input k is made from argument k alone and the arguments
    after the inputs are left for the indicator *)
Theorem C71_positional : forall cfg depth names allow sl args r,
  names <> [] -> List.length names <= List.length args ->
  from_args cfg depth names allow sl args = Ok r ->
  exists m, r = (m, List.length names, sl) /\ map fst m = names /\
    forall k n s, nth_error m k = Some (n, s) ->
      exists a, nth_error args k = Some a /\ given cfg k n a s.
Proof. exact positional_given. Qed.
Print Assumptions C71_positional.
(** and the call is accepted if each argument gives something *)
Theorem C71_accepted : forall cfg depth names allow sl args,
  names <> [] -> List.length names <= List.length args ->
  (forall k n a, nth_error names k = Some n -> nth_error args k = Some a -> exists s, given cfg k n a s) ->
  exists r, from_args cfg depth names allow sl args = Ok r.
Proof. exact positional_complete. Qed.
Print Assumptions C71_accepted.
Example C71_positional_ex :
  from_args default_cfg 3 ["high"; "low"] 0 ["high"; "low"] [ALine; ADf ["low"; "x"]; ALine]
  = Ok ([("high", SArg 0); ("low", SCol 1 0)], 2, ["high"; "low"]).
Proof. reflexivity. Qed.

(** ** C81 *)
(** the column each input takes: the rules of [chosen], applied input by input in the declared order *)
Theorem C81_choice : forall cfg columns names m, from_dataframe cfg 0 columns names = Ok m ->
  forall pre n i post, m = pre ++ (n, i) :: post -> chosen cfg columns (map snd pre) n i.
Proof. exact dataframe_chosen. Qed.
Print Assumptions C81_choice.
(** and those rules leave no freedom *)
Theorem C81_determined : forall cfg columns taken n i j,
  chosen cfg columns taken n i -> chosen cfg columns taken n j -> i = j.
Proof. exact chosen_unique. Qed.
Print Assumptions C81_determined.
(** by name (unless the configured index goes first), by configured index, and by default the lowest
    column left *)
Example C81_choice_ex :
  from_dataframe default_cfg 0 ["a"; "Low"; "b"; "high"; "c"] ["high"; "low"; "close"; "x"]
  = Ok [("high", 3); ("low", 1); ("close", 0); ("x", 2)] /\
  from_dataframe (mkIcfg (ohlc_indices default_cfg) true) 0 ["a"; "Low"; "b"; "high"; "c"] ["high"; "low"; "close"]
  = Ok [("high", 1); ("low", 2); ("close", 3)] /\
  from_dataframe (mkIcfg [("high", CStr "b"); ("low", CInt 7)] false) 0 ["a"; "b"; "c"] ["high"; "low"]
  = Ok [("high", 1); ("low", 0)].
Proof. repeat split; reflexivity. Qed.
Example C81_determined_ex : chosen default_cfg ["a"; "Low"; "b"; "high"; "c"] [3; 1] "close" 0.
Proof.
  apply (@dataframe_chosen default_cfg ["a"; "Low"; "b"; "high"; "c"] ["high"; "low"; "close"; "x"]
           _ eq_refl [("high", 3); ("low", 1)] "close" 0 [("x", 2)]).
  reflexivity.
Qed.
