(** Property theorems C22-C30: the call machinery and the configuration. *)
From Coq Require Import List String Bool Arith ZArith Lia.
From Verif Require Import Series Py PyFacts Params ParamsFacts Inputs InputsFacts Calls CallsFacts TightFacts.
Import ListNotations.
Set Implicit Arguments.
Local Open Scope string_scope.
Local Open Scope list_scope.
Local Open Scope nat_scope.

(** ** C22 *)
(** each distinct initialiser of the chain once *)
Theorem C22_once : forall chain, NoDup (init_order chain) /\ forall f, In f (init_order chain) <-> In f chain.
Proof. exact (fun ch => conj (init_nodup ch) (init_in ch)). Qed.
Print Assumptions C22_once.
(** [chain] goes from the called class up to the root: what a class uses runs before what classes below use *)
Theorem C22_base_first : forall chain, inherited_only chain -> forall i j f g, i < j ->
  nth_error chain i = Some g -> nth_error chain j = Some f -> f <> g -> before (init_order chain) f g.
Proof. exact init_base_first. Qed.
Print Assumptions C22_base_first.
(** without [inherited_only] (a class that picks the initialiser of a remote ancestor by assignment) the position
    of an initialiser is that of the lowest class using it *)
Theorem C22_general : forall chain f g a c, chain = a ++ g :: c -> ~ In g a -> ~ In f (a ++ [g]) -> In f c ->
  before (init_order chain) f g.
Proof. exact init_before. Qed.
Print Assumptions C22_general.
Example C22_ex : let ch := ["natr"; "atr"; "atr"; "truerange"; "Indicator"] in
  inherited_only ch /\ init_order ch = ["Indicator"; "truerange"; "atr"; "natr"].
Proof.
  split; [now apply adjacent_ok|reflexivity].
Qed.

(** ** C23 *)
Theorem C23_restored : forall retdf c level depth ev o d, exec retdf level depth c = (ev, o, d) ->
  (forall x, In x ev -> raised (ev_out x) = false) -> d = depth.
Proof. exact depth_restored. Qed.
Print Assumptions C23_restored.
(** in general the stack keeps one entry for every call left by an exception while its initialisers ran *)
Theorem C23_exact : forall retdf c level depth ev o d, exec retdf level depth c = (ev, o, d) ->
  d = depth + count_aborted ev.
Proof. exact exec_depth. Qed.
Print Assumptions C23_exact.
Definition leaf : call := Call false None [] None.
Definition tree : call := Call true None [(false, leaf); (false, Call false None [(false, leaf); (true, leaf)] None)] None.
Example C23_ex : exists ev, exec true 0 0 tree = (ev, RFrame, 0) /\ List.length ev = 5 /\
  forall x, In x ev -> raised (ev_out x) = false.
Proof. eexists. split; [reflexivity|]. split; [reflexivity|]. cbn. intuition (subst; reflexivity). Qed.

(** ** C24 *)
(** false: after any history in which some call (at any nesting, even if the exception was caught) was left by an
    exception while its initialisers ran, every later top-level call that takes several inputs from a DataFrame
    is rejected, and no later call returns a DataFrame, for ever *)
Theorem C24_refuted : forall l1 l2 rs1 rs2 d1 d2 x, run 0 l1 = (rs1, d1) ->
  In x (List.concat (map fst rs1)) -> aborted x = true ->
  run d1 l2 = (rs2, d2) ->
  forall k b c ev o, nth_error l2 k = Some (b, c) -> nth_error rs2 k = Some (ev, o) ->
  o <> RFrame /\ (forall pre kids post, c = Call true pre kids post -> o = RExc InputsError).
Proof. exact aborted_poisons. Qed.
Print Assumptions C24_refuted.
(** failures before the initialisers run are harmless *)
Theorem C24_partial : forall l1 rs1 d1, run 0 l1 = (rs1, d1) ->
  (forall x, In x (List.concat (map fst rs1)) -> aborted x = false) ->
  forall l2, run d1 l2 = run 0 l2.
Proof. exact not_aborted_clean. Qed.
Print Assumptions C24_partial.
Example C24_ex :
  let bad := Call false None [(false, leaf)] (Some IndexError) in
  run 0 [(true, tree)] = ([(fst (fst (exec true 0 0 tree)), RFrame)], 0) /\
  snd (run 0 [(true, bad)]) = 1 /\
  map snd (fst (run 0 [(true, bad); (true, tree); (true, leaf)])) = [RExc IndexError; RExc InputsError; RObj] /\
  map snd (fst (run 0 [(true, Call false (Some ValueError) [] None); (true, tree)])) = [RExc ValueError; RFrame].
Proof. repeat split; reflexivity. Qed.

(** ** C25 *)
(** a call made with no other call open and after no aborted one: what is nested never is a DataFrame, and the
    call itself returns one exactly if configured (and no call inside was aborted) *)
Theorem C25_return : forall retdf c ev o d, exec retdf 0 0 c = (ev, o, d) ->
  (forall x, In x ev -> 0 < ev_level x -> ev_out x <> RFrame) /\
  ((forall x, In x ev -> raised (ev_out x) = false) -> o = if retdf then RFrame else RObj) /\
  (o = RFrame <-> retdf = true /\ raised o = false /\ forall x, In x ev -> aborted x = false).
Proof. exact return_type. Qed.
Print Assumptions C25_return.
Theorem C25_configured : forall c, get_return_dataframe c = true <->
  cf_retval c = PStr "df" \/ cf_retval c = PStr "dataframe".
Proof.
  intro c. unfold get_return_dataframe. destruct (cf_retval c); try (split; [discriminate|intros [?|?]; discriminate]).
  rewrite orb_true_iff, !String.eqb_eq. split; intros [H|H]; try (injection H as ->); subst; auto.
Qed.
Print Assumptions C25_configured.
Example C25_ex : snd (fst (exec true 0 0 tree)) = RFrame /\ snd (fst (exec false 0 0 tree)) = RObj /\
  get_return_dataframe (cf_run config0 [SetReturnDf]) = true.
Proof. repeat split; reflexivity. Qed.

(** ** C26 *)
(** false: whatever the schedule, every call from another thread than the importing one fails *)
Theorem C26_refuted : forall main l t retdf c k o, nth_error l k = Some (t, (retdf, c)) -> t <> main ->
  nth_error (run_threads (imported main) l) k = Some o -> o = RExc AttributeError.
Proof. exact thread_fail. Qed.
Print Assumptions C26_refuted.
(** the importing thread's calls give what they give without the others *)
Theorem C26_main_partial : forall main l s d, s main = Some d -> (forall x, x <> main -> s x = None) ->
  map snd (filter (fun p => fst p =? main) (combine (map fst l) (run_threads s l))) =
  map snd (fst (run d (map snd (filter (fun p => fst p =? main) l)))).
Proof. exact thread_main. Qed.
Print Assumptions C26_main_partial.
Example C26_ex : run_threads (imported 7) [(7, (true, tree)); (3, (true, tree)); (7, (false, leaf)); (4, (true, leaf))]
  = [RFrame; RExc AttributeError; RObj; RExc AttributeError].
Proof. reflexivity. Qed.

(** ** C27 *)
(** false: after one call with a single series, all later calls with two use only the first; [HL] are the inputs
    high and low *)
Theorem C27_refuted : forall cfg h a b x y, make_input cfg 0 a "high" = Ok x -> make_input cfg 1 b "low" = Ok y ->
  (In [ALine] h ->
   fst (bind_inputs cfg 0 HL 1 (snd (input_history cfg HL 1 HL h)) [a; b]) = Ok [("high", x)]) /\
  (~ In [ALine] h ->
   fst (bind_inputs cfg 0 HL 1 (snd (input_history cfg HL 1 HL h)) [a; b]) = Ok [("high", x); ("low", y)]).
Proof. exact hl_after. Qed.
Print Assumptions C27_refuted.
Example C27_ex :
  fst (input_history default_cfg HL 1 HL [[ALine; ALine]; [ALine]; [ALine; ALine]]) =
  [Ok [("high", SArg 0); ("low", SArg 1)]; Ok [("high", SArg 0)]; Ok [("high", SArg 0)]].
Proof. reflexivity. Qed.

(** ** C28 *)
(** false: [h] is any history of calls (ta-lib mode or not); a plain call fails as soon as it contains a ta-lib
    one, and the k-th ta-lib call has k outputs called d *)
Theorem C28_exact_refuted : forall h talib,
  fst (stochrsi_call (snd (stochrsi_history ["stochrsi"] h)) talib false) =
  let n := List.length (filter fst h) in
  if talib then Ok ("stochrsi" :: repeat "d" (S n))
  else if n =? 0 then Ok ["stochrsi"] else Raise AttributeError.
Proof. exact stoch_last. Qed.
Print Assumptions C28_exact_refuted.
Example C28_ex : fst (stochrsi_history ["stochrsi"] [(false, false); (true, false); (false, false); (true, false)]) =
  [Ok ["stochrsi"]; Ok ["stochrsi"; "d"]; Raise AttributeError; Ok ["stochrsi"; "d"; "d"]].
Proof. reflexivity. Qed.

(** ** C29 *)
(** what a caller passes is kept; without ta-lib mode nothing is added; otherwise a missing keyword gets the value
    of the base-most class that has one *)
Theorem C29_priority : forall c chain body kwargs k, NoDup (dkeys kwargs) -> k <> "_talib" ->
  let kw := talib_kwargs c chain body kwargs in
  (forall v, dget kwargs k = Some v -> dget kw k = Some v) /\
  (talib_flag c kwargs = false -> dget kw k = dget kwargs k) /\
  (talib_flag c kwargs = true -> dget kwargs k = None ->
     (forall f, In f chain -> sets body k f = false) -> dget kw k = None) /\
  (talib_flag c kwargs = true -> dget kwargs k = None -> inherited_only chain ->
     forall i f, nth_error chain i = Some f -> sets body k f = true ->
     (forall j g, i < j -> nth_error chain j = Some g -> g <> f -> sets body k g = false) ->
     dget kw k = dget (body f) k).
Proof. exact talib_priority. Qed.
Print Assumptions C29_priority.
(** the mode is on if the call asks for it or, else, if it is configured; any value counts but None, False, 0 and the
    empty string and tuple *)
Theorem C29_mode : forall c kwargs, talib_flag c kwargs = true <->
  (exists v, dget kwargs "_talib" = Some v /\ ~ In v [PNone; PBool false; PInt 0; PStr ""; PTuple []]) \/
  ~ In (cf_talib c) [PNone; PBool false; PInt 0; PStr ""; PTuple []].
Proof. exact talib_mode. Qed.
Print Assumptions C29_mode.
Example C29_mode_ex : talib_flag (cf_run config0 [SetTalib None]) [] = true /\
  talib_flag config0 [("_talib", PBool true)] = true /\ talib_flag config0 [("_talib", PStr "")] = false /\
  talib_flag (cf_run config0 [SetTalib None]) [("_talib", PBool false)] = true.
Proof. repeat split; reflexivity. Qed.
Theorem C29_flag_removed : forall c chain body kwargs, NoDup (dkeys kwargs) ->
  (forall f, In f chain -> dget (body f) "_talib" = None) ->
  dget (talib_kwargs c chain body kwargs) "_talib" = None.
Proof. exact talib_removed. Qed.
Print Assumptions C29_flag_removed.
Example C29_ex :
  let body f := if String.eqb f "derived" then [("period", PInt 5); ("scale", PInt 100)]
                else if String.eqb f "base" then [("period", PInt 14)] else [] in
  inherited_only ["derived"; "base"; "Indicator"] /\
  talib_kwargs config0 ["derived"; "base"; "Indicator"] body [("_talib", PBool true)] = [("period", PInt 14); ("scale", PInt 100)] /\
  talib_kwargs config0 ["derived"; "base"; "Indicator"] body [("scale", PInt 7); ("_talib", PBool true)]
  = [("scale", PInt 7); ("period", PInt 14)].
Proof.
  split; [now apply adjacent_ok|split; reflexivity].
Qed.

(** ** C30 *)
Theorem C30_last_setter : forall l c, (forall kw, In (SetIndices kw) l -> NoDup (dkeys kw)) ->
  cf_first (cf_run c l) = last_some set_first l (cf_first c) /\
  cf_retval (cf_run c l) = last_some set_ret l (cf_retval c) /\
  cf_talib (cf_run c l) = last_some set_tl l (cf_talib c) /\
  (forall k, dget (cf_indices (cf_run c l)) k = last_some (set_idx k) l (dget (cf_indices c) k)).
Proof. exact config_last. Qed.
Print Assumptions C30_last_setter.
(** the configuration of a fresh process: results are objects, no ta-lib compatibility, names of columns before positions,
    the positions are those of open, high, low, close, volume, openinterest *)
Theorem C30_initial :
  get_return_dataframe config0 = false /\
  (forall kw, dget kw "_talib" = None -> talib_flag config0 kw = false) /\
  (forall n k, dget (cf_indices config0) n = Some (CInt k) <->
     exists i, k = Z.of_nat i /\ nth_error ["open"; "high"; "low"; "close"; "volume"; "openinterest"] i = Some n) /\
  truthy (cf_first config0) = false.
Proof. exact initial_config. Qed.
Print Assumptions C30_initial.
(** [last_some f l d] is what the last setter in [l] with an effect under [f] set, else [d] *)
Theorem C30_meaning : forall (A : Type) (f : setter -> option A),
  (forall l1 s l2 v d, f s = Some v -> (forall x, In x l2 -> f x = None) -> last_some f (l1 ++ s :: l2) d = v) /\
  (forall l d, (forall x, In x l -> f x = None) -> last_some f l d = d).
Proof. exact (fun A f => conj (@last_some_split A f) (@last_some_none A f)). Qed.
Print Assumptions C30_meaning.
Example C30_ex :
  let c := cf_run config0 [SetTalib None; SetReturn (PStr "x"); SetIndices [("close", CInt 0)]; SetReturnDf;
                           SetIndices [("high", CStr "Top"); ("mine", CInt 9)]; SetFirst (Some (PBool false))] in
  cf_talib c = PBool true /\ cf_retval c = PStr "df" /\ cf_first c = PBool false /\
  map (dget (cf_indices c)) ["close"; "high"; "mine"; "open"; "q"] =
  [Some (CInt 0); Some (CStr "Top"); Some (CInt 9); Some (CInt 0); None].
Proof. repeat split; reflexivity. Qed.
