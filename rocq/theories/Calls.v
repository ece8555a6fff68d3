(** Model of the call machinery of btalib/indicator.py:79-181 and of btalib/config.py. *)
From Coq Require Import List String Bool Arith ZArith.
From Verif Require Import Series Py Params Inputs.
Import ListNotations.
Set Implicit Arguments.
Local Open Scope string_scope.
Local Open Scope list_scope.
Local Open Scope nat_scope.

(** ** Configuration (config.py:12-67) *)
Record config := mkConfig {
  cf_indices : dict cidx;     (* OHLC_INDICES *)
  cf_first : pyval;           (* OHLC_FIRST *)
  cf_retval : pyval;          (* RETVAL *)
  cf_talib : pyval            (* TALIB_COMPAT *)
}.
Definition config0 : config :=
  mkConfig [("open", CInt 0); ("high", CInt 1); ("low", CInt 2); ("close", CInt 3); ("volume", CInt 4);
            ("openinterest", CInt 5)] (PBool false) (PStr "") (PBool false).
(** the setters; an omitted argument is the default of the signature *)
Inductive setter :=
| SetFirst (v : option pyval)
| SetIndices (kw : dict cidx)
| SetReturn (v : pyval)
| SetReturnDf
| SetTalib (v : option pyval).
Definition dflt (v : option pyval) (d : pyval) : pyval := match v with Some x => x | None => d end.
Definition cf_step (c : config) (s : setter) : config :=
  match s with
  | SetFirst v => mkConfig (cf_indices c) (dflt v (PBool true)) (cf_retval c) (cf_talib c)
  | SetIndices kw => mkConfig (dupdate (cf_indices c) kw) (cf_first c) (cf_retval c) (cf_talib c)
  | SetReturn v => mkConfig (cf_indices c) (cf_first c) v (cf_talib c)
  | SetReturnDf => mkConfig (cf_indices c) (cf_first c) (PStr "df") (cf_talib c)
  | SetTalib v => mkConfig (cf_indices c) (cf_first c) (cf_retval c) (dflt v (PBool true))
  end.
Definition cf_run (c : config) (l : list setter) : config := fold_left cf_step l c.
(** config.py:52-53: RETVAL in ['df', 'dataframe'] *)
Definition get_return_dataframe (c : config) : bool :=
  match cf_retval c with
  | PStr s => String.eqb s "df" || String.eqb s "dataframe"
  | _ => false
  end.

(** ** Initialisers and ta-lib hooks *)
(** indicator.py:91-95, 151-152: [chain] is the __init__ of each class from the called one up to Indicator, a
    function being identified by a name; the list is the order of the calls *)
Definition init_order (chain : list string) : list string := rev (fromkeys chain).

(** indicator.py:98: talibflag = kwargs.pop('_talib', False) or config.get_talib_compat() *)
Definition talib_flag (c : config) (kwargs : dict pyval) : bool :=
  truthy (py_or (match dget kwargs "_talib" with Some v => v | None => PBool false end) (cf_talib c)).
(** a _talib method of the package: kwdict.setdefault(k, v) one after the other (stochrsi and macd also touch the
    instance, see below) *)
Definition talib_hook (kw : dict pyval) (body : list (string * pyval)) : dict pyval :=
  fold_left (fun d p => dsetdefault d (fst p) (snd p)) body kw.
(** indicator.py:139-141: [chain] as above for _talib, [body] what each function does *)
Definition talib_kwargs (c : config) (chain : list string) (body : string -> list (string * pyval))
           (kwargs : dict pyval) : dict pyval :=
  let kw := dremove kwargs "_talib" in
  if talib_flag c kwargs then fold_left (fun d f => talib_hook d (body f)) (rev (fromkeys chain)) kw
  else kw.

(** ** The call stack *)
(** A call as seen from indicator.py:79-181.  [multi]: its first argument is a DataFrame from which several
    inputs are taken (inputs.py:87-89); [pre]: an exception raised before line 148 for another reason; [kids]: the
    indicator calls made while the initialisers run, with a flag telling whether the initialiser catches an
    exception of that call; [post]: an exception raised by the initialisers themselves (or by lines 154-171). *)
Inductive call := Call (multi : bool) (pre : option exc) (kids : list (bool * call)) (post : option exc).

Inductive outcome := RObj | RFrame | RExc (e : exc).
(** what happened to one call: how many calls were open around it, whether it reached line 148, its outcome *)
Record event := mkEv { ev_level : nat; ev_entered : bool; ev_out : outcome }.

(** [retdf]: config.get_return_dataframe(); [depth]: len(metadata.callstack).  Result: the events of the call and
    of the calls made inside, its own outcome, and the new length of the stack. *)
Fixpoint exec (retdf : bool) (level depth : nat) (c : call) : list event * outcome * nat :=
  match c with
  | Call multi pre kids post =>
      if multi && (0 <? depth) then ([mkEv level false (RExc InputsError)], RExc InputsError, depth)
      else match pre with
      | Some e => ([mkEv level false (RExc e)], RExc e, depth)
      | None =>
          let '(ev, o, d) :=
            (fix go (ks : list (bool * call)) (d : nat) : list event * option exc * nat :=
               match ks with
               | [] => ([], post, d)
               | (caught, k) :: ks' =>
                   let '(ev1, o1, d1) := exec retdf (S level) d k in
                   match o1, caught with
                   | RExc e, false => (ev1, Some e, d1)
                   | _, _ => let '(ev2, o2, d2) := go ks' d1 in (ev1 ++ ev2, o2, d2)
                   end
               end) kids (S depth) in
          match o with
          | Some e => (ev ++ [mkEv level true (RExc e)], RExc e, d)        (* line 173 is not reached *)
          | None =>
              let d' := pred d in                                  (* metadata.callstack.pop() *)
              let r := if (d' =? 0) && retdf then RFrame else RObj in
              (ev ++ [mkEv level true r], r, d')
          end
      end
  end.
(** a program: top-level calls one after the other; each may run under another return configuration *)
Fixpoint run (depth : nat) (l : list (bool * call)) : list (list event * outcome) * nat :=
  match l with
  | [] => ([], depth)
  | (retdf, c) :: l' =>
      let '(ev, o, d) := exec retdf 0 depth c in
      let '(rs, d') := run d l' in ((ev, o) :: rs, d')
  end.

(** ** Threads *)
(** metadata.py:11 is a threading.local: the attributes set while importing (indicator.py:19, lines.py:610-611)
    exist only in the importing thread.  In any other thread the first use, metadata.minperiods in Lines.__init__
    (lines.py:631, reached from indicator.py:110 before anything depends on the arguments), raises. *)
Definition stacks := nat -> option nat.
Definition imported (main : nat) : stacks := fun t => if t =? main then Some 0 else None.
Definition exec_thread (s : stacks) (t : nat) (retdf : bool) (c : call) : outcome * stacks :=
  match s t with
  | None => (RExc AttributeError, s)
  | Some d => let '(_, o, d') := exec retdf 0 d c in (o, fun x => if x =? t then Some d' else s x)
  end.
(** calls of different threads one after the other, in the order of the schedule *)
Fixpoint run_threads (s : stacks) (l : list (nat * (bool * call))) : list outcome :=
  match l with
  | [] => []
  | (t, (retdf, c)) :: l' => let '(o, s') := exec_thread s t retdf c in o :: run_threads s' l'
  end.

(** ** State of the classes that survives calls *)
(** a history of calls of one class with declared inputs [names] and allowinputs [allow] (mama, ht_*: 1), at top
    level: what each call sees as its inputs *)
Fixpoint input_history (cfg : icfg) (names : list string) (allow : nat) (sl : slots) (l : list (list arg))
  : list (res (list (string * source))) * slots :=
  match l with
  | [] => ([], sl)
  | args :: l' =>
      let '(r, sl') := bind_inputs cfg 0 names allow sl args in
      let '(rs, sl'') := input_history cfg names allow sl' l' in
      (r :: rs, sl'')
  end.

(** stochrsi.py:42-79 seen through its outputs: __slots__ of the class's outputs (the list object is shared by all
    calls), appended to by _talib (line 77); the initialiser sets stochrsi always and d only if _pfast is given
    (a ta-lib default, line 78, or a keyword of the caller); indicator.py:169 then reads every name listed.
    Not modelled: a caller passing a false _pfast in ta-lib mode. *)
Definition stochrsi_call (sl : slots) (talib pfast : bool) : res (list string) * slots :=
  let sl' := if talib then sl ++ ["d"] else sl in
  let set := if talib || pfast then ["stochrsi"; "d"] else ["stochrsi"] in
  (if forallb (fun s => smem s set) sl' then Ok sl' else Raise AttributeError, sl').
Fixpoint stochrsi_history (sl : slots) (l : list (bool * bool)) : list (res (list string)) * slots :=
  match l with
  | [] => ([], sl)
  | (t, p) :: l' =>
      let '(r, sl') := stochrsi_call sl t p in
      let '(rs, sl'') := stochrsi_history sl' l' in (r :: rs, sl'')
  end.
