(** C94-C96: what computing and reading indicators does to objects that exist already. *)
From Coq Require Import ZArith QArith List Bool String.
From Verif Require Import Num Series Line Apply Py IndVol Mem Bodies MemSpec MemFacts MemFacts2 PropMemFacts MemObv IndSar MemSar.
Import ListNotations.
Local Open Scope string_scope.
Local Open Scope list_scope.
Local Open Scope nat_scope.

(** the data of a caller: two named Series; the closes are in use by a line of their own as well *)
Definition q (z : Z) : ext Q := Fin (inject_Z z).
Definition user : store (ext Q) :=
  mkStore [mkS (Some "AAPL") [q 10; q 12; q 11; q 13]; mkS (Some "Vol") [q 100; q 200; q 300; q 400]]
          [mkL 1%Z "mine" 0].
Example user_wf : wf_store user.
Proof. intros o [<-|[]]. cbn. auto with arith. Qed.
Definition calls : list (event (ext Q)) :=
  [EMake (p_obv true 1) [GSeries 0; GSeries 1]; ERead 0; EMake (p_obv false 1) [GLine 0; GSeries 1];
   EReadLine 1 0; EMake (p_obv true 1) [GLine 5; GSeries 0]].
Example calls_fine : calls_only bodies calls.
Proof.
  intros p gs H. cbn in H.
  destruct H as [H|[H|[H|[H|[H|[]]]]]]; try discriminate H; inversion H; subst.
  - exists b_obv. split; [apply (p_obv_shape (ext Q) _ 1)|repeat split].
  - exists b_obv_1. split; [apply (p_obv_shape (ext Q) _ 1)|repeat split].
  - exists b_obv. split; [apply (p_obv_shape (ext Q) _ 1)|repeat split].
Qed.
Example calls_work : exists w, history (mkW user []) calls = w /\ List.length (w_inds w) = 3 /\
  List.length (sers (w_st w)) = 8 /\ List.length (lins (w_st w)) = 16.
Proof. eexists. split; [reflexivity|]. vm_compute. auto. Qed.

(** C94: whatever indicators of the library are computed and read, in whatever order and with whatever outcome, the
    Series of the caller keep their values and their names, and the lines made before keep theirs *)
Theorem C94_inputs_untouched : forall (V : Type) (N : Num V) (st : store V) evs, wf_store st -> calls_only bodies evs ->
  untouched st (w_st (history (mkW st []) evs)).
Proof. exact (@inputs_untouched). Qed.
Print Assumptions C94_inputs_untouched.
Example C94_met := C94_inputs_untouched _ _ user calls user_wf calls_fine.
(** the same at every point of the history: nothing a later call does changes an object that exists by then, except
    for the names of outputs that are read *)
Theorem C94_later : forall (V : Type) (N : Num V) (st : store V) evs (p : prog V) gs, wf_store st ->
  calls_only bodies (evs ++ [EMake p gs]) ->
  let w := history (mkW st []) evs in
  untouched (w_st w) (w_st (step w (EMake p gs))).
Proof. exact (@later_untouched). Qed.
Print Assumptions C94_later.
Example C94_later_met := C94_later _ _ user (firstn 4 calls) (p_obv true 1) [GLine 5; GSeries 0] user_wf calls_fine.
(** the claim depends on the bodies.  An indicator that handed out its input as its output would rename the Series of
    the caller, and one that let its function write into the bars themselves (no raw=True) would overwrite them *)
Definition p_direct : prog (ext Q) := mkProg ["close"] ["same"] [SWrap "o.same" "i.close" "same"].
Example C94_direct : exists w, history (mkW user []) [EMake p_direct [GSeries 0]; ERead 0] = w /\
  nth_error (sers (w_st w)) 0 = Some (mkS (Some "same") [q 10; q 12; q 11; q 13]) /\
  check (mkBody "direct" ["close"] ["same"] [HWrap "o.same" "i.close" "same"]) = false.
Proof. eexists. split; [reflexivity|]. vm_compute. auto. Qed.
Definition p_scribble (raw : bool) : prog (ext Q) :=
  mkProg ["close"] ["neg"]
    [SApply ["t1"] "i.close" raw true [] (fun bufs => let r := map (map (vsub v0)) bufs in (r, Ok r));
     SWrap "o.neg" "t1" "neg"].
Example C94_scribble :
  nth_error (sers (fst (run (p_scribble false) [GSeries 0] user))) 0 =
    Some (mkS (Some "AAPL") [q (-10); q (-12); q (-11); q (-13)]) /\
  nth_error (sers (fst (run (p_scribble true) [GSeries 0] user))) 0 =
    Some (mkS (Some "AAPL") [q 10; q 12; q 11; q 13]) /\
  check (mkBody "neg" ["close"] ["neg"] [HApply ["t1"] "i.close" false true []; HWrap "o.neg" "t1" "neg"]) = false /\
  check (mkBody "neg" ["close"] ["neg"] [HApply ["t1"] "i.close" true true []; HWrap "o.neg" "t1" "neg"]) = true.
Proof. vm_compute. auto. Qed.

(** C95: a result stays what it is.  Whatever is computed or read afterwards, an output of an indicator is the same
    line with the same values and the same minimum period, and reading it gives the same Series *)
Theorem C95_results_stable : forall (V : Type) (N : Num V) (st : store V) evs1 evs2 k j l, wf_store st ->
  calls_only bodies (evs1 ++ evs2) ->
  let w1 := history (mkW st []) evs1 in
  let w2 := history (mkW st []) (evs1 ++ evs2) in
  output w1 k j l ->
  output w2 k j l /\
  (exists v, line_at (w_st w1) l = Some v /\ line_at (w_st w2) l = Some v) /\
  (exists s, snd (read_line (w_st w1) l) = Some s /\ snd (read_line (w_st w2) l) = Some s).
Proof. exact (@results_stable). Qed.
Print Assumptions C95_results_stable.
(** the Series handed out for an output is none of those the caller brought, and it keeps its name and values *)
Theorem C95_series_stable : forall (V : Type) (N : Num V) (st : store V) evs1 evs2 k j l s, wf_store st ->
  calls_only bodies (evs1 ++ evs2) ->
  let w1 := history (mkW st []) evs1 in
  output w1 k j l -> snd (read_line (w_st w1) l) = Some s ->
  exists i, List.length (sers st) <= i /\
    nth_error (sers (w_st (step w1 (EReadLine k j)))) i = Some s /\
    nth_error (sers (w_st (history (mkW st []) (evs1 ++ EReadLine k j :: evs2)))) i = Some s.
Proof. exact (@object_stable). Qed.
Print Assumptions C95_series_stable.
(** a call that does not raise has all its declared outputs, and each reads as a Series of that name *)
Theorem C95_named : forall (V : Type) (N : Num V) (st : store V) evs (p : prog V) gs e, wf_store st ->
  calls_only bodies (evs ++ [EMake p gs]) ->
  let w := history (mkW st []) evs in
  snd (run p gs (w_st w)) = Ok e ->
  exists ls, w_inds (step w (EMake p gs)) = w_inds w ++ [ls] /\
    Forall2 (fun n l => exists s, snd (read_line (w_st (step w (EMake p gs))) l) = Some s /\ so_name s = Some n)
            (pr_out p) ls.
Proof. exact (@outputs_named). Qed.
Print Assumptions C95_named.
(** a call that leaves a declared output without a value raises: there is no result object *)
Theorem C95_unassigned : forall (V : Type) (N : Num V) (w : world V) (p : prog V) gs e n,
  snd (run p gs (w_st w)) = Ok e -> In n (pr_out p) -> dget e ("o." ++ n) = None ->
  outs_of e (pr_out p) = Raise AttributeError /\ w_inds (step w (EMake p gs)) = w_inds w.
Proof. exact (@unassigned). Qed.
Print Assumptions C95_unassigned.
Definition p_half : prog (ext Q) := mkProg ["close"] ["one"; "two"] [SWrap "o.one" "i.close" "one"].
Example C95_unassigned_met : exists e, snd (run p_half [GSeries 0] user) = Ok e /\ dget e ("o." ++ "two") = None /\
  dget e ("o." ++ "one") <> None /\ w_inds (step (mkW user []) (EMake p_half [GSeries 0])) = [].
Proof. eexists. split; [vm_compute; reflexivity|]. vm_compute. repeat split; congruence. Qed.
Lemma calls1 : output (history (mkW user []) (firstn 1 calls)) 0 0 5.
Proof. exists [5]. vm_compute. auto. Qed.
Example C95_met := C95_results_stable _ _ user (firstn 1 calls) (skipn 1 calls) 0 0 5 user_wf calls_fine calls1.
Example C95_series_met : exists s, snd (read_line (w_st (history (mkW user []) (firstn 1 calls))) 5) = Some s /\
  s = mkS (Some "obv") [q 100; q 300; q 0; q 400] /\
  exists i, 2 <= i /\
    nth_error (sers (w_st (history (mkW user []) (firstn 1 calls ++ EReadLine 0 0 :: skipn 1 calls)))) i = Some s.
Proof.
  eexists. split; [vm_compute; reflexivity|]. split; [reflexivity|].
  destruct (C95_series_stable _ _ user (firstn 1 calls) (skipn 1 calls) 0 0 5 _ user_wf calls_fine calls1 eq_refl)
    as [i [H1 [_ H2]]]. exists i. split; [exact H1|]. exact H2.
Qed.
Example C95_named_met : exists e, snd (run (p_obv true 1) [GSeries 0; GSeries 1] user) = Ok e /\
  exists ls, w_inds (step (mkW user []) (EMake (p_obv true 1) [GSeries 0; GSeries 1])) = [ls] /\
  Forall2 (fun n l => exists s,
     snd (read_line (w_st (step (mkW user []) (EMake (p_obv true 1) [GSeries 0; GSeries 1]))) l) = Some s /\
     so_name s = Some n) ["obv"] ls.
Proof.
  eexists. split; [vm_compute; reflexivity|]. eapply (C95_named _ _ user []); [exact user_wf| |vm_compute; reflexivity].
  intros p gs [H|[]]. inversion H; subst. exists b_obv. split; [apply (p_obv_shape (ext Q) _ 1)|repeat split].
Qed.

(** C96: the bodies work on shared objects, some of them in place; the outcome is that of the same steps carried out
    on plain values, where nothing is shared: same outputs, same exceptions *)
Theorem C96_as_values : forall (V : Type) (N : Num V) b (p : prog V) gs st, In b bodies -> of_body b p -> wf_store st ->
  match run p gs st, compute p gs st with
  | (st', Ok e), Ok ve => forall n, In n (pr_out p) -> exists l v,
      dget e ("o." ++ n) = Some l /\ line_at st' l = Some v /\ dget ve ("o." ++ n) = Some v
  | (_, Raise x), Raise y => x = y
  | _, _ => False
  end.
Proof. exact (@heap_is_values). Qed.
Print Assumptions C96_as_values.
(** ... so that obv, which changes a line in place, delivers what the model of obv says, for all closes and volumes *)
Theorem C96_obv : forall (V : Type) (N : Num V) (st : store V) talib n kc kv c v, wf_store st ->
  nth_error (sers st) kc = Some c -> nth_error (sers st) kv = Some v ->
  exists e l, snd (run (p_obv talib n) [GSeries kc; GSeries kv] st) = Ok e /\ dget e "o.obv" = Some l /\
    line_at (fst (run (p_obv talib n) [GSeries kc; GSeries kv] st)) l =
      Some (obv talib n (raw (so_vals c)) (raw (so_vals v))).
Proof. exact obv_program. Qed.
Print Assumptions C96_obv.
Example C96_met := C96_obv _ _ user true 1 0 1 _ _ user_wf eq_refl eq_refl.
Example C96_computed : obv true 1 (raw [q 10; q 12; q 11; q 13]) (raw [q 100; q 200; q 300; q 400]) =
  mkLine 1%Z [q 100; q 300; q 0; q 400].
Proof. vm_compute. reflexivity. Qed.
(** ... and sar, which runs a loop over buffers and writes into one of them, delivers what the model of sar says, or
    raises what it says, for all highs and lows, also when they start at different bars *)
Theorem C96_sar : forall (V : Type) (N : Num V) (st : store V) AF AX g1 g2 h l, wf_store st ->
  given_line st g1 = Some h -> given_line st g2 = Some l -> (1 <= lmp h)%Z ->
  match sar AF AX h l with
  | Ok r => exists e o, snd (run (p_sar AF AX) [g1; g2] st) = Ok e /\ dget e "o.sar" = Some o /\
              line_at (fst (run (p_sar AF AX) [g1; g2] st)) o = Some r
  | Raise x => snd (run (p_sar AF AX) [g1; g2] st) = Raise x
  end.
Proof. exact sar_program. Qed.
Print Assumptions C96_sar.
Definition bars : store (ext Q) :=
  mkStore [mkS (Some "H") [q 10; q 12; q 11; q 13; q 14]; mkS (Some "L") [NaN; q 11; q 9; q 12; q 12]]
          [mkL 2%Z "low" 1; mkL 5%Z "late" 1].
Example bars_wf : wf_store bars.
Proof. intros o [<-|[<-|[]]]; cbn; auto with arith. Qed.
Example C96_sar_met := C96_sar _ _ bars (q 1) (q 2) (GSeries 0) (GLine 0) _ _ bars_wf eq_refl eq_refl (Z.le_refl 1).
Example C96_sar_computed : exists a b c, match sar (q 1) (q 2) (raw [q 10; q 12; q 11; q 13; q 14]) (mkLine 2%Z [NaN; q 11; q 9; q 12; q 12]) with
  | Ok r => r = mkLine 3%Z [NaN; NaN; Fin a; Fin b; Fin c] | Raise _ => False end.
Proof. do 3 eexists. vm_compute. reflexivity. Qed.
Example C96_sar_raises :
  exists x, sar (q 1) (q 2) (raw [q 10; q 12; q 11; q 13; q 14]) (mkLine 5%Z [NaN; q 11; q 9; q 12; q 12]) = Raise x.
Proof. eexists. vm_compute. reflexivity. Qed.
(** the agreement depends on the bodies too: with two names for one line, of which one is changed in place, it fails *)
Definition p_alias : prog (ext Q) :=
  mkProg ["close"] ["x"]
    [SOp ["a"] ["i.close"] (op1 (fun c => diff c 1)); SBind "b" "a"; SPeriod "a" [] (fun _ => Ok (-1)%Z) false (Some v1);
     SWrap "o.x" "b" "x"].
Example C96_alias : exists st' e ve l, run p_alias [GSeries 0] user = (st', Ok e) /\ dget e "o.x" = Some l /\
  compute p_alias [GSeries 0] user = Ok ve /\
  line_at st' l = Some (mkLine 1%Z [q 1; q 2; q (-1); q 2]) /\
  dget ve "o.x" = Some (mkLine 2%Z [NaN; q 2; q (-1); q 2]) /\
  check (mkBody "x" ["close"] ["x"] (map (@shape_of (ext Q)) (pr_steps p_alias))) = false.
Proof.
  do 4 eexists. split; [vm_compute; reflexivity|]. split; [vm_compute; reflexivity|]. split; [vm_compute; reflexivity|].
  vm_compute. auto.
Qed.
