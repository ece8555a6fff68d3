(** C117, C118: what stays in memory, and looking at the inputs of an indicator. *)
From Coq Require Import ZArith QArith List Bool String Lia.
From Verif Require Import Num Series Line Apply Py IndVol Mem Bodies MemSpec MemObv Keep KeepSpec KeepFacts TightFacts.
Import ListNotations.
Local Open Scope string_scope.
Local Open Scope list_scope.
Local Open Scope nat_scope.

(** C117: every Series passed to an indicator and the Series of every output stay in use for ever, whatever the caller
    drops, also when the call has failed *)
Theorem C117_stays_refuted : forall (V : Type) (N : Num V) (st : store V) evs1 (p : prog V) gs evs2 s,
  let w1 := khistory (start st) evs1 in
  input_of_call p gs (k_st w1) s \/ output_of_call p gs (k_st w1) s ->
  in_use (khistory (start st) (evs1 ++ KMake p gs :: evs2)) s.
Proof. exact @stays. Qed.
Print Assumptions C117_stays_refuted.
(** C117: nothing else does: when the caller has dropped everything, the Series in use are exactly these.  Intermediate
    results are released *)
Theorem C117_exactly : forall (V : Type) (N : Num V) (st : store V) evs s, all_dropped (khistory (start st) evs) ->
  (in_use (khistory (start st) evs) s <->
   exists evs1 p gs evs2, evs = evs1 ++ KMake p gs :: evs2 /\
     let w1 := khistory (start st) evs1 in
     (input_of_call p gs (k_st w1) s \/ output_of_call p gs (k_st w1) s)).
Proof. exact @use_exactly. Qed.
Print Assumptions C117_exactly.
(** C117: every call leaves two entries in the tables of the library, one if its inputs were refused; nothing removes
    any *)
Theorem C117_growth : forall (V : Type) (N : Num V) (w : kworld V) ev,
  (forall p gs, ev = KMake p gs ->
     (refused p gs (k_st w) -> List.length (k_reg (kstep w ev)) = S (List.length (k_reg w))) /\
     (~ refused p gs (k_st w) -> List.length (k_reg (kstep w ev)) = S (S (List.length (k_reg w))))) /\
  ((forall p gs, ev <> KMake p gs) -> k_reg (kstep w ev) = k_reg w).
Proof. exact @registry_grows. Qed.
Print Assumptions C117_growth.

(** C117: the Series of an output or of an input which the caller has read stays in use until the caller drops it *)
Theorem C117_held : forall (V : Type) (N : Num V) (w : kworld V) k j l s evs,
  series_of (k_st w) l = Some s -> (forall e, In e evs -> e <> KForget s) ->
  (pick (w_inds (k_w w)) k j = Some l -> in_use (khistory (kstep w (KRead k j)) evs) s) /\
  (pick (k_ins w) k j = Some l -> in_use (khistory (kstep w (KLook k j)) evs) s).
Proof. exact @read_held. Qed.
Print Assumptions C117_held.
(** C117: and so does every Series the caller had at the start, used in a call or not *)
Theorem C117_own : forall (V : Type) (N : Num V) (st : store V) s evs,
  s < List.length (sers st) -> (forall e, In e evs -> e <> KForget s) -> in_use (khistory (start st) evs) s.
Proof. exact @own_held. Qed.
Print Assumptions C117_own.

(** closes and volumes; obv is computed, read, computed again with wrong inputs, and all is dropped *)
Definition q (z : Z) : ext Q := Fin (inject_Z z).
Definition user : store (ext Q) :=
  mkStore [mkS (Some "AAPL") [q 10; q 12; q 11; q 13]; mkS (Some "Vol") [q 100; q 200; q 300; q 400];
           mkS (Some "other") [q 1]] [].
Example user_wf : wf_store user.
Proof. intros o []. Qed.
Definition use : list (kevent (ext Q)) :=
  [KMake (p_obv true 1) [GSeries 0; GSeries 1]; KRead 0 0; KMake (p_obv true 1) [GSeries 2]].
Definition drop : list (kevent (ext Q)) := [KForget 0; KForget 1; KForget 2; KForget 4; KDrop 0].
Definition used := khistory (start user) (use ++ drop).
Example used_fine : kcalls_only bodies (use ++ drop).
Proof.
  intros p gs H. cbn in H.
  destruct H as [H|[H|[H|[H|[H|[H|[H|[H|[]]]]]]]]]; try discriminate H; inversion H; subst.
  - exists b_obv. split; [apply (p_obv_shape (ext Q) _ 1)|repeat split].
  - exists b_obv. split; [apply (p_obv_shape (ext Q) _ 1)|repeat split].
Qed.
(** the Series 3, an intermediate result, and 2, which was refused, are released; the others never are *)
Example C117_run : all_dropped used /\ List.length (sers (k_st used)) = 5 /\ k_reg used = [[4]; [0; 1]; []] /\
  in_use used 0 /\ in_use used 1 /\ in_use used 4 /\ ~ in_use used 2 /\ ~ in_use used 3 /\
  nth_error (sers (k_st used)) 4 = Some (mkS (Some "obv") [q 100; q 300; q 0; q 400]).
Proof.
  assert (U : forall s, in_use used s <-> s = 4 \/ s = 0 \/ s = 1).
  { intros s. unfold in_use, mine, by_result. replace (k_mine used) with (@nil nat) by (vm_compute; reflexivity).
    replace (k_refs used) with (@nil nat) by (vm_compute; reflexivity).
    unfold by_library, holds. replace (k_reg used) with [[4]; [0; 1]; []] by (vm_compute; reflexivity). split.
    - intros [[]|[(k & c & [] & _)|(c & l & [<-|[<-|[<-|[]]]] & H & E)]].
      + destruct H as [<-|[]]. vm_compute in E. inversion E. auto.
      + destruct H as [<-|[<-|[]]]; vm_compute in E; inversion E; auto.
      + destruct H.
    - intros H. right. right. destruct H as [->|[->| ->]].
      + exists [4], 4. repeat split; cbn; auto.
      + exists [0; 1], 0. repeat split; cbn; auto.
      + exists [0; 1], 1. repeat split; cbn; auto. }
  rewrite !U. split; [split; vm_compute; reflexivity|]. split; [vm_compute; reflexivity|]. split; [vm_compute; reflexivity|].
  split; [auto|]. split; [auto|]. split; [auto|]. split; [lia|]. split; [lia|]. vm_compute. reflexivity.
Qed.
Example C117_met : input_of_call (p_obv true 1) [GSeries 0; GSeries 1] (k_st (khistory (start user) [])) 1 /\
  output_of_call (p_obv true 1) [GSeries 0; GSeries 1] (k_st (khistory (start user) [])) 4 /\
  refused (p_obv true 1) [GSeries 2] user /\ ~ refused (p_obv true 1) [GSeries 0; GSeries 1] user.
Proof.
  split.
  - split; [do 2 eexists; vm_compute; reflexivity|]. exists 1, (GSeries 1), 1%Z. repeat split; cbn; auto with arith.
  - split.
    + do 2 eexists. exists 4. split; [vm_compute; reflexivity|]. split; vm_compute; auto.
    + split; [do 2 eexists; vm_compute; reflexivity|]. intros (a & b & H). vm_compute in H. discriminate H.
Qed.

Example C117_held_met :
  let w := khistory (start user) [KMake (p_obv true 1) [GSeries 0; GSeries 1]] in
  pick (w_inds (k_w w)) 0 0 <> None /\ pick (k_ins w) 0 1 <> None /\
  option_map (series_of (k_st w)) (pick (w_inds (k_w w)) 0 0) = Some (Some 4) /\
  option_map (series_of (k_st w)) (pick (k_ins w) 0 1) = Some (Some 1).
Proof. vm_compute. repeat split; discriminate. Qed.
Example C117_own_met : 2 < List.length (sers user) /\ forall e, In e use -> e <> KForget 2.
Proof. split; [cbn; lia|]. intros e [<-|[<-|[<-|[]]]]; discriminate. Qed.

(** C118: whatever is computed, read, looked at or dropped, no line and no value of any Series ever changes again *)
Theorem C118_values : forall (V : Type) (N : Num V) (st : store V) evs1 evs2, wf_store st ->
  kcalls_only bodies (evs1 ++ evs2) ->
  same_values (k_st (khistory (start st) evs1)) (k_st (khistory (start st) (evs1 ++ evs2))).
Proof. exact @look_values. Qed.
Print Assumptions C118_values.
(** C118: the Series of the caller keep their names too, unless an input is looked at *)
Theorem C118_names_partial : forall (V : Type) (N : Num V) (st : store V) evs ev k s, wf_store st ->
  kcalls_only bodies (evs ++ [ev]) -> (forall i j, ev <> KLook i j) -> nth_error (sers st) k = Some s ->
  nth_error (sers (k_st (khistory (start st) (evs ++ [ev])))) k = nth_error (sers (k_st (khistory (start st) evs))) k.
Proof. exact @others_names. Qed.
Print Assumptions C118_names_partial.
(** C118: looking at an input of a result gives the Series passed for it, the one of the caller or of an earlier output,
    the name of the input *)
Theorem C118_names_refuted : forall (V : Type) (N : Num V) (st : store V) evs1 (p : prog V) gs evs2 j n g m s x, wf_store st ->
  kcalls_only bodies (evs1 ++ KMake p gs :: evs2) ->
  let w1 := khistory (start st) evs1 in
  delivered p gs (k_st w1) = true ->
  nth_error (pr_in p) j = Some n -> nth_error gs j = Some g -> input_of (k_st w1) g = Some (m, s) ->
  nth_error (sers (k_st w1)) s = Some x ->
  let w2 := khistory (start st) (evs1 ++ KMake p gs :: evs2) in
  nth_error (sers (k_st (kstep w2 (KLook (List.length (w_inds (k_w w1))) j)))) s = Some (mkS (Some n) (so_vals x)).
Proof. exact @look_renames. Qed.
Print Assumptions C118_names_refuted.
(** C118: and changes nothing else *)
Theorem C118_look : forall (V : Type) (N : Num V) (w : kworld V) k j l o,
  pick (k_ins w) k j = Some l -> nth_error (lins (k_st w)) l = Some o ->
  let w' := kstep w (KLook k j) in
  (forall s, nth_error (sers (k_st w)) (lo_ser o) = Some s ->
     nth_error (sers (k_st w')) (lo_ser o) = Some (mkS (Some (lo_name o)) (so_vals s))) /\
  (forall i, i <> lo_ser o -> nth_error (sers (k_st w')) i = nth_error (sers (k_st w)) i) /\ lins (k_st w') = lins (k_st w).
Proof. exact @look_names. Qed.
Print Assumptions C118_look.
(** obv of the closes and volumes, then obv of that obv as close: looking at the inputs renames the Series AAPL to close
    and the Series of the first obv, which was handed out as obv, to close as well *)
Definition looks : list (kevent (ext Q)) :=
  [KMake (p_obv true 1) [GSeries 0; GSeries 1]; KRead 0 0; KMake (p_obv true 1) [GLine 4; GSeries 1]; KLook 0 0; KLook 1 0].
Example C118_run :
  option_map so_name (nth_error (sers (k_st (khistory (start user) (firstn 3 looks)))) 0) = Some (Some "AAPL") /\
  option_map so_name (nth_error (sers (k_st (khistory (start user) (firstn 3 looks)))) 4) = Some (Some "obv") /\
  nth_error (sers (k_st (khistory (start user) looks))) 0 = Some (mkS (Some "close") [q 10; q 12; q 11; q 13]) /\
  nth_error (sers (k_st (khistory (start user) looks))) 4 = Some (mkS (Some "close") [q 100; q 300; q 0; q 400]).
Proof. vm_compute. auto. Qed.
Example looks_fine : kcalls_only bodies looks.
Proof.
  intros p gs H. cbn in H. destruct H as [H|[H|[H|[H|[H|[]]]]]]; try discriminate H; inversion H; subst.
  - exists b_obv. split; [apply (p_obv_shape (ext Q) _ 1)|repeat split].
  - exists b_obv. split; [apply (p_obv_shape (ext Q) _ 1)|repeat split].
Qed.
Example C118_met := C118_names_refuted _ _ user (firstn 2 looks) (p_obv true 1) [GLine 4; GSeries 1] [KLook 0 0] 0 "close"
  (GLine 4) 1%Z 4 (mkS (Some "obv") [q 100; q 300; q 0; q 400]) user_wf
  ltac:(intros p gs H; apply (looks_fine p gs); cbn in *; tauto) eq_refl eq_refl eq_refl eq_refl eq_refl.
