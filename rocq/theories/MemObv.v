(** The steps of obv with the values they compute. *)
From Coq Require Import ZArith List Bool String.
From Verif Require Import Num Series Line Apply Py IndVol Mem Bodies MemSpec MemFacts MemFacts2 PropMemFacts.
Import ListNotations.
Local Open Scope string_scope.
Local Open Scope list_scope.
Local Open Scope nat_scope.

(** *** An actual program: obv on a close and a volume Series *)
Section Obv.
  Context {V : Type} {N : Num V}.
  Definition op1 (f : line V -> line V) (ls : list (line V)) : res (list (line V)) :=
    match ls with [a] => Ok [f a] | _ => Raise TypeError end.
  Definition op2 (f : line V -> line V -> line V) (ls : list (line V)) : res (list (line V)) :=
    match ls with [a; b] => Ok [f a b] | _ => Raise TypeError end.
  (** obv.py:42-49 *)
  Definition obv_steps (talib : bool) (n : nat) : list (stmt V) :=
    [SOp ["t1"] ["i.close"] (op1 (fun c => diff c (Z.of_nat n))); SBind "close1" "t1"] ++
    (if talib then [SPeriod "close1" [] (fun _ => Ok (-1)%Z) false (Some v1)] else []) ++
    [SOp ["t2"] ["i.volume"; "close1"] (op2 (fun v c => stdop ser_cumsum (lmul v (mapop vsign c))));
     SWrap "o.obv" "t2" "obv"].
  Definition p_obv (talib : bool) (n : nat) : prog V := mkProg ["close"; "volume"] ["obv"] (obv_steps talib n).
End Obv.
Lemma p_obv_shape : forall V (N : Num V) n, of_body b_obv (p_obv true n) /\ of_body b_obv_1 (p_obv false n) /\
  In b_obv bodies /\ In b_obv_1 bodies.
Proof. intros. split; [repeat split|]. split; [repeat split|]. split; vm_compute; intuition. Qed.

Lemma obv_program : forall (V : Type) (N : Num V) (st : store V) talib n kc kv c v, wf_store st ->
  nth_error (sers st) kc = Some c -> nth_error (sers st) kv = Some v ->
  exists e l, snd (run (p_obv talib n) [GSeries kc; GSeries kv] st) = Ok e /\ dget e "o.obv" = Some l /\
    line_at (fst (run (p_obv talib n) [GSeries kc; GSeries kv] st)) l =
      Some (obv talib n (raw (so_vals c)) (raw (so_vals v))).
Proof.
  intros V N st talib n kc kv c v W C D.
  set (b := if talib then b_obv else b_obv_1).
  assert (B : In b bodies /\ of_body b (p_obv talib n)).
  { destruct (p_obv_shape V N n) as [A1 [A2 [A3 A4]]]. destruct talib; auto. }
  pose proof (heap_is_values [GSeries kc; GSeries kv] (proj1 B) (proj2 B) W) as H.
  assert (E : exists ve, compute (p_obv talib n) [GSeries kc; GSeries kv] st = Ok ve /\
            dget ve "o.obv" = Some (obv talib n (raw (so_vals c)) (raw (so_vals v)))).
  { unfold compute. cbn [p_obv pr_in pr_steps given_env given_line]. rewrite C, D. cbn [option_map given_env].
    destruct talib; eexists; (split; [reflexivity|reflexivity]). }
  destruct E as [ve [E1 E2]]. rewrite E1 in H.
  destruct (run (p_obv talib n) [GSeries kc; GSeries kv] st) as [st' [e|x]]; [|destruct H].
  destruct (H "obv" (or_introl eq_refl)) as [l [u [H1 [H2 H3]]]]. exists e, l. cbn [fst snd].
  split; [reflexivity|]. split; [exact H1|]. rewrite H2. rewrite <- H3. exact E2.
Qed.
