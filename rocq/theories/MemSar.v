(** The steps of sar with the values they compute. *)
From Coq Require Import ZArith List Bool String Lia.
From Verif Require Import Num Series Line Apply Py IndSar Mem Bodies MemSpec MemFacts MemFacts2 PropMemFacts MemObv.
Import ListNotations.
Local Open Scope string_scope.
Local Open Scope list_scope.
Local Open Scope nat_scope.

(** *** A program with a loop over buffers: sar on high and low *)
Section Sar.
  Context {V : Type} {N : Num V}.
  (** sar.py:42-84: the function reads the buffers of high and low and writes its result into
      the third one, which it returns; with fewer than two bars it raises before that *)
  Definition sar_buf (AF AFMAX : V) (bufs : list (list V)) : list (list V) * res (list (list V)) :=
    match bufs with
    | [h; l; b] => match sarize AF AFMAX h l with
                   | Ok r => ([h; l; r], Ok [r])
                   | Raise x => (bufs, Raise x)
                   end
    | _ => (bufs, Raise TypeError)
    end.
  (** sar.py:38-40 *)
  Definition sar_steps (AF AFMAX : V) : list (stmt V) :=
    [SOp ["t1"] ["i.high"] (op1 (fun h => mkLine (lmp h) (map (fun _ => vnan) (lser h)))); SBind "sarbuf" "t1";
     SApply ["t2"] "i.high" true false [("i.low", false); ("sarbuf", true)] (sar_buf AF AFMAX); SBind "sar" "t2";
     SPeriod "sar" [] (fun _ => Ok 1%Z) false None;
     SWrap "o.sar" "sar" "sar"].
  Definition p_sar (AF AFMAX : V) : prog V := mkProg ["high"; "low"] ["sar"] (sar_steps AF AFMAX).
End Sar.
Lemma p_sar_shape : forall V (N : Num V) AF AX, of_body b_sar (p_sar AF AX) /\ In b_sar bodies.
Proof. intros. split; [repeat split|]. vm_compute. intuition. Qed.

Lemma sar_program : forall (V : Type) (N : Num V) (st : store V) AF AX g1 g2 h l, wf_store st ->
  given_line st g1 = Some h -> given_line st g2 = Some l -> (1 <= lmp h)%Z ->
  match sar AF AX h l with
  | Ok r => exists e o, snd (run (p_sar AF AX) [g1; g2] st) = Ok e /\ dget e "o.sar" = Some o /\
              line_at (fst (run (p_sar AF AX) [g1; g2] st)) o = Some r
  | Raise x => snd (run (p_sar AF AX) [g1; g2] st) = Raise x
  end.
Proof.
  intros V N st AF AX g1 g2 h l W G1 G2 P.
  destruct (p_sar_shape V N AF AX) as [B1 B2].
  pose proof (heap_is_values [g1; g2] B2 B1 W) as H.
  assert (E : match sar AF AX h l with
              | Ok r => exists ve, compute (p_sar AF AX) [g1; g2] st = Ok ve /\ dget ve "o.sar" = Some r
              | Raise x => compute (p_sar AF AX) [g1; g2] st = Raise x
              end).
  { unfold compute. cbn [p_sar pr_in pr_steps given_env]. rewrite G1, G2. cbn [option_map given_env].
    assert (M : top_mp [h; l; mkLine (lmp h) (map (fun _ => vnan) (lser h))] = max_mp h [l]).
    { unfold top_mp, max_mp. cbn [fold_left lmp]. lia. }
    unfold sar_steps. cbn -[top_mp stored max_mp]. rewrite M.
    unfold sar, apply_. cbn [map]. cbv zeta.
    destruct (sarize AF AX (slice_from (lser h) (max_mp h [l] - 1)) (slice_from (lser l) (max_mp h [l] - 1))) as [r|x]; cbn -[top_mp stored max_mp]; [|reflexivity].
    eexists. split; [reflexivity|]. cbn -[top_mp stored max_mp]. unfold stored. rewrite M. cbn [len1]. unfold clone.
    destruct (Z.eqb_spec (max_mp h [l]) 0) as [Q|Q]; [unfold max_mp in Q; cbn in Q; lia|]. reflexivity. }
  destruct (sar AF AX h l) as [r|x].
  - destruct E as [ve [E1 E2]]. rewrite E1 in H.
    destruct (run (p_sar AF AX) [g1; g2] st) as [st' [e|x]]; [|destruct H].
    destruct (H "sar" (or_introl eq_refl)) as [o [u [H1 [H2 H3]]]]. exists e, o. cbn [fst snd].
    split; [reflexivity|]. split; [exact H1|]. rewrite H2, <- H3. exact E2.
  - rewrite E in H. destruct (run (p_sar AF AX) [g1; g2] st) as [st' [e|y]]; [destruct H|]. cbn. now subst.
Qed.
