(** From the check of the bodies to histories of computations. *)
From Coq Require Import ZArith List Bool String Arith Lia.
From Verif Require Import Num Series Line Apply Py PyFacts Mem MemSpec MemFacts.
Import ListNotations.
Set Implicit Arguments.
Local Open Scope string_scope.
Local Open Scope list_scope.
Local Open Scope nat_scope.

(** outputs are only bound by an assignment under their own name *)
Definition plain_name (x : string) : bool := negb (String.prefix "o." x).
Definition name_ok (s : shape) : bool :=
  match s with
  | HOp dsts _ => forallb plain_name dsts
  | HBind dst _ => plain_name dst
  | HWrap dst _ name => String.eqb dst ("o." ++ name)
  | HApply dsts _ _ _ _ => forallb plain_name dsts
  | _ => true
  end.
Definition check (b : body) : bool := check_body b && forallb name_ok (b_steps b).

Lemma plain_not_o : forall x n, plain_name x = true -> ("o." ++ n)%string <> x.
Proof. intros x n H E. subst x. unfold plain_name in H. cbn in H. destruct n; discriminate. Qed.

Section Facts2.
  Context {V : Type} {N : Num V}.
  Notation line := (line V).
  Notation store := (store V).
  Implicit Types (st : store) (e : env) (ve : venv (V:=V)).

  (** *** well-formed stores *)
  Lemma fresh_wf : forall st v, wf_store st -> wf_store (fst (fresh st v)).
  Proof.
    intros st v W o H. cbn [fresh fst sers lins] in *. rewrite app_length. cbn. apply in_app_iff in H.
    destruct H as [H|[<-|[]]]; [apply W in H; lia|cbn; lia].
  Qed.
  Lemma freshes_wf : forall dsts vs st e, wf_store st -> wf_store (fst (freshes st e dsts vs)).
  Proof.
    induction dsts as [|d dsts IH]; intros [|v vs] st e W; cbn [freshes]; try exact W.
    pose proof (fresh_wf v W) as W'. destruct (fresh st v) as [st' l]. apply IH. exact W'.
  Qed.
  Lemma set_vals_wf : forall st k vs, wf_store st -> wf_store (set_vals st k vs).
  Proof. intros st k vs W o H. cbn in *. rewrite upd_length. apply W. exact H. Qed.
  Lemma in_upd : forall A (f : A -> A) l k x, In x (upd l k f) -> In x l \/ exists y, In y l /\ x = f y.
  Proof.
    induction l as [|a l IH]; intros [|k] x H; cbn in *; try tauto.
    - destruct H as [<-|H]; [right; eauto|auto].
    - destruct H as [<-|H]; [auto|]. destruct (IH _ _ H) as [G|[y [G E]]]; [auto|right; eauto].
  Qed.
  Lemma set_mp_wf : forall st l mp, wf_store st -> wf_store (set_mp st l mp).
  Proof.
    intros st l mp W o H. cbn in *. destruct (in_upd _ _ _ _ H) as [G|[y [G ->]]]; [apply W; exact G|].
    cbn. apply W. exact G.
  Qed.
  Lemma write_back_wf : forall ws bufs idx st e, wf_store st -> wf_store (write_back st e idx ws bufs).
  Proof.
    induction ws as [|[x w] ws IH]; intros [|b bufs] idx st e W; cbn [write_back]; try exact W.
    apply IH. destruct w; [|exact W]. destruct (ser_of st e x); [|exact W].
    destruct (nth_error (sers st) n); [|exact W]. apply set_vals_wf. exact W.
  Qed.
  Lemma exec_wf : forall s st e, wf_store st -> wf_store (fst (exec s st e)).
  Proof.
    intros s st e W. destruct s; cbn [exec]; try exact W.
    - destruct (looks st e args) as [ls|]; [|exact W]. destruct (f ls) as [rs|]; [|exact W]. destruct (_ =? _); [|exact W].
      pose proof (freshes_wf dsts rs e W) as F. destruct (freshes st e dsts rs). exact F.
    - destruct (dget e src); exact W.
    - destruct (dget e src) as [l|]; [|exact W]. destruct (nth_error (lins st) l) as [o|] eqn:O; [|exact W].
      cbn. intros o' H. cbn in *. apply in_app_iff in H. destruct H as [H|[<-|[]]]; [apply W; exact H|].
      cbn. apply W. eapply nth_error_In. exact O.
    - destruct (looks st e (x :: args)) as [ls|]; [|exact W]. destruct (f ls); [|exact W].
      destruct (dget e x); [|exact W]. destruct (ser_of st e x); [|exact W]. destruct ls; [exact W|].
      cbn [fst]. apply set_mp_wf. destruct val; [apply set_vals_wf|]; exact W.
    - destruct (looks st e (self :: map fst args)) as [ls|]; [|exact W].
      set (vs := map _ ls). destruct (f vs) as [bufs r].
      set (st1 := write_back _ _ _ _ _). assert (W1 : wf_store st1) by (apply write_back_wf; exact W).
      destruct r as [rs|]; [|exact W1]. destruct (_ =? _); [|exact W1].
      pose proof (freshes_wf dsts (map (stored ls) rs) e W1) as F. destruct (freshes st1 e dsts _). exact F.
  Qed.
  Lemma execs_wf : forall p st e, wf_store st -> wf_store (fst (execs p st e)).
  Proof.
    induction p as [|s p IH]; intros st e W; cbn [execs]; [exact W|].
    pose proof (exec_wf s e W) as W1. destruct (exec s st e) as [st1 [e1|x]]; cbn [fst] in *; [apply IH|]; exact W1.
  Qed.
  Lemma take_wf : forall st0 names gs st e, wf_store st0 -> wf_store st -> sers st = sers st0 ->
    wf_store (fst (take_inputs st0 st e names gs)).
  Proof.
    intros st0. induction names as [|n names IH]; intros [|g gs] st e W0 W S; cbn [take_inputs]; try exact W.
    destruct (input_of st0 g) as [[mp k]|] eqn:I; [|exact W]. apply IH; [exact W0| |exact S].
    intros o H. cbn [lins sers] in *. apply in_app_iff in H. destruct H as [H|[<-|[]]]; [apply W; exact H|].
    cbn. rewrite S. destruct g; cbn [input_of] in I.
    - destruct (k0 <? List.length (sers st0)) eqn:L; [|discriminate]. inversion I; subst. apply Nat.ltb_lt. exact L.
    - destruct (nth_error (lins st0) l) eqn:O; [|discriminate]. inversion I; subst. apply W0.
      eapply nth_error_In. exact O.
  Qed.
  Lemma run_wf : forall p gs st, wf_store st -> wf_store (fst (run p gs st)).
  Proof.
    intros p gs st W. unfold run. pose proof (take_wf (pr_in p) gs [] W W eq_refl) as T.
    destruct (take_inputs st st [] (pr_in p) gs) as [st1 [e|x]]; cbn [fst] in *; [apply execs_wf|]; exact T.
  Qed.

  (** *** names of the outputs *)
  Definition named st e : Prop := forall n l, dget e ("o." ++ n) = Some l ->
    exists o, nth_error (lins st) l = Some o /\ lo_name o = n.
  Lemma freshes_named : forall dsts vs st e, forallb plain_name dsts = true -> named st e ->
    named (fst (freshes st e dsts vs)) (snd (freshes st e dsts vs)).
  Proof.
    induction dsts as [|d dsts IH]; intros [|v vs] st e P H; cbn [freshes]; try exact H.
    cbn in P. apply andb_true_iff in P. destruct P as [P1 P2].
    cbn [fresh]. apply IH; [exact P2|]. intros n l E.
    rewrite dget_dset_other in E by (apply plain_not_o; exact P1). destruct (H _ _ E) as [o [O E']].
    exists o. split; [|exact E']. cbn [lins]. rewrite nth_error_app1; [exact O|]. apply nth_error_Some. congruence.
  Qed.
  Lemma write_back_lins : forall ws bufs idx st e, lins (write_back st e idx ws bufs) = lins st.
  Proof.
    induction ws as [|[x w] ws IH]; intros [|b bufs] idx st e; cbn [write_back]; try reflexivity.
    rewrite IH. destruct w; [|reflexivity]. destruct (ser_of st e x); [|reflexivity].
    destruct (nth_error (sers st) n); reflexivity.
  Qed.
  Lemma exec_named : forall (s : stmt V) st e e', name_ok (shape_of s) = true -> named st e ->
    snd (exec s st e) = Ok e' -> named (fst (exec s st e)) e'.
  Proof.
    intros s st e e' P H E. destruct s; cbn [exec shape_of name_ok] in *.
    - destruct (looks st e args) as [ls|]; [|discriminate E]. destruct (f ls) as [rs|]; [|discriminate E].
      destruct (_ =? _); [|discriminate E]. pose proof (freshes_named dsts rs P H) as F.
      destruct (freshes st e dsts rs). cbn in *. inversion E; subst. exact F.
    - destruct (dget e src); [|discriminate E]. cbn in *. inversion E; subst. intros n0 l0 G.
      rewrite dget_dset_other in G by (apply plain_not_o; exact P). apply H. exact G.
    - destruct (dget e src) as [l|]; [|discriminate E]. destruct (nth_error (lins st) l) as [o|] eqn:O; [|discriminate E].
      cbn in *. inversion E; subst. apply String.eqb_eq in P. subst dst. intros n0 l0 G. cbn [lins].
      destruct (String.eqb_spec ("o." ++ n0) ("o." ++ name)) as [Q|Q].
      + rewrite Q in G. rewrite dget_dset_same in G. inversion G; subst; clear G.
        exists (mkL (lo_mp o) name (lo_ser o)). rewrite nth_error_app2, Nat.sub_diag by lia. split; [reflexivity|].
        cbn in *. congruence.
      + rewrite dget_dset_other in G by exact Q. destruct (H _ _ G) as [o' [O' E']]. exists o'. split; [|exact E'].
        rewrite nth_error_app1; [exact O'|]. apply nth_error_Some. congruence.
    - destruct (looks st e (x :: args)) as [ls|]; [|discriminate E]. destruct (f ls) as [a|]; [|discriminate E].
      destruct (dget e x) as [l|]; [|discriminate E]. destruct (ser_of st e x) as [n|]; [|discriminate E].
      destruct ls as [|v ls]; [discriminate E|]. cbn [fst snd] in *. inversion E; subst. intros m i G.
      destruct (H _ _ G) as [o [O E']]. cbn [set_mp lins].
      assert (L : lins match val with Some _ => set_vals st n (lser (period_ v a rolling val)) | None => st end = lins st)
        by (destruct val; reflexivity). rewrite L.
      destruct (Nat.eq_dec i l) as [->|Ne].
      + eexists. split; [apply upd_same; exact O|exact E'].
      + exists o. rewrite upd_other by exact Ne. auto.
    - destruct (looks st e (self :: map fst args)) as [ls|]; [|discriminate E].
      set (vs := map _ ls) in *. destruct (f vs) as [bufs r].
      set (st1 := write_back _ _ _ _ _) in *.
      assert (H1 : named st1 e).
      { intros n l G. unfold st1. rewrite write_back_lins. apply H. exact G. }
      destruct r as [rs|]; [|discriminate E]. destruct (_ =? _); [|discriminate E].
      pose proof (freshes_named dsts (map (stored ls) rs) P H1) as F. destruct (freshes st1 e dsts _). cbn in *.
      inversion E; subst. exact F.
    - discriminate E.
  Qed.
  Lemma execs_named : forall (p : list (stmt V)) st e e', forallb name_ok (map shape_of p) = true -> named st e ->
    snd (execs p st e) = Ok e' -> named (fst (execs p st e)) e'.
  Proof.
    induction p as [|s p IH]; intros st e e' P H E; cbn [execs map forallb] in *; [cbn in *; inversion E; subst; exact H|].
    apply andb_true_iff in P. destruct P as [P1 P2].
    pose proof (@exec_named s st e) as X. destruct (exec s st e) as [st1 [e1|x]]; cbn [fst snd] in *; [|discriminate E].
    apply IH; [exact P2| |exact E]. apply X; auto.
  Qed.

  (** *** the inputs *)
  Lemma take_ok : forall st0 names gs st e A,
    let u := List.length (sers st0) in let ul := List.length (lins st0) in
    wf_store st0 -> Inv u ul st e A -> sers st = sers st0 ->
    let r := take_inputs st0 st e names gs in
    sers (fst r) = sers st0 /\ kept u ul st (fst r) /\
    (forall e', snd r = Ok e' -> Inv u ul (fst r) e' (a_inputs A names)) /\
    (forall ve, Rel ul st ve A ->
       match snd r, given_env st0 ve names gs with
       | Ok _, Ok ve' => Rel ul (fst r) ve' (a_inputs A names)
       | Raise x, Raise y => x = y
       | _, _ => False
       end).
  Proof.
    intros st0 names. induction names as [|n names IH]; intros gs st e A u ul W I S; cbn [take_inputs given_env a_inputs].
    - cbn. split; [exact S|]. split; [apply kept_refl|]. split; [|auto]. intros e' E. inversion E; subst. exact I.
    - destruct gs as [|g gs].
      { cbn. split; [exact S|]. split; [apply kept_refl|]. split; [discriminate|auto]. }
      destruct (input_of st0 g) as [[mp k]|] eqn:G.
      2:{ cbn. split; [exact S|]. split; [apply kept_refl|]. split; [discriminate|]. intros ve R.
          assert (GL : given_line st0 g = None).
          { destruct g; cbn [input_of given_line] in *.
            - destruct (k <? _) eqn:L; [discriminate|]. apply Nat.ltb_ge in L. apply nth_error_None in L. rewrite L. reflexivity.
            - unfold line_at. destruct (nth_error (lins st0) l); [discriminate|reflexivity]. }
          rewrite GL. reflexivity. }
      (* the new line *)
      assert (K : k < u).
      { destruct g; cbn [input_of] in G.
        - destruct (k0 <? _) eqn:L; [|discriminate]. inversion G; subst. apply Nat.ltb_lt. exact L.
        - destruct (nth_error (lins st0) l) eqn:O; [|discriminate]. inversion G; subst. apply W. eapply nth_error_In.
          exact O. }
      destruct (nth_error (sers st0) k) as [sv|] eqn:SV; [|apply nth_error_None in SV; unfold u in K; lia].
      assert (GL : given_line st0 g = Some (mkLine mp (so_vals sv))).
      { destruct g; cbn [input_of given_line] in *.
        - destruct (k0 <? _) eqn:L; [|discriminate]. inversion G; subst. rewrite SV. reflexivity.
        - unfold line_at. destruct (nth_error (lins st0) l) eqn:O; [|discriminate]. inversion G; subst. rewrite SV.
          reflexivity. }
      rewrite GL. cbn [fst snd].
      set (st1 := mkStore (sers st) (lins st ++ [mkL mp n k])).
      set (A1 := mkAbs (dset (a_env A) ("i." ++ n) (List.length (a_lins A))) (a_lins A ++ [None]) (a_n A)).
      assert (HL : List.length (lins st) = ul + List.length (a_lins A)) by apply (I_lins I).
      assert (I1 : Inv u ul st1 (dset e ("i." ++ n) (List.length (lins st))) A1).
      { constructor; cbn [st1 A1 a_lins a_n a_env sers lins].
        - rewrite !app_length. cbn. lia.
        - apply I.
        - intros i so Hi. destruct (Nat.lt_ge_cases i (List.length (a_lins A))) as [L|L].
          + rewrite nth_error_app1 in Hi by exact L. destruct (I_cor I _ Hi) as [o [O C]].
            exists o. split; [rewrite nth_error_app1 by lia; exact O|exact C].
          + rewrite nth_error_app2 in Hi by exact L. destruct (i - List.length (a_lins A)) as [|q] eqn:Q.
            2:{ cbn in Hi. destruct q; discriminate. }
            cbn in Hi. inversion Hi; subst so. exists (mkL mp n k). split; [|exact K].
            rewrite nth_error_app2 by lia. replace (ul + i - List.length (lins st)) with 0 by lia. reflexivity.
        - intros x i Hx. rewrite app_length. cbn [List.length].
          destruct (String.eqb_spec x ("i." ++ n)) as [->|Ne].
          + rewrite dget_dset_same in Hx. rewrite dget_dset_same. inversion Hx; subst. split; [f_equal; lia|lia].
          + rewrite dget_dset_other in Hx by exact Ne. rewrite dget_dset_other by exact Ne.
            destruct (I_env I _ Hx). split; [assumption|lia].
        - apply dset_nodup. apply (I_nd I). }
      destruct (IH gs st1 _ A1 W I1 S) as [S2 [K2 [I2 R2]]].
      split; [exact S2|]. split; [|split; [exact I2|]].
      + refine (kept_trans _ K2). split; intros i Hi; cbn [st1 sers lins]; [reflexivity|]. apply nth_error_app1. lia.
      + intros ve R. apply R2. intros x i Hx. cbn [A1 a_env] in Hx.
        destruct (String.eqb_spec x ("i." ++ n)) as [->|Ne].
        * rewrite dget_dset_same in Hx. rewrite dget_dset_same. inversion Hx; subst; clear Hx. eexists. split; [|reflexivity].
          unfold line_at. cbn [st1 sers lins]. rewrite nth_error_app2 by lia.
          replace (List.length (lins st0) + List.length (a_lins A) - List.length (lins st)) with 0 by (unfold ul in HL; lia). cbn [nth_error lo_ser lo_mp].
          rewrite S, SV. reflexivity.
        * rewrite dget_dset_other in Hx by exact Ne. rewrite dget_dset_other by exact Ne.
          destruct (R _ _ Hx) as [v [E1 E2]]. exists v. split; [|exact E2].
          pose proof (@line_at_grow _ st [] [mkL mp n k] _ _ E1) as G'. rewrite app_nil_r in G'. exact G'.
  Qed.

  Lemma empty_inv : forall st, Inv (List.length (sers st)) (List.length (lins st)) st [] (mkAbs [] [] 0).
  Proof.
    intros st. constructor; cbn; try lia; try (intros; discriminate); [|constructor].
    intros j so H. destruct j; discriminate.
  Qed.

  (** *** the outputs *)
  Definition ser_at st (l : nat) : option nat := option_map lo_ser (nth_error (lins st) l).
  Lemma outs_ok_spec : forall u ul st e A names seen, Inv u ul st e A -> outs_ok A names seen = true ->
    exists ls ks, outs_of e names = Ok ls /\ map (ser_at st) ls = map Some ks /\
      (forall k, In k ks -> u <= k /\ ~ In (k - u) seen) /\ NoDup ks /\
      Forall2 (fun n l => dget e ("o." ++ n) = Some l) names ls /\ Forall (fun l => ul <= l) ls.
  Proof.
    intros u ul st e A names. induction names as [|n names IH]; intros seen I H; cbn [outs_ok outs_of] in *.
    - exists [], []. split; [reflexivity|]. split; [reflexivity|]. split; [intros ? []|]. split; [constructor|]. split; constructor.
    - destruct (a_ser A ("o." ++ n)) as [[j [s|]]|] eqn:S; try discriminate H.
      apply andb_true_iff in H. destruct H as [H1 H2].
      destruct (a_ser_spec _ _ S) as [S1 S2]. destruct (I_env I _ S1) as [E1 L1]. rewrite E1.
      destruct (I_cor I _ S2) as [o [O [C1 C2]]].
      destruct (IH _ I H2) as [ls [ks [E2 [M [B [Nd [F1 F2]]]]]]]. rewrite E2. cbn [bind].
      exists (ul + j :: ls), (u + s :: ks). split; [reflexivity|]. split.
      { cbn [map]. rewrite M. f_equal. unfold ser_at. rewrite O. cbn. congruence. }
      split; [|split; [|split]].
      + intros k [<-|K].
        * split; [lia|]. replace (u + s - u) with s by lia. intros F. apply negb_true_iff in H1.
          assert (X : existsb (Nat.eqb s) seen = true) by (apply existsb_exists; exists s; split; [exact F|apply Nat.eqb_refl]).
          congruence.
        * destruct (B _ K) as [B1 B2]. split; [exact B1|]. intros F. apply B2. right. exact F.
      + constructor; [|exact Nd]. intros F. destruct (B _ F) as [_ B2]. apply B2. left. lia.
      + constructor; assumption.
      + constructor; [lia|exact F2].
  Qed.

  (** *** a call *)
  Lemma call_ok : forall b (p : prog V) gs st, check b = true -> of_body b p -> wf_store st ->
    let r := run p gs st in
    untouched st (fst r) /\
    (forall e, snd r = Ok e ->
       exists ls ks, outs_of e (pr_out p) = Ok ls /\ map (ser_at (fst r)) ls = map Some ks /\
         (forall k, In k ks -> List.length (sers st) <= k) /\ NoDup ks /\
         Forall (fun l => List.length (lins st) <= l) ls /\
         Forall2 (fun n l => dget e ("o." ++ n) = Some l /\
                             exists o, nth_error (lins (fst r)) l = Some o /\ lo_name o = n) (pr_out p) ls) /\
    match snd r, compute p gs st with
    | Ok e, Ok ve => forall n, In n (pr_out p) -> exists l v,
        dget e ("o." ++ n) = Some l /\ line_at (fst r) l = Some v /\ dget ve ("o." ++ n) = Some v
    | Raise x, Raise y => x = y
    | _, _ => False
    end.
  Proof.
    intros b p gs st C [B1 [B2 B3]] W. apply andb_true_iff in C. destruct C as [C CN].
    unfold check_body in C. rewrite <- B1, <- B2, <- B3 in *. unfold run, compute.
    set (u := List.length (sers st)). set (ul := List.length (lins st)).
    destruct (take_ok (pr_in p) gs W (empty_inv st) eq_refl) as [S1 [K1 [I1 R1]]].
    fold u ul in K1, I1, R1.
    assert (R0 : Rel ul st [] (mkAbs [] [] 0)) by (intros x j H; discriminate H).
    specialize (R1 [] R0).
    assert (NI : forall names gs st1 e1 e', named st1 e1 -> snd (take_inputs st st1 e1 names gs) = Ok e' ->
                 named (fst (take_inputs st st1 e1 names gs)) e').
    { clear. induction names as [|n names IH]; intros gs st1 e1 e' H E; [cbn in *; inversion E; subst; exact H|].
      destruct gs as [|g gs]; [discriminate E|]. cbn [take_inputs] in *.
      destruct (input_of st g) as [mk|]; [|discriminate E]. apply IH; [|exact E].
      intros m l G. rewrite dget_dset_other in G by (cbn; congruence). destruct (H _ _ G) as [o [O E']].
      exists o. split; [|exact E']. cbn [lins]. rewrite nth_error_app1; [exact O|]. apply nth_error_Some. congruence. }
    specialize (NI (pr_in p) gs st []).
    destruct (take_inputs st st [] (pr_in p) gs) as [st1 [e1|x]] eqn:T; cbn [fst snd] in *.
    2:{ destruct (given_env st [] (pr_in p) gs); [contradiction|]. cbn. split; [|split; [discriminate|assumption]].
        destruct K1 as [K1 K2]. split; intros k s H; [rewrite K1|rewrite K2]; try exact H;
          apply nth_error_Some; congruence. }
    destruct (given_env st [] (pr_in p) gs) as [ve1|]; [|contradiction]. cbn [bind].
    specialize (I1 _ eq_refl).
    destruct (a_run (map shape_of (pr_steps p)) (a_inputs (mkAbs [] [] 0) (pr_in p))) as [oA|] eqn:AR; [|discriminate C].
    destruct (run_ok _ I1 AR) as [K2 [I2 R2]]. specialize (R2 _ R1).
    assert (N2 : forall e', snd (execs (pr_steps p) st1 e1) = Ok e' -> named (fst (execs (pr_steps p) st1 e1)) e').
    { intros e' E. apply execs_named; [exact CN| |exact E]. apply NI; [|reflexivity]. intros n l H. discriminate H. }
    destruct (execs (pr_steps p) st1 e1) as [st2 r2] eqn:X. cbn [fst snd] in *.
    pose proof (kept_trans K1 K2) as [K3 K4].
    split; [split; intros k s H; [rewrite K3|rewrite K4]; try exact H; apply nth_error_Some; congruence|].
    split.
    - intros e E. destruct (I2 _ E) as [A [-> IA]].
      destruct (outs_ok_spec _ _ IA C) as [ls [ks [O1 [O2 [O3 [O4 [O5 O6]]]]]]].
      exists ls, ks. split; [exact O1|]. split; [exact O2|]. split; [intros k Hk; apply (O3 _ Hk)|].
      split; [exact O4|]. split; [exact O6|].
      specialize (N2 _ E). clear - O5 N2. induction O5; constructor; auto.
    - destruct r2 as [e|x]; destruct (vexecs (pr_steps p) ve1) as [ve|y]; try contradiction; try assumption.
      destruct R2 as [A [-> RA]]. destruct (I2 _ eq_refl) as [A' [EA IA]]. inversion EA; subst A'; clear EA.
      intros n Hn. destruct (outs_ok_spec _ _ IA C) as [ls [ks [_ [_ [_ [_ [O5 _]]]]]]].
      assert (L : a_ser A ("o." ++ n) <> None).
      { clear - C Hn. revert C. generalize (@nil nat). induction (pr_out p) as [|m l IH]; intros seen C; [destruct Hn|].
        cbn [outs_ok] in C. destruct (a_ser A ("o." ++ m)) as [[j [s|]]|] eqn:E; try discriminate C.
        apply andb_true_iff in C. destruct Hn as [<-|Hn]; [congruence|]. eapply IH; [exact Hn|apply C]. }
      destruct (a_ser A ("o." ++ n)) as [[j so]|] eqn:E; [|congruence].
      destruct (a_ser_spec _ _ E) as [E1 E2]. destruct (I_env IA _ E1) as [E3 _]. destruct (RA _ _ E1) as [v [V1 V2]].
      eauto.
  Qed.
End Facts2.
