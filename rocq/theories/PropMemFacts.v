(** Histories of computations and readings. *)
From Coq Require Import ZArith List Bool String Arith Lia.
From Verif Require Import Num Series Line Apply Py PyFacts Mem MemSpec MemFacts MemFacts2 Bodies.
Import ListNotations.
Set Implicit Arguments.
Local Open Scope string_scope.
Local Open Scope list_scope.
Local Open Scope nat_scope.

Lemma bodies_checked : forall b, In b bodies -> check b = true.
Proof. apply forallb_forall. vm_compute. reflexivity. Qed.

Lemma nodup_map_inj : forall (l : list nat) (g : nat -> option nat) ks, map g l = map Some ks -> NoDup ks ->
  forall x y, In x l -> In y l -> g x = g y -> x = y.
Proof.
  induction l as [|a l IH]; intros g ks M Nd x y Hx Hy E; [destruct Hx|].
  destruct ks as [|k ks]; [discriminate M|]. cbn in M. inversion M as [[M1 M2]]. inversion Nd; subst.
  assert (G : forall z, In z l -> g z <> g a).
  { intros z Hz F. apply H1. rewrite M1 in F. apply (in_map g) in Hz. rewrite M2, F in Hz.
    apply in_map_iff in Hz. destruct Hz as [q [Q1 Q2]]. inversion Q1; subst. exact Q2. }
  destruct Hx as [<-|Hx], Hy as [<-|Hy]; auto.
  - exfalso. apply (G _ Hy). auto.
  - exfalso. apply (G _ Hx). auto.
  - eapply IH; eassumption.
Qed.

Section Histories.
  Context {V : Type} {N : Num V}.
  Notation store := (store V).
  Notation world := (world V).
  Notation event := (event V).
  Implicit Types (st : store) (w : world).

  (** reading *)
  Lemma read_lins : forall st l, lins (fst (read_line st l)) = lins st.
  Proof. intros st l. unfold read_line. destruct (nth_error (lins st) l); reflexivity. Qed.
  Lemma read_len : forall st l, List.length (sers (fst (read_line st l))) = List.length (sers st).
  Proof. intros st l. unfold read_line. destruct (nth_error (lins st) l); cbn; [apply upd_length|reflexivity]. Qed.
  Lemma read_other : forall st l k, ser_at st l <> Some k ->
    nth_error (sers (fst (read_line st l))) k = nth_error (sers st) k.
  Proof.
    intros st l k H. unfold read_line, ser_at in *. destruct (nth_error (lins st) l); [|reflexivity]. cbn in *.
    apply upd_other. congruence.
  Qed.
  Lemma read_vals : forall st l k s, nth_error (sers st) k = Some s ->
    exists s', nth_error (sers (fst (read_line st l))) k = Some s' /\ so_vals s' = so_vals s.
  Proof.
    intros st l k s H. unfold read_line. destruct (nth_error (lins st) l) as [o|]; [|eauto]. cbn.
    destruct (Nat.eq_dec k (lo_ser o)) as [->|Ne].
    - eexists. split; [apply upd_same; exact H|reflexivity].
    - exists s. rewrite upd_other by exact Ne. auto.
  Qed.
  Lemma read_result : forall st l o s, nth_error (lins st) l = Some o -> nth_error (sers st) (lo_ser o) = Some s ->
    snd (read_line st l) = Some (mkS (Some (lo_name o)) (so_vals s)) /\
    nth_error (sers (fst (read_line st l))) (lo_ser o) = Some (mkS (Some (lo_name o)) (so_vals s)).
  Proof.
    intros st l o s O S. unfold read_line. rewrite O. cbn. rewrite (upd_same _ _ _ S). split; reflexivity.
  Qed.

  (** what never changes: lines, values, and the names once they are set *)
  Definition tagged st l : Prop :=
    exists o s, nth_error (lins st) l = Some o /\ nth_error (sers st) (lo_ser o) = Some s /\ so_name s = Some (lo_name o).
  Definition grows w w' : Prop :=
    (forall l o, nth_error (lins (w_st w)) l = Some o -> nth_error (lins (w_st w')) l = Some o) /\
    (forall k s, nth_error (sers (w_st w)) k = Some s ->
       exists s', nth_error (sers (w_st w')) k = Some s' /\ so_vals s' = so_vals s) /\
    (exists t, w_inds w' = w_inds w ++ t) /\
    (forall l, In l (List.concat (w_inds w)) -> tagged (w_st w) l -> tagged (w_st w') l).
  Definition base (n0 : nat) w w' : Prop :=
    forall k, k < n0 -> nth_error (sers (w_st w')) k = nth_error (sers (w_st w)) k.
  Definition WI (n0 : nat) w : Prop :=
    wf_store (w_st w) /\ n0 <= List.length (sers (w_st w)) /\
    exists ks, map (ser_at (w_st w)) (List.concat (w_inds w)) = map Some ks /\ NoDup ks /\ forall k, In k ks -> n0 <= k.

  Lemma grows_refl : forall w, grows w w.
  Proof. intros w. split; [auto|]. split; [eauto|]. split; [exists []; rewrite app_nil_r; reflexivity|auto]. Qed.
  Lemma grows_trans : forall a b c, grows a b -> grows b c -> grows a c.
  Proof.
    intros a b c [A1 [A2 [[t A3] A4]]] [B1 [B2 [[t' B3] B4]]]. split; [auto|]. split; [|split].
    - intros k s H. destruct (A2 _ _ H) as [s1 [H1 E1]]. destruct (B2 _ _ H1) as [s2 [H2 E2]]. exists s2.
      split; [exact H2|congruence].
    - exists (t ++ t'). rewrite B3, A3, app_assoc. reflexivity.
    - intros l H T. apply B4; [|auto]. rewrite A3, concat_app. apply in_app_iff. auto.
  Qed.

  Lemma read_step : forall n0 w l, WI n0 w -> In l (List.concat (w_inds w)) ->
    let w' := mkW (fst (read_line (w_st w) l)) (w_inds w) in
    WI n0 w' /\ grows w w' /\ base n0 w w'.
  Proof.
    intros n0 w l [W [L [ks [M [Nd B]]]]] Hl w'. subst w'.
    assert (HS : exists k, ser_at (w_st w) l = Some k /\ In k ks).
    { pose proof (in_map (ser_at (w_st w)) _ _ Hl) as H. rewrite M in H. apply in_map_iff in H.
      destruct H as [k [E H]]. eauto. }
    destruct HS as [k0 [E0 K0]]. split; [|split].
    - split; [|split]; cbn [w_st w_inds].
      + intros o H. rewrite read_lins in H. rewrite read_len. apply W. exact H.
      + rewrite read_len. exact L.
      + exists ks. split; [|auto]. rewrite <- M. apply map_ext. intros a. unfold ser_at. rewrite read_lins. reflexivity.
    - split; [|split; [|split]]; cbn [w_st w_inds].
      + intros i o H. rewrite read_lins. exact H.
      + intros k s H. apply read_vals. exact H.
      + exists []. rewrite app_nil_r. reflexivity.
      + intros i Hi [o [s [O [S T]]]]. destruct (Nat.eq_dec i l) as [->|Ne].
        * destruct (read_result _ _ O S) as [_ R]. exists o, (mkS (Some (lo_name o)) (so_vals s)).
          rewrite read_lins. auto.
        * exists o, s. rewrite read_lins. split; [exact O|]. split; [|exact T].
          rewrite read_other; [exact S|]. intros F. apply Ne.
          apply (nodup_map_inj _ _ M Nd _ _ Hi Hl). rewrite F. unfold ser_at. rewrite O. reflexivity.
    - intros k K. cbn [w_st]. apply read_other. intros F. rewrite E0 in F. inversion F; subst. apply B in K0. lia.
  Qed.
  Lemma read_steps : forall n0 ls w, WI n0 w -> (forall l, In l ls -> In l (List.concat (w_inds w))) ->
    let w' := mkW (read_lines (w_st w) ls) (w_inds w) in
    WI n0 w' /\ grows w w' /\ base n0 w w'.
  Proof.
    intros n0. induction ls as [|l ls IH]; intros w H Hl; cbn [read_lines].
    - destruct w as [st inds]. cbn. split; [exact H|]. split; [apply grows_refl|]. intros k K. reflexivity.
    - destruct (@read_step n0 w l H (Hl l (or_introl eq_refl))) as [W1 [G1 B1]].
      destruct (IH (mkW (fst (read_line (w_st w) l)) (w_inds w)) W1) as [W2 [G2 B2]].
      { intros l' H'. apply Hl. right. exact H'. }
      cbn [w_st w_inds] in *. split; [exact W2|]. split; [eapply grows_trans; eassumption|].
      intros k K. rewrite B2, B1 by exact K. reflexivity.
  Qed.

  Lemma make_step : forall n0 w b (p : prog V) gs, WI n0 w -> check b = true -> of_body b p ->
    let w' := step w (EMake p gs) in
    WI n0 w' /\ grows w w' /\ untouched (w_st w) (w_st w') /\
    (forall e, snd (run p gs (w_st w)) = Ok e ->
       exists ls, w_inds w' = w_inds w ++ [ls] /\
         Forall2 (fun n l => exists o, nth_error (lins (w_st w')) l = Some o /\ lo_name o = n) (pr_out p) ls).
  Proof.
    intros n0 w b p gs [W [L [ks [M [Nd B]]]]] C OB. cbn [step].
    destruct (call_ok gs C OB W) as [U [O _]]. pose proof (run_wf p gs W) as W'.
    destruct (run p gs (w_st w)) as [st' r] eqn:R. cbn [fst snd] in *. destruct U as [U1 U2].
    assert (Len : List.length (sers (w_st w)) <= List.length (sers st')).
    { destruct (List.length (sers (w_st w))) as [|m] eqn:Q; [lia|].
      assert (Hm : m < List.length (sers (w_st w))) by lia. apply nth_error_Some in Hm.
      destruct (nth_error (sers (w_st w)) m) as [s|] eqn:E; [|congruence].
      apply U1 in E. assert (Hm' : m < List.length (sers st')) by (apply nth_error_Some; congruence). lia. }
    assert (M' : map (ser_at st') (List.concat (w_inds w)) = map Some ks).
    { rewrite <- M. apply map_ext_in. intros l Hl. pose proof (in_map (ser_at (w_st w)) _ _ Hl) as H.
      rewrite M in H. apply in_map_iff in H. destruct H as [k [E _]]. rewrite <- E. unfold ser_at in *.
      destruct (nth_error (lins (w_st w)) l) as [o|] eqn:Q; [|discriminate]. rewrite (U2 _ _ Q). exact (eq_sym E). }
    assert (KU : forall k, In k ks -> k < List.length (sers (w_st w))).
    { intros k Hk. apply (in_map Some) in Hk. rewrite <- M in Hk. apply in_map_iff in Hk. destruct Hk as [l [E Hl]].
      unfold ser_at in E. destruct (nth_error (lins (w_st w)) l) as [o|] eqn:Q; [|discriminate]. inversion E; subst.
      apply W. eapply nth_error_In. exact Q. }
    assert (G0 : forall inds t, inds = w_inds w ++ t -> grows w (mkW st' inds)).
    { intros inds t E. split; [|split; [|split]]; cbn [w_st w_inds].
      - exact U2.
      - intros k s H. exists s. split; [apply U1; exact H|reflexivity].
      - exists t. exact E.
      - intros l _ [o [s [T1 [T2 T3]]]]. exists o, s. auto. }
    assert (Bad : let w' := mkW st' (w_inds w) in WI n0 w' /\ grows w w' /\ untouched (w_st w) (w_st w')).
    { cbn. split; [|split].
      - split; [exact W'|]. cbn [w_st w_inds]. split; [lia|]. exists ks. auto.
      - apply (G0 _ []). rewrite app_nil_r. reflexivity.
      - split; assumption. }
    destruct r as [e|x].
    2:{ destruct Bad as [B1 [B2 B3]]. split; [exact B1|]. split; [exact B2|]. split; [exact B3|]. discriminate. }
    destruct (O _ eq_refl) as [ls [ks' [O1 [O2 [O3 [O4 [O5 O6]]]]]]]. rewrite O1.
    split; [|split; [|split]].
    - split; [exact W'|]. cbn [w_st w_inds]. split; [lia|]. exists (ks ++ ks'). split; [|split].
      + rewrite concat_app, !map_app, M'. cbn [List.concat map]. rewrite app_nil_r, O2. reflexivity.
      + clear - Nd O4 KU O3. induction ks as [|k ks IH]; [exact O4|]. inversion Nd; subst. cbn. constructor.
        * intros F. apply in_app_iff in F. destruct F as [F|F]; [contradiction|].
          apply O3 in F. specialize (KU k (or_introl eq_refl)). lia.
        * apply IH; [assumption|]. intros k' H'. apply KU. right. exact H'.
      + intros k Hk. apply in_app_iff in Hk. destruct Hk as [Hk|Hk]; [apply B; exact Hk|]. apply O3 in Hk. lia.
    - apply (G0 _ [ls]). reflexivity.
    - split; assumption.
    - intros e' E. exists ls. cbn [w_st w_inds]. split; [reflexivity|]. clear - O6.
      induction O6 as [|n l ns ls' [_ H] F IH]; constructor; auto.
  Qed.

  Lemma in_inds : forall (l : nat) ls k inds, nth_error inds k = Some ls -> In l ls -> In l (List.concat inds).
  Proof.
    intros l ls k inds H I. apply nth_error_In in H. apply in_concat. eauto.
  Qed.
  Lemma any_step : forall bs n0 w ev, (forall b, In b bs -> check b = true) -> WI n0 w -> calls_only bs [ev] ->
    WI n0 (step w ev) /\ grows w (step w ev) /\ base n0 w (step w ev).
  Proof.
    intros bs n0 w ev C H CO. destruct ev as [p gs|k|k j].
    - destruct (CO p gs (or_introl eq_refl)) as [b [Hb OB]].
      destruct (make_step gs H (C _ Hb) OB) as [H1 [G1 [[U1 U2] _]]]. split; [exact H1|]. split; [exact G1|].
      intros k K. destruct H as [_ [L _]]. destruct (nth_error (sers (w_st w)) k) as [s|] eqn:E; [exact (U1 _ _ E)|].
      apply nth_error_None in E. lia.
    - cbn [step]. destruct (nth_error (w_inds w) k) as [ls|] eqn:E.
      + apply read_steps; [exact H|]. intros l Hl. eapply in_inds; eassumption.
      + split; [exact H|]. split; [apply grows_refl|]. intros i Hi. reflexivity.
    - cbn [step]. destruct (nth_error (w_inds w) k) as [ls|] eqn:E.
      2:{ split; [exact H|]. split; [apply grows_refl|]. intros i Hi. reflexivity. }
      destruct (nth_error ls j) as [l|] eqn:J.
      2:{ split; [exact H|]. split; [apply grows_refl|]. intros i Hi. reflexivity. }
      apply read_step; [exact H|]. eapply in_inds; [exact E|]. eapply nth_error_In. exact J.
  Qed.
  Lemma history_ok : forall bs n0 evs w, (forall b, In b bs -> check b = true) -> WI n0 w -> calls_only bs evs ->
    WI n0 (history w evs) /\ grows w (history w evs) /\ base n0 w (history w evs).
  Proof.
    intros bs n0 evs. induction evs as [|ev evs IH]; intros w C H CO; cbn [history fold_left].
    - split; [exact H|]. split; [apply grows_refl|]. intros k K. reflexivity.
    - destruct (@any_step bs n0 w ev C H) as [H1 [G1 B1]].
      { intros p gs [E|[]]. apply (CO p gs). left. exact E. }
      destruct (IH (step w ev) C H1) as [H2 [G2 B2]].
      { intros p gs E. apply (CO p gs). right. exact E. }
      split; [exact H2|]. split; [eapply grows_trans; eassumption|].
      intros k K. unfold history in B2. rewrite B2, B1 by exact K. reflexivity.
  Qed.
  Lemma start_ok : forall st, wf_store st -> WI (List.length (sers st)) (mkW st []).
  Proof. intros st W. split; [exact W|]. split; [cbn; lia|]. exists []. cbn. split; [reflexivity|]. split; [constructor|intros ? []]. Qed.
  Lemma history_app : forall w (e1 e2 : list event), history w (e1 ++ e2) = history (history w e1) e2.
  Proof. intros. apply fold_left_app. Qed.
  Lemma calls_app : forall bs (e1 e2 : list event), calls_only bs (e1 ++ e2) -> calls_only bs e1 /\ calls_only bs e2.
  Proof. intros bs e1 e2 H. split; intros p gs I; apply (H p gs); apply in_app_iff; auto. Qed.

  (** *** the properties *)
  Lemma inputs_untouched : forall st (evs : list event), wf_store st -> calls_only bodies evs ->
    untouched st (w_st (history (mkW st []) evs)).
  Proof.
    intros st evs W CO. destruct (history_ok bodies_checked (start_ok W) CO) as [_ [G B]].
    split.
    - intros k s H. rewrite B; [exact H|]. apply nth_error_Some. cbn. congruence.
    - intros l o H. apply G. exact H.
  Qed.

  Lemma later_untouched : forall st (evs : list event) (p : prog V) gs, wf_store st ->
    calls_only bodies (evs ++ [EMake p gs]) ->
    let w := history (mkW st []) evs in
    untouched (w_st w) (w_st (step w (EMake p gs))).
  Proof.
    intros st evs p gs W CO w. destruct (calls_app _ _ CO) as [C1 C2].
    destruct (history_ok bodies_checked (start_ok W) C1) as [H1 _]. fold w in H1.
    destruct (C2 p gs (or_introl eq_refl)) as [b [Hb OB]].
    exact (proj1 (proj2 (proj2 (make_step gs H1 (bodies_checked Hb) OB)))).
  Qed.

  Lemma line_grows : forall w w' l v, grows w w' -> line_at (w_st w) l = Some v -> line_at (w_st w') l = Some v.
  Proof.
    intros w w' l v [G1 [G2 _]] H. unfold line_at in *.
    destruct (nth_error (lins (w_st w)) l) as [o|] eqn:O; [|discriminate]. rewrite (G1 _ _ O).
    destruct (nth_error (sers (w_st w)) (lo_ser o)) as [s|] eqn:S; [|discriminate].
    destruct (G2 _ _ S) as [s' [S' E]]. rewrite S', E. exact H.
  Qed.
  Lemma output_line : forall n0 w k j l, WI n0 w -> output w k j l ->
    exists o s, nth_error (lins (w_st w)) l = Some o /\ nth_error (sers (w_st w)) (lo_ser o) = Some s.
  Proof.
    intros n0 w k j l [W [L [ks [M _]]]] [ls [E J]].
    assert (Hl : In l (List.concat (w_inds w))) by (eapply in_inds; [exact E|eapply nth_error_In; exact J]).
    apply (in_map (ser_at (w_st w))) in Hl. rewrite M in Hl. apply in_map_iff in Hl. destruct Hl as [i [Q _]].
    unfold ser_at in Q. destruct (nth_error (lins (w_st w)) l) as [o|] eqn:O; [|discriminate]. exists o.
    destruct (nth_error (sers (w_st w)) (lo_ser o)) as [s|] eqn:S; [eauto|].
    apply nth_error_None in S. apply nth_error_In in O. apply W in O. lia.
  Qed.
  Lemma output_grows : forall w w' k j l, grows w w' -> output w k j l -> output w' k j l.
  Proof.
    intros w w' k j l [_ [_ [[t E] _]]] [ls [H J]]. exists ls. split; [|exact J]. rewrite E.
    rewrite nth_error_app1; [exact H|]. apply nth_error_Some. congruence.
  Qed.

  Lemma results_stable : forall st (evs1 evs2 : list event) k j l, wf_store st -> calls_only bodies (evs1 ++ evs2) ->
    let w1 := history (mkW st []) evs1 in
    let w2 := history (mkW st []) (evs1 ++ evs2) in
    output w1 k j l ->
    output w2 k j l /\
    (exists v, line_at (w_st w1) l = Some v /\ line_at (w_st w2) l = Some v) /\
    (exists s, snd (read_line (w_st w1) l) = Some s /\ snd (read_line (w_st w2) l) = Some s).
  Proof.
    intros st evs1 evs2 k j l W CO w1 w2 H. subst w2. rewrite history_app. fold w1.
    destruct (calls_app _ _ CO) as [C1 C2].
    destruct (history_ok bodies_checked (start_ok W) C1) as [H1 _]. fold w1 in H1.
    destruct (history_ok bodies_checked H1 C2) as [_ [G _]].
    destruct (output_line H1 H) as [o [s [O S]]].
    split; [eapply output_grows; eassumption|]. split.
    - exists (mkLine (lo_mp o) (so_vals s)). assert (E : line_at (w_st w1) l = Some (mkLine (lo_mp o) (so_vals s))).
      { unfold line_at. rewrite O, S. reflexivity. }
      split; [exact E|]. eapply line_grows; eassumption.
    - exists (mkS (Some (lo_name o)) (so_vals s)). split; [apply (read_result _ _ O S)|].
      destruct G as [G1 [G2 _]]. destruct (G2 _ _ S) as [s' [S' E]].
      destruct (read_result _ _ (G1 _ _ O) S') as [R _]. rewrite R, E. reflexivity.
  Qed.

  Lemma object_stable : forall st (evs1 evs2 : list event) k j l s, wf_store st -> calls_only bodies (evs1 ++ evs2) ->
    let w1 := history (mkW st []) evs1 in
    output w1 k j l -> snd (read_line (w_st w1) l) = Some s ->
    exists i, List.length (sers st) <= i /\
      nth_error (sers (w_st (step w1 (EReadLine k j)))) i = Some s /\
      nth_error (sers (w_st (history (mkW st []) (evs1 ++ EReadLine k j :: evs2)))) i = Some s.
  Proof.
    intros st evs1 evs2 k j l s W CO w1 H R.
    destruct (calls_app _ _ CO) as [C1 C2].
    destruct (history_ok bodies_checked (start_ok W) C1) as [H1 _]. fold w1 in H1.
    destruct (output_line H1 H) as [o [s0 [O S]]].
    destruct (read_result _ _ O S) as [R1 R2]. rewrite R1 in R. inversion R; subst s; clear R.
    exists (lo_ser o).
    assert (ST : step w1 (EReadLine k j) = mkW (fst (read_line (w_st w1) l)) (w_inds w1)).
    { destruct H as [ls [E J]]. cbn [step]. rewrite E, J. reflexivity. }
    destruct H as [ls [E J]].
    assert (Hl : In l (List.concat (w_inds w1))) by (eapply in_inds; [exact E|eapply nth_error_In; exact J]).
    split; [|split].
    - destruct H1 as [_ [_ [ks [M [_ B]]]]]. apply (in_map (ser_at (w_st w1))) in Hl. rewrite M in Hl.
      apply in_map_iff in Hl. destruct Hl as [i [Q Hi]]. unfold ser_at in Q. rewrite O in Q. inversion Q; subst.
      apply B. exact Hi.
    - rewrite ST. exact R2.
    - rewrite history_app. fold w1. cbn [history fold_left]. rewrite ST.
      destruct (@read_step _ _ _ H1 Hl) as [H2 _].
      destruct (history_ok bodies_checked H2 C2) as [_ [[G1 [G2 [_ G4]]] _]].
      destruct (G4 l Hl) as [o' [s' [O' [S' T]]]].
      { exists o, (mkS (Some (lo_name o)) (so_vals s0)). cbn [w_st]. rewrite read_lins. auto. }
      assert (O2 : nth_error (lins (w_st (history (mkW (fst (read_line (w_st w1) l)) (w_inds w1)) evs2))) l = Some o).
      { apply G1. cbn [w_st]. rewrite read_lins. exact O. }
      rewrite O2 in O'. inversion O'; subst o'. destruct (G2 _ _ R2) as [s2 [S2 E2]]. rewrite S2 in S'.
      inversion S'; subst s'. unfold history in S2. rewrite S2. destruct s2 as [nm vs]. cbn in *. congruence.
  Qed.

  Lemma outputs_named : forall st (evs : list event) (p : prog V) gs e, wf_store st ->
    calls_only bodies (evs ++ [EMake p gs]) ->
    let w := history (mkW st []) evs in
    snd (run p gs (w_st w)) = Ok e ->
    exists ls, w_inds (step w (EMake p gs)) = w_inds w ++ [ls] /\
      Forall2 (fun n l => exists s, snd (read_line (w_st (step w (EMake p gs))) l) = Some s /\ so_name s = Some n)
              (pr_out p) ls.
  Proof.
    intros st evs p gs e W CO w R. destruct (calls_app _ _ CO) as [C1 C2].
    destruct (history_ok bodies_checked (start_ok W) C1) as [H1 _]. fold w in H1.
    destruct (C2 p gs (or_introl eq_refl)) as [b [Hb OB]].
    destruct (make_step gs H1 (bodies_checked Hb) OB) as [H2 [_ [_ O]]].
    destruct (O _ R) as [ls [E F]]. exists ls. split; [exact E|].
    assert (Q : forall l, In l ls -> exists k j, output (step w (EMake p gs)) k j l).
    { intros l Hl. destruct (In_nth_error _ _ Hl) as [j J]. exists (List.length (w_inds w)), j, ls.
      rewrite E, nth_error_app2, Nat.sub_diag by lia. split; [reflexivity|exact J]. }
    clear - H2 F Q. induction F as [|n l ns ls' [o [O E]] F IH]; constructor.
    - destruct (Q l (or_introl eq_refl)) as [k [j P]]. destruct (output_line H2 P) as [o' [s [O' S]]].
      rewrite O in O'. inversion O'; subst o'. destruct (read_result _ _ O S) as [R _]. eexists. split; [exact R|].
      cbn. congruence.
    - apply IH. intros l' H'. apply Q. right. exact H'.
  Qed.

  Lemma heap_is_values : forall b (p : prog V) gs st, In b bodies -> of_body b p -> wf_store st ->
    match run p gs st, compute p gs st with
    | (st', Ok e), Ok ve => forall n, In n (pr_out p) -> exists l v,
        dget e ("o." ++ n) = Some l /\ line_at st' l = Some v /\ dget ve ("o." ++ n) = Some v
    | (_, Raise x), Raise y => x = y
    | _, _ => False
    end.
  Proof.
    intros b p gs st Hb OB W. destruct (call_ok gs (bodies_checked Hb) OB W) as [_ [_ H]].
    destruct (run p gs st) as [st' [e|x]]; cbn [fst snd] in H; exact H.
  Qed.
End Histories.

Lemma unassigned : forall (V : Type) (N : Num V) (w : world V) (p : prog V) gs e n,
  snd (run p gs (w_st w)) = Ok e -> In n (pr_out p) -> dget e ("o." ++ n) = None ->
  outs_of e (pr_out p) = Raise AttributeError /\ w_inds (step w (EMake p gs)) = w_inds w.
Proof.
  intros V N w p gs e n R I D.
  assert (O : outs_of e (pr_out p) = Raise AttributeError).
  { induction (pr_out p) as [|m l IH]; [destruct I|]. cbn [outs_of]. destruct (String.eqb_spec m n) as [->|Ne].
    - now rewrite D.
    - destruct (dget e ("o." ++ m)); [|reflexivity]. rewrite IH; [reflexivity|]. destruct I; [congruence|assumption]. }
  split; [exact O|]. cbn [step]. destruct (run p gs (w_st w)) as [st' r]. cbn [snd] in R. subst r. now rewrite O.
Qed.
