(** Facts about what stays in memory. *)
From Coq Require Import ZArith List Bool String Arith Lia.
From Verif Require Import Num Series Line Apply Py PyFacts Mem Bodies MemSpec MemFacts MemFacts2 PropMemFacts Keep KeepSpec.
Import ListNotations.
Local Open Scope string_scope.
Local Open Scope list_scope.
Local Open Scope nat_scope.

Section Facts.
  Context {V : Type} {N : Num V}.
  Notation store := (store V).
  Implicit Types st : store.

  (** ** lines keep their Series, whatever is executed *)
  Definition tag_of st (l : nat) : option (string * nat) := option_map (fun o => (lo_name o, lo_ser o)) (nth_error (lins st) l).
  Definition later st st' : Prop := forall l t, tag_of st l = Some t -> tag_of st' l = Some t.
  Lemma later_ser : forall st st' l s, later st st' -> series_of st l = Some s -> series_of st' l = Some s.
  Proof.
    intros st st' l s L H. unfold series_of in H. destruct (nth_error (lins st) l) as [o|] eqn:E; [|discriminate H].
    specialize (L l (lo_name o, lo_ser o)). unfold tag_of, series_of in *. rewrite E in L. specialize (L eq_refl).
    destruct (nth_error (lins st') l) as [o'|]; [|discriminate L]. inversion L. cbn in *. congruence.
  Qed.
  Lemma later_refl : forall st, later st st.
  Proof. unfold later; auto. Qed.
  Lemma later_trans : forall a b c, later a b -> later b c -> later a c.
  Proof. unfold later; auto. Qed.
  Lemma later_app : forall st ss t, lins t = lins st ++ ss -> later st t.
  Proof.
    intros st ss t E l s H. unfold tag_of in *. rewrite E. destruct (nth_error (lins st) l) as [o|] eqn:Q; [|discriminate H].
    rewrite nth_error_app1 by (apply nth_error_Some; congruence). now rewrite Q.
  Qed.
  Lemma later_same : forall st t, lins t = lins st -> later st t.
  Proof. intros st t E. apply later_app with []. now rewrite app_nil_r. Qed.
  Lemma later_len : forall st t l s, later st t -> l < List.length (lins st) -> series_of t l = Some s -> series_of st l = Some s.
  Proof.
    intros st t l s L H E. destruct (series_of st l) as [s'|] eqn:Q.
    - pose proof (later_ser _ _ _ _ L Q). congruence.
    - unfold series_of in Q. destruct (nth_error (lins st) l) eqn:Q2; [discriminate Q|]. apply nth_error_None in Q2. lia.
  Qed.
  Lemma freshes_later : forall dsts vs st e, later st (fst (freshes st e dsts vs)) /\
    List.length (lins st) <= List.length (lins (fst (freshes st e dsts vs))).
  Proof.
    induction dsts as [|d ds IH]; intros [|v vs] st e; cbn [freshes fst]; try (split; [apply later_refl|lia]).
    unfold fresh. cbn [fst snd]. match goal with |- context [freshes ?a ?b ds vs] => destruct (IH vs a b) as [I1 I2] end.
    cbn [lins] in I2. rewrite app_length in I2. split; [|lia].
    eapply later_trans; [|exact I1]. eapply later_app. reflexivity.
  Qed.
  Definition valid st (e : env) : Prop := forall l, In l (map snd e) -> l < List.length (lins st).
  Lemma in_dset : forall (e : env) x l k, In k (map snd (dset e x l)) -> k = l \/ In k (map snd e).
  Proof.
    induction e as [|[y i] e IH]; intros x l k; cbn [dset].
    - cbn. intuition.
    - destruct (String.eqb y x); cbn [map snd In]; [intuition|]. intros [H|H]; [auto|]. apply IH in H. intuition.
  Qed.
  Lemma dget_in : forall (e : env) x l, dget e x = Some l -> In l (map snd e).
  Proof.
    induction e as [|[y i] e IH]; intros x l; cbn [dget]; [discriminate|].
    destruct (String.eqb y x); cbn [map snd In]; [intros Q; inversion Q; auto|]. intros Q. right. eapply IH; eassumption.
  Qed.
  Lemma valid_nil : forall st, valid st [].
  Proof. intros st l []. Qed.
  Lemma valid_dset : forall st t e x l, valid st e -> List.length (lins st) <= List.length (lins t) ->
    l < List.length (lins t) -> valid t (dset e x l).
  Proof. intros st t e x l Hv Le Hl k H. apply in_dset in H. destruct H as [->|H]; [exact Hl|]. apply Hv in H. lia. Qed.
  Lemma freshes_env : forall dsts vs st e, valid st e -> valid (fst (freshes st e dsts vs)) (snd (freshes st e dsts vs)).
  Proof.
    induction dsts as [|d ds IH]; intros [|v vs] st e H; cbn [freshes fst snd]; try exact H.
    unfold fresh. cbn [fst snd]. apply IH. apply valid_dset with st; [exact H| |]; cbn [lins]; rewrite app_length; cbn; lia.
  Qed.
  Lemma series_upd_mp : forall st l mp, later st (set_mp st l mp).
  Proof.
    intros st l mp k s H. unfold tag_of, set_mp in *. cbn [lins]. destruct (nth_error (lins st) k) as [o|] eqn:Q; [|discriminate H].
    destruct (Nat.eq_dec k l) as [->|Ne].
    - rewrite (upd_same _ _ _ Q). exact H.
    - rewrite upd_other by exact Ne. rewrite Q. exact H.
  Qed.

  Lemma exec_later : forall s st e, valid st e ->
    later st (fst (exec s st e)) /\ List.length (lins st) <= List.length (lins (fst (exec s st e))) /\
    forall e', snd (exec s st e) = Ok e' -> valid (fst (exec s st e)) e'.
  Proof.
    intros s st e Hv. destruct s as [dsts args f|dst src|dst src name|x args f rolling val|dsts self raw wself args f|x]; cbn [exec].
    - destruct (looks st e args) as [ls|]; [|cbn; split; [apply later_refl|split; [lia|discriminate]]].
      destruct (f ls) as [rs|]; [|cbn; split; [apply later_refl|split; [lia|discriminate]]].
      destruct (List.length rs =? List.length dsts); [|cbn; split; [apply later_refl|split; [lia|discriminate]]].
      destruct (freshes_later dsts rs st e) as [L1 L2]. pose proof (freshes_env dsts rs st e Hv) as E.
      destruct (freshes st e dsts rs) as [st' e1]. cbn [fst snd] in *. split; [exact L1|split; [exact L2|]].
      intros e' Q; inversion Q; subst. exact E.
    - destruct (dget e src) as [l|] eqn:D; cbn; (split; [apply later_refl|split; [lia|]]); [|discriminate].
      intros e' Q; inversion Q; subst. apply valid_dset with st; [exact Hv|lia|]. apply Hv. eapply dget_in; eassumption.
    - destruct (dget e src) as [l|] eqn:D; [|cbn; split; [apply later_refl|split; [lia|discriminate]]].
      destruct (nth_error (lins st) l) as [o|]; [|cbn; split; [apply later_refl|split; [lia|discriminate]]].
      unfold share. cbn [fst snd lins]. rewrite app_length. split; [eapply later_app; reflexivity|split; [lia|]].
      intros e' Q; inversion Q; subst. apply valid_dset with st; [exact Hv| |]; cbn [lins]; rewrite app_length; cbn; lia.
    - destruct (looks st e (x :: args)) as [ls|]; [|cbn; split; [apply later_refl|split; [lia|discriminate]]].
      destruct (f ls) as [p|]; [|cbn; split; [apply later_refl|split; [lia|discriminate]]].
      destruct (dget e x) as [l|]; [|cbn; split; [apply later_refl|split; [lia|discriminate]]].
      destruct (ser_of st e x) as [k|]; [|cbn; split; [apply later_refl|split; [lia|discriminate]]].
      destruct ls as [|v ls]; [cbn; split; [apply later_refl|split; [lia|discriminate]]|].
      cbn [fst snd].
      match goal with |- context [set_mp ?s1 l ?m] => assert (E1 : lins s1 = lins st) by (now destruct val);
        set (st1 := s1) in *; set (mp := m) end.
      assert (E2 : List.length (lins (set_mp st1 l mp)) = List.length (lins st))
        by (unfold set_mp; cbn [lins]; now rewrite upd_length, E1).
      split; [eapply later_trans; [apply later_same; exact E1|apply series_upd_mp]|]. split; [lia|].
      intros e' Q; inversion Q; subst. intros i R. rewrite E2. apply Hv. exact R.
    - destruct (looks st e (self :: map fst args)) as [ls|]; [|cbn; split; [apply later_refl|split; [lia|discriminate]]].
      destruct (f (map (fun v => slice_from (lser v) (top_mp ls - 1)) ls)) as [bufs r].
      match goal with |- context [write_back ?a ?b ?c ?d ?g] => pose proof (write_back_lins d g c a b) as W;
        set (st1 := write_back a b c d g) in * end.
      destruct r as [rs|]; [|cbn [fst snd]; split; [now apply later_same|split; [rewrite W; lia|discriminate]]].
      destruct (List.length rs =? List.length dsts); [|cbn [fst snd]; split; [now apply later_same|split; [rewrite W; lia|discriminate]]].
      destruct (freshes_later dsts (map (stored ls) rs) st1 e) as [L1 L2].
      assert (Hv1 : valid st1 e) by (intros i R; rewrite W; apply Hv; exact R).
      pose proof (freshes_env dsts (map (stored ls) rs) st1 e Hv1) as E.
      destruct (freshes st1 e dsts (map (stored ls) rs)) as [st' e1]. cbn [fst snd] in *.
      split; [eapply later_trans; [apply later_same; exact W|exact L1]|split; [rewrite W in L2; lia|]].
      intros e' Q; inversion Q; subst. exact E.
    - cbn. split; [apply later_refl|split; [lia|discriminate]].
  Qed.
  Lemma execs_later : forall p st e, valid st e ->
    later st (fst (execs p st e)) /\ List.length (lins st) <= List.length (lins (fst (execs p st e))) /\
    valid (fst (execs p st e)) (last_env p st e).
  Proof.
    induction p as [|s p IH]; intros st e Hv; cbn [execs last_env].
    - split; [apply later_refl|split; [reflexivity|exact Hv]].
    - destruct (exec_later s st e Hv) as (L & Le & E). destruct (exec s st e) as [st' [e'|x]]; cbn [fst snd] in *.
      + destruct (IH st' e' (E _ eq_refl)) as (L' & Le' & E'). split; [eapply later_trans; eassumption|split; [lia|exact E']].
      + split; [exact L|split; [exact Le|]]. intros l Q. apply Hv in Q. lia.
  Qed.

  (** ** the inputs *)
  Lemma take_spec : forall st0 names gs st e st1 e1, take_inputs st0 st e names gs = (st1, Ok e1) ->
    sers st1 = sers st /\
    exists ls, lins st1 = lins st ++ ls /\ List.length ls = List.length names /\
      forall j n, nth_error names j = Some n -> exists g m s, nth_error gs j = Some g /\ input_of st0 g = Some (m, s) /\
        nth_error ls j = Some (mkL m n s).
  Proof.
    intros st0. induction names as [|n names IH]; intros gs st e st1 e1 H; cbn [take_inputs] in H.
    - inversion H; subst. split; [reflexivity|]. exists []. rewrite app_nil_r. split; [reflexivity|split; [reflexivity|]].
      intros [|j] m Q; discriminate Q.
    - destruct gs as [|g gs]; [discriminate H|]. destruct (input_of st0 g) as [[m s]|] eqn:Eg; [|discriminate H].
      cbn [fst snd] in H. apply IH in H. destruct H as (Hs & ls & El & Hl & P). cbn [lins sers] in *.
      split; [exact Hs|]. exists (mkL m n s :: ls). rewrite El, <- app_assoc. split; [reflexivity|]. split; [cbn; now rewrite Hl|].
      intros [|j] x Q; cbn in Q.
      + inversion Q; subst. exists g, m, s. auto.
      + apply P in Q. destruct Q as (g' & m' & s' & A & B & C). exists g', m', s'. auto.
  Qed.
  Lemma take_any : forall st0 names gs st e, later st (fst (take_inputs st0 st e names gs)) /\
    List.length (lins st) <= List.length (lins (fst (take_inputs st0 st e names gs))).
  Proof.
    intros st0. induction names as [|n names IH]; intros gs st e; cbn [take_inputs].
    - split; [apply later_refl|reflexivity].
    - destruct gs as [|g gs]; [cbn; split; [apply later_refl|reflexivity]|].
      destruct (input_of st0 g) as [[m s]|]; [|cbn; split; [apply later_refl|reflexivity]].
      match goal with |- context [take_inputs st0 ?a ?b names gs] => destruct (IH gs a b) as [I1 I2] end.
      cbn [lins fst] in I2. rewrite app_length in I2. split; [|cbn [fst] in *; lia].
      eapply later_trans; [|exact I1]. eapply later_app. reflexivity.
  Qed.
  Lemma take_valid : forall st0 names gs st e st1 e1, valid st e -> take_inputs st0 st e names gs = (st1, Ok e1) -> valid st1 e1.
  Proof.
    intros st0. induction names as [|n names IH]; intros gs st e st1 e1 Hv H; cbn [take_inputs] in H.
    - inversion H; subst. exact Hv.
    - destruct gs as [|g gs]; [discriminate H|]. destruct (input_of st0 g) as [[m s]|]; [|discriminate H].
      eapply IH; [|exact H]. apply valid_dset with st; [exact Hv| |]; cbn [lins]; rewrite app_length; cbn; lia.
  Qed.

  (** ** one call *)
  Lemma in_stored : forall (e : env) l, In l (stored_outs e) -> In l (map snd e).
  Proof.
    intros e l H. unfold stored_outs in H. apply in_map_iff in H. destruct H as (kv & <- & H). apply filter_In in H.
    apply in_map. tauto.
  Qed.
  Lemma run_later : forall (p : prog V) gs st, later st (fst (run p gs st)) /\
    List.length (lins st) <= List.length (lins (fst (run p gs st))).
  Proof.
    intros p gs st. unfold run. destruct (take_any st (pr_in p) gs st []) as [L Le].
    destruct (take_inputs st st [] (pr_in p) gs) as [st1 [e|x]] eqn:T; cbn [fst] in *; [|auto].
    destruct (execs_later (pr_steps p) st1 e (take_valid _ _ _ _ _ _ _ (valid_nil st) T)) as (L1 & L2 & _).
    split; [eapply later_trans; eassumption|lia].
  Qed.
  Lemma containers_valid : forall (p : prog V) gs st c l, In c (containers p gs st) -> In l c ->
    l < List.length (lins (fst (run p gs st))).
  Proof.
    intros p gs st c l. unfold containers, run.
    destruct (take_inputs st st [] (pr_in p) gs) as [st1 [e|x]] eqn:T.
    - destruct (take_spec _ _ _ _ _ _ _ T) as (_ & ls & El & Ll & _).
      destruct (execs_later (pr_steps p) st1 e (take_valid _ _ _ _ _ _ _ (valid_nil st) T)) as (_ & Le & Hv).
      intros [<-|[<-|[]]] H; [now apply Hv, in_stored|].
      unfold input_lines in H. apply in_seq in H. rewrite El, app_length in Le. lia.
    - intros [<-|[]] [].
  Qed.
  (** what a call registers, seen from any later store *)
  Lemma containers_spec : forall (p : prog V) gs st t s, later (fst (run p gs st)) t ->
    (holds t (containers p gs st) s <-> input_of_call p gs st s \/ output_of_call p gs st s).
  Proof.
    intros p gs st t s L. unfold holds, containers, input_of_call, output_of_call.
    destruct (take_inputs st st [] (pr_in p) gs) as [st1 [e|x]] eqn:T.
    - destruct (take_spec _ _ _ _ _ _ _ T) as (_ & ls & El & Ll & P).
      pose proof (take_valid _ _ _ _ _ _ _ (valid_nil st) T) as Hv.
      assert (R : run p gs st = execs (pr_steps p) st1 e) by (unfold run; now rewrite T).
      destruct (execs_later (pr_steps p) st1 e Hv) as (L1 & Le & Hv'). rewrite R in *.
      assert (P' : forall j, j < List.length (pr_in p) -> exists g m s', nth_error gs j = Some g /\ input_of st g = Some (m, s') /\
                series_of t (List.length (lins st) + j) = Some s').
      { intros j Hj. destruct (nth_error (pr_in p) j) as [n|] eqn:En; [|apply nth_error_None in En; lia].
        destruct (P _ _ En) as (g & m & s' & A & B & C). exists g, m, s'. split; [exact A|split; [exact B|]].
        apply (later_ser _ _ _ _ L), (later_ser _ _ _ _ L1). unfold series_of. rewrite El, nth_error_app2 by lia. replace (_ + j - _) with j by lia. now rewrite C. }
      split.
      + intros (c & l & [<-|[<-|[]]] & Hl & Es).
        * right. exists st1, e, l. split; [reflexivity|]. split; [exact Hl|].
          eapply later_len; [exact L| |exact Es]. apply Hv'. now apply in_stored.
        * left. split; [eauto|]. unfold input_lines in Hl. apply in_seq in Hl.
          destruct (P' (l - List.length (lins st))) as (g & m & s' & A & B & C); [lia|].
          replace (_ + (l - _)) with l in C by lia. rewrite C in Es. inversion Es; subst s'.
          exists (l - List.length (lins st)), g, m. split; [lia|auto].
      + intros [(_ & j & g & m & Hj & Eg & Ei)|(st1' & e' & l & Q & Hl & Es)].
        * destruct (P' j Hj) as (g' & m' & s' & A & B & C). rewrite Eg in A. inversion A; subst g'. rewrite Ei in B.
          inversion B; subst m' s'. exists (input_lines p st), (List.length (lins st) + j). split; [cbn; auto|].
          split; [apply in_seq; lia|exact C].
        * inversion Q; subst st1' e'. eexists _, l. split; [left; reflexivity|]. split; [exact Hl|]. exact (later_ser _ _ _ _ L Es).
    - split.
      + intros (c & l & [<-|[]] & [] & _).
      + intros [((st1' & e' & Q) & _)|(st1' & e' & l & Q & _)]; discriminate Q.
  Qed.

  (** ** histories *)
  Implicit Types w : kworld V.
  Lemma read_later : forall st l, later st (fst (read_line st l)).
  Proof. intros st l. apply later_same. apply read_lins. Qed.
  Lemma reads_lins : forall ls st, lins (read_lines st ls) = lins st.
  Proof. induction ls as [|l ls IH]; intros st; cbn [read_lines]; [reflexivity|]. now rewrite IH, read_lins. Qed.
  Lemma step_make_st : forall (w : world V) p gs, w_st (step w (EMake p gs)) = fst (run p gs (w_st w)).
  Proof.
    intros w p gs. cbn [step]. destruct (run p gs (w_st w)) as [st' [e|x]]; [|reflexivity].
    now destruct (outs_of e (pr_out p)).
  Qed.
  Lemma kstep_later : forall w ev, later (k_st w) (k_st (kstep w ev)) /\
    List.length (lins (k_st w)) <= List.length (lins (k_st (kstep w ev))).
  Proof.
    intros w [p gs|k|k j|k j|s|k]; cbn [kstep]; unfold k_st; cbn [k_w].
    - rewrite step_make_st. apply run_later.
    - cbn [step]. destruct (nth_error (w_inds (k_w w)) k); [|split; [apply later_refl|reflexivity]]. cbn [w_st]. rewrite reads_lins. split; [apply later_same, reads_lins|reflexivity].
    - destruct (pick (w_inds (k_w w)) k j); [|split; [apply later_refl|reflexivity]]. cbn [read_one k_w w_st]. rewrite read_lins. split; [apply read_later|reflexivity].
    - destruct (pick (k_ins w) k j); [|split; [apply later_refl|reflexivity]]. cbn [read_one k_w w_st]. rewrite read_lins. split; [apply read_later|reflexivity].
    - split; [apply later_refl|reflexivity].
    - split; [apply later_refl|reflexivity].
  Qed.
  Lemma kstep_reg : forall w ev, k_reg (kstep w ev) = k_reg w ++ match ev with KMake p gs => containers p gs (k_st w) | _ => [] end.
  Proof.
    intros w [p gs|k|k j|k j|s|k]; cbn [kstep k_reg]; rewrite ?app_nil_r; try reflexivity.
    - destruct (pick (w_inds (k_w w)) k j); reflexivity.
    - destruct (pick (k_ins w) k j); reflexivity.
  Qed.
  Lemma khistory_later : forall evs w, later (k_st w) (k_st (khistory w evs)).
  Proof.
    induction evs as [|ev evs IH]; intros w; [apply later_refl|]. cbn [khistory fold_left].
    eapply later_trans; [apply (proj1 (kstep_later w ev))|apply IH].
  Qed.
  Lemma khistory_app : forall w (a b : list (kevent V)), khistory w (a ++ b) = khistory (khistory w a) b.
  Proof. intros. unfold khistory. apply fold_left_app. Qed.

  Lemma holds_app : forall st a b s, holds st (a ++ b) s <-> holds st a s \/ holds st b s.
  Proof.
    intros st a b s. unfold holds. split.
    - intros (c & l & H & R). apply in_app_or in H. destruct H; [left|right]; eauto.
    - intros [(c & l & H & R)|(c & l & H & R)]; exists c, l; (split; [apply in_or_app; auto|exact R]).
  Qed.

  Definition reg_valid w : Prop := forall c l, In c (k_reg w) -> In l c -> l < List.length (lins (k_st w)).
  Lemma reg_valid_step : forall w ev, reg_valid w -> reg_valid (kstep w ev).
  Proof.
    intros w ev H c l. rewrite kstep_reg. intros Hc Hl. apply in_app_or in Hc. destruct (kstep_later w ev) as [_ Le].
    destruct Hc as [Hc|Hc]; [specialize (H c l Hc Hl); lia|].
    destruct ev as [p gs| | | | |]; try (destruct Hc; fail).
    unfold k_st at 1. cbn [kstep k_w]. rewrite step_make_st. eapply containers_valid; eassumption.
  Qed.
  Lemma reg_valid_history : forall evs w, reg_valid w -> reg_valid (khistory w evs).
  Proof. induction evs as [|ev evs IH]; intros w H; [exact H|]. cbn [khistory fold_left]. apply IH, reg_valid_step, H. Qed.
  Lemma reg_valid_start : forall st, reg_valid (start st).
  Proof. intros st c l []. Qed.

  Lemma library_iff : forall st evs s,
    by_library (khistory (start st) evs) s <->
    exists evs1 p gs evs2, evs = evs1 ++ KMake p gs :: evs2 /\
      let w1 := khistory (start st) evs1 in
      (input_of_call p gs (k_st w1) s \/ output_of_call p gs (k_st w1) s).
  Proof.
    intros st evs s. induction evs as [|ev evs IH] using rev_ind.
    - split.
      + intros (c & l & [] & _).
      + intros (evs1 & p & gs & evs2 & Q & _). destruct evs1; discriminate Q.
    - rewrite khistory_app. cbn [khistory fold_left]. fold (khistory (start st) evs). set (w := khistory (start st) evs) in *.
      unfold by_library in *. rewrite kstep_reg, holds_app.
      assert (E1 : holds (k_st (kstep w ev)) (k_reg w) s <-> holds (k_st w) (k_reg w) s).
      { split.
        - intros H. destruct H as (c & l & Hc & Hl & Es). exists c, l. split; [exact Hc|split; [exact Hl|]].
          eapply later_len; [apply (proj1 (kstep_later w ev))| |exact Es].
          eapply reg_valid_history; [apply reg_valid_start|exact Hc|exact Hl].
        - intros (c & l & Hc & Hl & Es). exists c, l. split; [exact Hc|split; [exact Hl|]]. exact (later_ser _ _ _ _ (proj1 (kstep_later w ev)) Es). }
      rewrite E1, IH. clear E1 IH. split.
      + intros [(evs1 & p & gs & evs2 & -> & H)|H].
        * exists evs1, p, gs, (evs2 ++ [ev]). rewrite <- app_assoc. split; [reflexivity|exact H].
        * destruct ev as [p gs| | | | |]; try (destruct H as (c & l & [] & _)).
          exists evs, p, gs, []. split; [reflexivity|]. fold w.
          apply (containers_spec p gs (k_st w) (k_st (kstep w (KMake p gs))) s); [|exact H].
          unfold k_st at 2. cbn [kstep k_w]. rewrite step_make_st. apply later_refl.
      + intros (evs1 & p & gs & evs2 & Q & H). destruct evs2 as [|e2 evs2 _] using rev_ind.
        * apply app_inj_tail in Q. destruct Q as [Q1 Q2]. right.
          rewrite <- Q1 in H. rewrite Q2. fold w in H.
          apply (containers_spec p gs (k_st w) (k_st (kstep w (KMake p gs))) s); [|exact H].
          unfold k_st at 2. cbn [kstep k_w]. rewrite step_make_st. apply later_refl.
        * left. rewrite app_comm_cons, app_assoc in Q. apply app_inj_tail in Q. destruct Q as [-> _].
          exists evs1, p, gs, evs2. auto.
  Qed.

  Lemma stays : forall st evs1 (p : prog V) gs evs2 s,
    let w1 := khistory (start st) evs1 in
    input_of_call p gs (k_st w1) s \/ output_of_call p gs (k_st w1) s ->
    in_use (khistory (start st) (evs1 ++ KMake p gs :: evs2)) s.
  Proof. intros st evs1 p gs evs2 s w1 H. right. right. apply library_iff. exists evs1, p, gs, evs2. auto. Qed.
  Lemma use_exactly : forall st evs s, all_dropped (khistory (start st) evs) ->
    (in_use (khistory (start st) evs) s <->
     exists evs1 p gs evs2, evs = evs1 ++ KMake p gs :: evs2 /\
       let w1 := khistory (start st) evs1 in
       (input_of_call p gs (k_st w1) s \/ output_of_call p gs (k_st w1) s)).
  Proof.
    intros st evs s (D1 & D2). rewrite <- library_iff. unfold in_use, mine, by_result. rewrite D1, D2. split; [|auto].
    intros [[]|[(k & c & [] & _)|H]]. exact H.
  Qed.
  Lemma registry_grows : forall w ev,
    (forall p gs, ev = KMake p gs ->
       (refused p gs (k_st w) -> List.length (k_reg (kstep w ev)) = S (List.length (k_reg w))) /\
       (~ refused p gs (k_st w) -> List.length (k_reg (kstep w ev)) = S (S (List.length (k_reg w))))) /\
    ((forall p gs, ev <> KMake p gs) -> k_reg (kstep w ev) = k_reg w).
  Proof.
    intros w ev. rewrite kstep_reg. split.
    - intros p gs ->. unfold containers, refused. rewrite app_length.
      destruct (take_inputs (k_st w) (k_st w) [] (pr_in p) gs) as [st1 [e|x]]; cbn [List.length].
      + split; [intros (a & b & Q); discriminate Q|lia].
      + split; [lia|]. intros H. exfalso. apply H. eauto.
    - intros H. destruct ev as [p gs| | | | |]; try apply app_nil_r. exfalso. now apply (H p gs).
  Qed.

  (** ** looking at inputs *)
  Lemma same_refl : forall st, same_values st st.
  Proof. intros st. split; [eauto|auto]. Qed.
  Lemma same_trans : forall a b c : store, same_values a b -> same_values b c -> same_values a c.
  Proof.
    intros a b c [A1 A2] [B1 B2]. split; [|auto]. intros k s H. apply A1 in H. destruct H as (s1 & H & E1).
    apply B1 in H. destruct H as (s2 & H & E2). exists s2. split; [exact H|congruence].
  Qed.
  Lemma read_same : forall st l, same_values st (fst (read_line st l)).
  Proof. intros st l. split; [intros k s; apply read_vals|]. rewrite read_lins. auto. Qed.
  Lemma read_WI : forall n0 st inds l, WI n0 (mkW st inds) -> WI n0 (mkW (fst (read_line st l)) inds).
  Proof.
    intros n0 st inds l (A & B & ks & C & D & E). unfold WI. cbn [w_st w_inds] in *. rewrite read_len.
    split; [|split; [exact B|]].
    - intros o. rewrite read_lins, read_len. apply A.
    - exists ks. split; [|auto]. rewrite <- C. apply map_ext. intros x. unfold ser_at. now rewrite read_lins.
  Qed.
  Lemma wst : forall (w : world V), w = mkW (w_st w) (w_inds w).
  Proof. now intros []. Qed.
  Lemma kstep_ok : forall n0 w ev, WI n0 (k_w w) -> kcalls_only bodies [ev] ->
    WI n0 (k_w (kstep w ev)) /\ same_values (k_st w) (k_st (kstep w ev)) /\
    ((forall k j, ev <> KLook k j) -> base n0 (k_w w) (k_w (kstep w ev))).
  Proof.
    intros n0 w ev H C.
    assert (G : forall a b : world V, grows a b -> same_values (w_st a) (w_st b)) by (intros a b (A & B & _); split; auto).
    assert (Q : forall e, calls_only bodies [e] ->
              WI n0 (step (k_w w) e) /\ same_values (w_st (k_w w)) (w_st (step (k_w w) e)) /\ base n0 (k_w w) (step (k_w w) e)).
    { intros e Ce. destruct (any_step bodies_checked H Ce) as (A & B & D). auto. }
    assert (R : calls_only bodies ([] : list (event V))) by (intros p gs []).
    destruct ev as [p gs|k|k j|k j|s|k]; cbn [kstep k_w]; unfold k_st; cbn [k_w].
    - destruct (Q (EMake p gs)) as (A & B & D); [|auto]. intros p' gs' [E|[]]. inversion E; subst. apply (C p' gs'). now left.
    - destruct (Q (ERead k)) as (A & B & D); [|auto]. intros p' gs' [E|[]]. discriminate E.
    - destruct (Q (EReadLine k j)) as (A & B & D); [intros p' gs' [E|[]]; discriminate E|].
      cbn [step] in A, B, D. unfold pick.
      destruct (nth_error (w_inds (k_w w)) k) as [c|]; [|auto]. destruct (nth_error c j) as [l|]; [|auto].
      cbn [read_one k_w]. unfold k_st. auto.
    - destruct (pick (k_ins w) k j) as [l|]. 2:{ split; [exact H|split; [apply same_refl|]]. intros X; exfalso; now apply (X k j). }
      cbn [read_one k_w w_st]. unfold k_st. split; [apply read_WI; rewrite <- wst; exact H|]. split; [apply read_same|].
      intros X; exfalso; now apply (X k j).
    - split; [exact H|split; [apply same_refl|]]. intros _ k _. reflexivity.
    - split; [exact H|split; [apply same_refl|]]. intros _ i _. reflexivity.
  Qed.
  Lemma khistory_ok : forall evs n0 w, WI n0 (k_w w) -> kcalls_only bodies evs ->
    WI n0 (k_w (khistory w evs)) /\ same_values (k_st w) (k_st (khistory w evs)).
  Proof.
    induction evs as [|ev evs IH]; intros n0 w H C; [split; [exact H|apply same_refl]|].
    cbn [khistory fold_left]. destruct (kstep_ok n0 w ev H) as (A & B & _); [intros p gs [E|[]]; apply (C p gs); now left|].
    destruct (IH n0 (kstep w ev) A) as (A' & B'); [intros p gs E; apply (C p gs); now right|].
    split; [exact A'|eapply same_trans; eassumption].
  Qed.
  Lemma kstart_ok : forall st, wf_store st -> WI (List.length (sers st)) (k_w (start st)).
  Proof. intros st H. apply start_ok. exact H. Qed.
  Lemma kcalls_app : forall bs (a b : list (kevent V)), kcalls_only bs (a ++ b) -> kcalls_only bs a /\ kcalls_only bs b.
  Proof. intros bs a b H. split; intros p gs E; apply (H p gs); apply in_or_app; auto. Qed.

  Lemma look_values : forall st evs1 evs2, wf_store st -> kcalls_only bodies (evs1 ++ evs2) ->
    same_values (k_st (khistory (start st) evs1)) (k_st (khistory (start st) (evs1 ++ evs2))).
  Proof.
    intros st evs1 evs2 W C. rewrite khistory_app. destruct (kcalls_app _ _ _ C) as [C1 C2].
    destruct (khistory_ok evs1 _ _ (kstart_ok st W) C1) as [A _]. exact (proj2 (khistory_ok evs2 _ _ A C2)).
  Qed.
  Lemma others_names : forall st evs ev k s, wf_store st -> kcalls_only bodies (evs ++ [ev]) -> (forall i j, ev <> KLook i j) ->
    nth_error (sers st) k = Some s ->
    nth_error (sers (k_st (khistory (start st) (evs ++ [ev])))) k = nth_error (sers (k_st (khistory (start st) evs))) k.
  Proof.
    intros st evs ev k s W C X E. rewrite khistory_app. destruct (kcalls_app _ _ _ C) as [C1 C2].
    destruct (khistory_ok evs _ _ (kstart_ok st W) C1) as [A _].
    destruct (kstep_ok _ _ ev A C2) as (_ & _ & B). apply (B X). apply nth_error_Some. congruence.
  Qed.
  Lemma look_names : forall w k j l o, pick (k_ins w) k j = Some l -> nth_error (lins (k_st w)) l = Some o ->
    let w' := kstep w (KLook k j) in
    (forall s, nth_error (sers (k_st w)) (lo_ser o) = Some s ->
       nth_error (sers (k_st w')) (lo_ser o) = Some (mkS (Some (lo_name o)) (so_vals s))) /\
    (forall i, i <> lo_ser o -> nth_error (sers (k_st w')) i = nth_error (sers (k_st w)) i) /\ lins (k_st w') = lins (k_st w).
  Proof.
    intros w k j l o P E w'. subst w'. cbn [kstep]. rewrite P. unfold k_st in *. cbn [read_one k_w w_st].
    split; [intros s Es; exact (proj2 (read_result _ _ E Es))|]. split; [|apply read_lins].
    intros i Hi. apply read_other. unfold ser_at. rewrite E. cbn. congruence.
  Qed.

  Lemma delivered_inds : forall w p gs, delivered p gs (k_st w) = true ->
    exists ls, w_inds (step (k_w w) (EMake p gs)) = w_inds (k_w w) ++ [ls].
  Proof.
    intros w p gs. unfold delivered, k_st. cbn [step]. destruct (run p gs (w_st (k_w w))) as [st' [e|x]]; [|discriminate].
    destruct (outs_of e (pr_out p)) as [ls|]; [|discriminate]. exists ls. reflexivity.
  Qed.
  Lemma not_delivered_inds : forall w p gs, delivered p gs (k_st w) = false ->
    w_inds (step (k_w w) (EMake p gs)) = w_inds (k_w w).
  Proof.
    intros w p gs. unfold delivered, k_st. cbn [step]. destruct (run p gs (w_st (k_w w))) as [st' [e|x]]; [|reflexivity].
    destruct (outs_of e (pr_out p)) as [ls|]; [discriminate|reflexivity].
  Qed.
  Lemma ins_len_step : forall w ev, List.length (k_ins w) = List.length (w_inds (k_w w)) ->
    List.length (k_ins (kstep w ev)) = List.length (w_inds (k_w (kstep w ev))).
  Proof.
    intros w ev H. destruct ev as [p gs|k|k j|k j|s|k]; cbn [kstep k_ins k_w]; try exact H.
    - destruct (delivered p gs (k_st w)) eqn:D.
      + destruct (delivered_inds _ _ _ D) as [ls ->]. rewrite !app_length. cbn. lia.
      + rewrite (not_delivered_inds _ _ _ D), app_nil_r. exact H.
    - cbn [step]. destruct (nth_error (w_inds (k_w w)) k); exact H.
    - destruct (pick (w_inds (k_w w)) k j); exact H.
    - destruct (pick (k_ins w) k j); exact H.
  Qed.
  Lemma ins_len : forall evs w, List.length (k_ins w) = List.length (w_inds (k_w w)) ->
    List.length (k_ins (khistory w evs)) = List.length (w_inds (k_w (khistory w evs))).
  Proof. induction evs as [|ev evs IH]; intros w H; [exact H|]. cbn [khistory fold_left]. apply IH, ins_len_step, H. Qed.
  Lemma ins_keep : forall evs w k c, nth_error (k_ins w) k = Some c -> nth_error (k_ins (khistory w evs)) k = Some c.
  Proof.
    induction evs as [|ev evs IH]; intros w k c H; [exact H|]. cbn [khistory fold_left]. apply IH.
    destruct ev as [p gs|i|i j|i j|s|i]; cbn [kstep k_ins]; try exact H.
    - rewrite nth_error_app1; [exact H|]. apply nth_error_Some. congruence.
    - destruct (pick (w_inds (k_w w)) i j); exact H.
    - destruct (pick (k_ins w) i j); exact H.
  Qed.

  Lemma look_renames : forall st evs1 (p : prog V) gs evs2 j n g m s x, wf_store st ->
    kcalls_only bodies (evs1 ++ KMake p gs :: evs2) ->
    let w1 := khistory (start st) evs1 in
    delivered p gs (k_st w1) = true ->
    nth_error (pr_in p) j = Some n -> nth_error gs j = Some g -> input_of (k_st w1) g = Some (m, s) ->
    nth_error (sers (k_st w1)) s = Some x ->
    let w2 := khistory (start st) (evs1 ++ KMake p gs :: evs2) in
    nth_error (sers (k_st (kstep w2 (KLook (List.length (w_inds (k_w w1))) j)))) s = Some (mkS (Some n) (so_vals x)).
  Proof.
    intros st evs1 p gs evs2 j n g m s x W C w1 D En Eg Ei Ex w2.
    destruct (kcalls_app _ _ _ C) as [C1 C2].
    destruct (khistory_ok evs1 _ _ (kstart_ok st W) C1) as [A1 _]. fold w1 in A1.
    destruct (kstep_ok _ w1 (KMake p gs) A1) as (A2 & S2 & _); [intros p' gs' [E|[]]; apply (C2 p' gs'); now left|].
    destruct (khistory_ok evs2 _ _ A2) as [A3 S3]; [intros p' gs' E; apply (C2 p' gs'); now right|].
    assert (Ew : w2 = khistory (kstep w1 (KMake p gs)) evs2) by (unfold w2; rewrite khistory_app; reflexivity).
    rewrite <- Ew in A3, S3.
    assert (L : List.length (k_ins w1) = List.length (w_inds (k_w w1))) by (apply ins_len; reflexivity).
    assert (P : pick (k_ins w2) (List.length (w_inds (k_w w1))) j = Some (List.length (lins (k_st w1)) + j)).
    { unfold pick. rewrite Ew. rewrite (ins_keep evs2 (kstep w1 (KMake p gs)) _ (input_lines p (k_st w1))).
      - unfold input_lines. rewrite nth_error_nth' with (d := 0).
        + rewrite seq_nth; [reflexivity|]. apply nth_error_Some. congruence.
        + rewrite seq_length. apply nth_error_Some. congruence.
      - cbn [kstep k_ins]. rewrite D, nth_error_app2 by lia. rewrite L, Nat.sub_diag. reflexivity. }
    assert (T : exists st1 e, take_inputs (k_st w1) (k_st w1) [] (pr_in p) gs = (st1, Ok e)).
    { unfold delivered, run in D. destruct (take_inputs (k_st w1) (k_st w1) [] (pr_in p) gs) as [st1 [e|y]]; [eauto|discriminate D]. }
    destruct T as (st1 & e & T). destruct (take_spec _ _ _ _ _ _ _ T) as (_ & ls & El & Ll & Q).
    destruct (Q _ _ En) as (g' & m' & s' & Eg' & Ei' & En'). rewrite Eg in Eg'. inversion Eg'; subst g'.
    rewrite Ei in Ei'. inversion Ei'; subst m' s'.
    (* the line of the input in the later world *)
    assert (O : exists o, nth_error (lins (k_st w2)) (List.length (lins (k_st w1)) + j) = Some o /\ lo_name o = n /\ lo_ser o = s).
    { assert (K : tag_of (k_st w2) (List.length (lins (k_st w1)) + j) = Some (n, s)).
      { rewrite Ew. apply khistory_later. unfold k_st at 1. cbn [kstep k_w]. rewrite step_make_st. fold (k_st w1).
        unfold run. rewrite T. apply (proj1 (execs_later (pr_steps p) st1 e (take_valid _ _ _ _ _ _ _ (valid_nil _) T))).
        unfold tag_of. rewrite El, nth_error_app2 by lia. replace (_ + j - _) with j by lia. now rewrite En'. }
      unfold tag_of in K. destruct (nth_error (lins (k_st w2)) _) as [o|]; [|discriminate K]. inversion K. eauto. }
    destruct O as (o & O1 & O2 & O3). destruct (look_names w2 _ _ _ _ P O1) as [R _]. rewrite O3, O2 in R.
    destruct (proj1 (same_trans _ _ _ S2 S3) s x Ex) as (x' & Ex' & Vx). rewrite (R _ Ex'), Vx. reflexivity.
  Qed.
End Facts.
