(** Facts about the binding of positional arguments to inputs. *)
From Coq Require Import List String Bool Arith ZArith Lia Permutation.
From Verif Require Import Series Py Inputs.
Import ListNotations.
Set Implicit Arguments.
Local Open Scope string_scope.
Local Open Scope list_scope.
Local Open Scope nat_scope.

(** ** Specification: the first column whose lower-cased label is the given name *)
Definition first_col (columns : list string) (name : string) (i : nat) : Prop :=
  (exists c, nth_error columns i = Some c /\ lower c = name) /\
  forall j c, j < i -> nth_error columns j = Some c -> lower c <> name.
Definition no_col (columns : list string) (name : string) : Prop :=
  forall c, In c columns -> lower c <> name.

Lemma first_col_unique : forall columns n i j, first_col columns n i -> first_col columns n j -> i = j.
Proof.
  intros columns n i j [[c [Hc Hn]] Hf] [[d [Hd Hm]] Hg].
  destruct (lt_eq_lt_dec i j) as [[H|H]|H]; [|exact H|]; exfalso.
  - exact (Hg i c H Hc Hn).
  - exact (Hf j d H Hd Hm).
Qed.

Lemma index_of_some : forall l x i, index_of x l = Some i ->
  nth_error l i = Some x /\ forall j y, j < i -> nth_error l j = Some y -> y <> x.
Proof.
  induction l as [|a l IH]; cbn; [discriminate|].
  intros x i H. destruct (String.eqb a x) eqn:E.
  - injection H as <-. apply String.eqb_eq in E. subst. split; [reflexivity|]. intros; lia.
  - destruct (index_of x l) as [k|] eqn:Ek; [|discriminate]. cbn in H. injection H as <-.
    destruct (IH _ _ Ek) as [H1 H2]. split; [exact H1|].
    intros [|j] y Hj Hy; cbn in Hy.
    + injection Hy as <-. now apply String.eqb_neq.
    + apply (H2 j y); [lia|exact Hy].
Qed.
Lemma index_of_none : forall l x, index_of x l = None <-> ~ In x l.
Proof.
  induction l as [|a l IH]; cbn; intro x.
  - tauto.
  - destruct (String.eqb a x) eqn:E.
    + apply String.eqb_eq in E. subst. split; [discriminate|tauto].
    + apply String.eqb_neq in E. destruct (index_of x l) eqn:Ek; cbn.
      * split; [discriminate|]. intro H. exfalso. apply H. right.
        destruct (in_dec string_dec x l) as [Hi|Hi]; [exact Hi|]. apply IH in Hi. congruence.
      * split; [|reflexivity]. intros _ [H|H]; [congruence|]. revert H. now apply IH.
Qed.
Lemma index_of_in : forall l x, In x l -> exists i, index_of x l = Some i /\ i < List.length l.
Proof.
  intros l x H. destruct (index_of x l) as [i|] eqn:E.
  - exists i. split; [reflexivity|]. apply index_of_some in E. destruct E as [E _].
    apply nth_error_Some. congruence.
  - apply index_of_none in E. contradiction.
Qed.
Lemma index_first_col : forall columns n i,
  index_of n (map lower columns) = Some i <-> first_col columns n i.
Proof.
  assert (A : forall columns n i, index_of n (map lower columns) = Some i -> first_col columns n i).
  { intros columns n i H. apply index_of_some in H. destruct H as [H1 H2]. split.
    - rewrite nth_error_map in H1. destruct (nth_error columns i) as [c|]; [|discriminate].
      exists c. split; [reflexivity|]. now injection H1.
    - intros j c Hj Hc He. apply (H2 j (lower c) Hj); [|exact He].
      rewrite nth_error_map, Hc. reflexivity. }
  intros columns n i. split; [apply A|]. intro H.
  assert (Hin : In n (map lower columns)).
  { destruct H as [[c [Hc <-]] _]. apply in_map. eapply nth_error_In; eauto. }
  destruct (index_of_in _ _ Hin) as [j [Hj _]].
  rewrite Hj. f_equal. eapply first_col_unique; eauto.
Qed.
Lemma index_no_col : forall columns n, index_of n (map lower columns) = None <-> no_col columns n.
Proof.
  intros. rewrite index_of_none. unfold no_col. rewrite in_map_iff. split.
  - intros H c Hc E. apply H. eauto.
  - intros H [c [E Hc]]. exact (H c Hc E).
Qed.

(** ** Free columns *)
Lemma free_spec : forall z l, free z l = true <-> exists i, In i l /\ Z.of_nat i = z.
Proof.
  intros. unfold free. rewrite existsb_exists. split; intros [i [H E]]; exists i; split; auto; lia.
Qed.
Lemma free_nat : forall i l, free (Z.of_nat i) l = true <-> In i l.
Proof.
  intros. rewrite free_spec. split; [intros [j [H E]]|eauto].
  assert (j = i) by lia. now subst.
Qed.
Lemma remove_perm : forall l i, In i l -> Permutation (i :: remove_idx (Z.of_nat i) l) l.
Proof.
  induction l as [|a l IH]; intros i H; [destruct H|]. cbn.
  destruct (Z.eqb (Z.of_nat a) (Z.of_nat i)) eqn:E.
  - assert (a = i) by lia. subst. apply Permutation_refl.
  - destruct H as [H|H]; [subst; lia|].
    eapply perm_trans; [apply perm_swap|]. apply perm_skip. apply IH, H.
Qed.
Lemma pop_perm : forall l i r, pop_idx l = Ok (i, r) -> Permutation (i :: r) l.
Proof.
  unfold pop_idx. intros l i r H. destruct (rev l) as [|j q] eqn:E; [discriminate|].
  injection H as <- <-. rewrite (Permutation_rev l), E. apply perm_skip.
  apply Permutation_sym, Permutation_rev.
Qed.
Lemma pop_ok : forall l, l <> [] -> exists p, pop_idx l = Ok p.
Proof.
  unfold pop_idx. intros l H. destruct (rev l) as [|j q] eqn:E; [|eauto].
  exfalso. apply H. rewrite <- (rev_involutive l), E. reflexivity.
Qed.

Lemma df_step_perm : forall cfg cols n cs i r,
  df_step cfg cols n cs = Ok (i, r) -> Permutation (i :: r) cs.
Proof.
  unfold df_step. intros cfg cols n cs i r H.
  destruct (if ohlc_first cfg then conf_index cfg cols n else Ok (-1)%Z) as [z|]; [|discriminate].
  cbn in H.
  destruct (if free z cs then Ok z else match index_of n cols with
            | Some i => Ok (Z.of_nat i) | None => conf_index cfg cols n end) as [z'|]; [|discriminate].
  cbn in H. destruct (free z' cs) eqn:F.
  - apply free_spec in F. destruct F as [k [Hk <-]].
    injection H as <- <-. rewrite Nat2Z.id. now apply remove_perm.
  - now apply pop_perm.
Qed.
Lemma df_loop_perm : forall cfg cols names cs m,
  df_loop cfg cols names cs = Ok m ->
  map fst m = names /\ exists r, Permutation (map snd m ++ r) cs.
Proof.
  induction names as [|n names IH]; cbn; intros cs m H.
  - injection H as <-. cbn. split; [reflexivity|]. exists cs. apply Permutation_refl.
  - destruct (df_step cfg cols n cs) as [[i r]|] eqn:E; [|discriminate]. cbn in H.
    destruct (df_loop cfg cols names r) as [m'|] eqn:E'; [|discriminate]. cbn in H.
    injection H as <-. destruct (IH _ _ E') as [H1 [r' H2]]. cbn. split; [now f_equal|].
    exists r'. eapply perm_trans; [apply perm_skip, H2|]. now apply df_step_perm in E.
Qed.

(** the configuration names no column for the inputs at hand *)
Definition no_string_for (cfg : icfg) (names : list string) : Prop :=
  forall n s, In n names -> dget (ohlc_indices cfg) n <> Some (CStr s).
(** every column name configured for an input exists (as written) among the lower-cased labels *)
Definition strings_found (cfg : icfg) (columns names : list string) : Prop :=
  forall n s, In n names -> dget (ohlc_indices cfg) n = Some (CStr s) -> In s (map lower columns).

Lemma conf_index_ok : forall cfg columns names n, strings_found cfg columns names -> In n names ->
  exists z, conf_index cfg (map lower columns) n = Ok z.
Proof.
  intros cfg columns names n H Hn. unfold conf_index.
  destruct (dget (ohlc_indices cfg) n) as [[z|s]|] eqn:E; [eauto| |eauto].
  apply H in E; [|exact Hn]. apply index_of_in in E. destruct E as [i [-> _]]. eauto.
Qed.
Lemma conf_index_err : forall cfg cols n e, conf_index cfg cols n = Raise e ->
  e = InputsError /\ exists s, dget (ohlc_indices cfg) n = Some (CStr s) /\ ~ In s cols.
Proof.
  intros cfg cols n e H. unfold conf_index in H.
  destruct (dget (ohlc_indices cfg) n) as [[z|s]|] eqn:E; try discriminate.
  destruct (index_of s cols) eqn:E'; [discriminate|]. injection H as <-.
  apply index_of_none in E'. eauto.
Qed.

Lemma df_step_ok : forall cfg columns names n cs, strings_found cfg columns names -> In n names ->
  cs <> [] -> exists i r, df_step cfg (map lower columns) n cs = Ok (i, r).
Proof.
  intros cfg columns names n cs H Hn Hc. unfold df_step.
  destruct (@conf_index_ok cfg columns names n H Hn) as [z Hz]. rewrite Hz.
  assert (A : exists z0, (if ohlc_first cfg then Ok z else Ok (-1)%Z) = Ok z0) by (destruct (ohlc_first cfg); eauto).
  destruct A as [z0 ->]. cbn.
  assert (B : exists z1, (if free z0 cs then Ok z0 else match index_of n (map lower columns) with
            | Some i => Ok (Z.of_nat i) | None => Ok z end) = Ok z1).
  { destruct (free z0 cs); [eauto|]. destruct (index_of n _); eauto. }
  destruct B as [z1 ->]. cbn.
  destruct (free z1 cs); [eauto|]. destruct (pop_ok Hc) as [[i r] ->]. eauto.
Qed.
Lemma df_loop_ok : forall cfg columns names all cs, strings_found cfg columns all -> incl names all ->
  List.length names <= List.length cs -> exists m, df_loop cfg (map lower columns) names cs = Ok m.
Proof.
  induction names as [|n names IH]; cbn; intros all cs H Hi Hl; [eauto|].
  destruct (@df_step_ok cfg columns all n cs) as [i [r E]]; auto.
  { apply Hi; now left. }
  { destruct cs; [cbn in Hl; lia|discriminate]. }
  rewrite E. cbn. apply df_step_perm in E. apply Permutation_length in E. cbn in E.
  destruct (IH all r) as [m Hm]; auto; [|lia|].
  { intros x Hx. apply Hi. now right. }
  rewrite Hm. cbn. eauto.
Qed.

Lemma fd0 : forall cfg columns names, from_dataframe cfg 0 columns names =
  if List.length (map lower columns) <? List.length names then Raise InputsError
  else df_loop cfg (map lower columns) names (rev (seq 0 (List.length (map lower columns)))).
Proof. reflexivity. Qed.

Lemma from_dataframe_inj : forall cfg depth columns names m,
  from_dataframe cfg depth columns names = Ok m ->
  map fst m = names /\ NoDup (map snd m) /\ (forall c, In c (map snd m) -> c < List.length columns).
Proof.
  unfold from_dataframe. intros cfg depth columns names m H.
  destruct (0 <? depth); [discriminate|].
  destruct (_ <? _) eqn:E; [discriminate|].
  apply df_loop_perm in H. destruct H as [H1 [r H2]]. split; [exact H1|].
  assert (Hp : Permutation (map snd m ++ r) (seq 0 (List.length (map lower columns)))).
  { eapply perm_trans; [exact H2|]. apply Permutation_sym, Permutation_rev. }
  split.
  - assert (Hn : NoDup (map snd m ++ r)).
    { eapply Permutation_NoDup; [apply Permutation_sym, Hp|apply seq_NoDup]. }
    clear - Hn. induction (map snd m) as [|a l IH]; [constructor|].
    inversion Hn; subst. constructor; [|auto]. intro Hi. apply H1. apply in_or_app; now left.
  - intros c Hc. assert (Hs : In c (seq 0 (List.length (map lower columns)))).
    { eapply Permutation_in; [exact Hp|]. apply in_or_app; now left. }
    apply in_seq in Hs. rewrite map_length in Hs. lia.
Qed.
Lemma from_dataframe_total : forall cfg columns names,
  List.length names <= List.length columns -> strings_found cfg columns names ->
  exists m, from_dataframe cfg 0 columns names = Ok m.
Proof.
  intros cfg columns names Hl Hs. rewrite fd0.
  rewrite map_length. destruct (Nat.ltb_spec (List.length columns) (List.length names)); [lia|].
  eapply df_loop_ok; eauto; [apply incl_refl|]. rewrite rev_length, seq_length. lia.
Qed.
Lemma no_string_found : forall cfg columns names, no_string_for cfg names -> strings_found cfg columns names.
Proof. intros cfg columns names H n s Hn E. exfalso. exact (H n s Hn E). Qed.

Lemma df_mapping : forall cfg columns names,
  List.length names <= List.length columns -> no_string_for cfg names ->
  exists m, from_dataframe cfg 0 columns names = Ok m /\ map fst m = names /\ NoDup (map snd m) /\
            (forall c, In c (map snd m) -> c < List.length columns).
Proof.
  intros cfg columns names Hl Hs.
  destruct (@from_dataframe_total cfg columns names Hl (@no_string_found cfg columns names Hs)) as [m Hm].
  exists m. split; [exact Hm|]. now apply from_dataframe_inj in Hm.
Qed.

Lemma df_step_err : forall cfg cols n cs e, cs <> [] -> df_step cfg cols n cs = Raise e ->
  e = InputsError /\ exists s, dget (ohlc_indices cfg) n = Some (CStr s) /\ ~ In s cols.
Proof.
  unfold df_step. intros cfg cols n cs e Hc H.
  destruct (if ohlc_first cfg then conf_index cfg cols n else Ok (-1)%Z) as [z|e1] eqn:E1; cbn in H.
  - destruct (if free z cs then Ok z else match index_of n cols with
            | Some i => Ok (Z.of_nat i) | None => conf_index cfg cols n end) as [z'|e2] eqn:E2; cbn in H.
    + destruct (free z' cs); [discriminate|]. destruct (pop_ok Hc) as [p Hp]. rewrite Hp in H. discriminate.
    + injection H as <-. destruct (free z cs); [discriminate|]. destruct (index_of n cols); [discriminate|].
      now apply conf_index_err in E2.
  - injection H as <-. destruct (ohlc_first cfg); [|discriminate]. now apply conf_index_err in E1.
Qed.
Lemma df_loop_err : forall cfg cols names cs e, List.length names <= List.length cs ->
  df_loop cfg cols names cs = Raise e ->
  e = InputsError /\ exists n s, In n names /\ dget (ohlc_indices cfg) n = Some (CStr s) /\ ~ In s cols.
Proof.
  induction names as [|n names IH]; cbn; intros cs e Hl H; [discriminate|].
  destruct (df_step cfg cols n cs) as [[i r]|e'] eqn:E; cbn in H.
  - apply df_step_perm in E. apply Permutation_length in E. cbn in E.
    destruct (df_loop cfg cols names r) as [m|e'] eqn:E'; cbn in H; [discriminate|].
    injection H as <-. apply IH in E'; [|lia]. destruct E' as [-> [n' [s [H1 H2]]]].
    split; [reflexivity|]. exists n', s. auto.
  - injection H as <-. apply df_step_err in E.
    + destruct E as [-> [s Hs]]. split; [reflexivity|]. exists n, s. tauto.
    + destruct cs; [cbn in Hl; lia|discriminate].
Qed.
Lemma from_dataframe_err : forall cfg columns names e,
  List.length names <= List.length columns ->
  from_dataframe cfg 0 columns names = Raise e ->
  e = InputsError /\
  exists n s, In n names /\ dget (ohlc_indices cfg) n = Some (CStr s) /\ ~ In s (map lower columns).
Proof.
  intros cfg columns names e Hl H. rewrite fd0 in H.
  rewrite map_length in H. destruct (Nat.ltb_spec (List.length columns) (List.length names)); [lia|].
  apply df_loop_err in H; [exact H|]. rewrite rev_length, seq_length. lia.
Qed.

(** ** Named columns, default order *)
Lemma df_step_named : forall cfg cols n cs i, ohlc_first cfg = false ->
  index_of n cols = Some i -> In i cs ->
  df_step cfg cols n cs = Ok (i, remove_idx (Z.of_nat i) cs).
Proof.
  intros cfg cols n cs i Hf Hi Hc. unfold df_step. rewrite Hf. cbn [bind].
  assert (F : free (-1)%Z cs = false).
  { destruct (free (-1)%Z cs) eqn:E; [|reflexivity]. apply free_spec in E. destruct E as [k [_ E]]. lia. }
  rewrite F, Hi. cbn [bind]. apply free_nat in Hc. rewrite Hc. now rewrite Nat2Z.id.
Qed.
Lemma remove_in : forall l i j, NoDup l -> In i l -> (In j (remove_idx (Z.of_nat i) l) <-> In j l /\ j <> i).
Proof.
  intros l i j Hn Hi. assert (P := remove_perm l i Hi).
  assert (Hn' : NoDup (i :: remove_idx (Z.of_nat i) l)) by (eapply Permutation_NoDup; [apply Permutation_sym, P|exact Hn]).
  inversion Hn'; subst. split.
  - intro Hj. split; [eapply Permutation_in; [exact P|now right]|]. intros ->. contradiction.
  - intros [Hj Hne]. apply (Permutation_in _ (Permutation_sym P)) in Hj. destruct Hj; [congruence|assumption].
Qed.
Lemma remove_nodup : forall l i, NoDup l -> In i l -> NoDup (remove_idx (Z.of_nat i) l).
Proof.
  intros l i Hn Hi. assert (P := remove_perm l i Hi).
  assert (Hn' : NoDup (i :: remove_idx (Z.of_nat i) l)) by (eapply Permutation_NoDup; [apply Permutation_sym, P|exact Hn]).
  now inversion Hn'.
Qed.

Lemma df_loop_named : forall cfg cols pre post cs m, ohlc_first cfg = false ->
  NoDup pre -> NoDup cs ->
  (forall n, In n pre -> exists i, index_of n cols = Some i /\ In i cs) ->
  df_loop cfg cols (pre ++ post) cs = Ok m ->
  exists m1 m2, m = m1 ++ m2 /\ map fst m1 = pre /\ (forall n i, In (n, i) m1 -> index_of n cols = Some i).
Proof.
  intros cfg cols. induction pre as [|n pre IH]; intros post cs m Hf Hnd Hcs Hin H.
  - exists [], m. cbn. intuition.
  - cbn in H. destruct (Hin n) as [i [Hi Hc]]; [now left|].
    rewrite (@df_step_named cfg _ _ _ _ Hf Hi Hc) in H. cbn in H.
    destruct (df_loop cfg cols (pre ++ post) (remove_idx (Z.of_nat i) cs)) as [m'|] eqn:E; [|discriminate].
    cbn in H. injection H as <-. inversion Hnd; subst.
    destruct (IH post (remove_idx (Z.of_nat i) cs) m' Hf) as [m1 [m2 [-> [E1 E2]]]]; auto.
    + now apply remove_nodup.
    + intros n' Hn'. destruct (Hin n') as [i' [Hi' Hc']]; [now right|].
      exists i'. split; [exact Hi'|]. apply remove_in; auto. split; [exact Hc'|]. intros ->.
      apply index_of_some in Hi, Hi'. destruct Hi as [Hi _], Hi' as [Hi' _].
      rewrite Hi in Hi'. injection Hi' as ->. contradiction.
    + exists ((n, i) :: m1), m2. cbn. repeat split; [now f_equal|].
      intros n' i' [H|H]; [injection H as <- <-; exact Hi|]. now apply E2.
Qed.

Lemma columns_free : forall columns n i, index_of n (map lower columns) = Some i ->
  In i (rev (seq 0 (List.length (map lower columns)))).
Proof.
  intros columns n i H. rewrite <- in_rev. apply in_seq. apply index_of_some in H. destruct H as [H _].
  split; [lia|]. apply nth_error_Some. congruence.
Qed.

Lemma named_prefix : forall cfg columns pre post m, ohlc_first cfg = false -> NoDup pre ->
  (forall n, In n pre -> exists i, first_col columns n i) ->
  from_dataframe cfg 0 columns (pre ++ post) = Ok m ->
  exists m1 m2, m = m1 ++ m2 /\ map fst m1 = pre /\
    forall n i, In (n, i) m1 -> first_col columns n i.
Proof.
  intros cfg columns pre post m Hf Hnd Hin H. rewrite fd0 in H.
  destruct (_ <? _) in H; [discriminate|].
  apply df_loop_named in H; auto.
  - destruct H as [m1 [m2 [E [E1 E2]]]]. exists m1, m2. repeat split; auto.
    + apply index_first_col, E2, H.
    + apply E2 in H. apply index_first_col in H. destruct H as [_ H]. exact H.
  - apply NoDup_rev, seq_NoDup.
  - intros n Hn. destruct (Hin n Hn) as [i Hi]. apply index_first_col in Hi. exists i. split; [exact Hi|].
    eapply columns_free; eauto.
Qed.

Lemma df_named : forall cfg columns names, ohlc_first cfg = false -> NoDup names ->
  (forall n, In n names -> exists i, first_col columns n i) ->
  exists m, from_dataframe cfg 0 columns names = Ok m /\ map fst m = names /\
    forall n i, In (n, i) m -> first_col columns n i.
Proof.
  intros cfg columns names Hf Hnd Hin.
  assert (Hl : List.length names <= List.length columns).
  { rewrite <- (map_length lower columns). apply NoDup_incl_length; [exact Hnd|].
    intros n Hn. destruct (Hin n Hn) as [i [[c [Hc <-]] _]]. apply in_map. eapply nth_error_In; eauto. }
  assert (G : forall nm cs, NoDup nm -> NoDup cs ->
     (forall n, In n nm -> exists i, index_of n (map lower columns) = Some i /\ In i cs) ->
     exists m, df_loop cfg (map lower columns) nm cs = Ok m).
  { induction nm as [|n nm IH]; intros cs H1 H2 H3; cbn; [eauto|].
    destruct (H3 n) as [i [Hi Hc]]; [now left|].
    rewrite (@df_step_named cfg _ _ _ _ Hf Hi Hc). cbn. inversion H1; subst.
    destruct (IH (remove_idx (Z.of_nat i) cs)) as [m ->]; auto; [now apply remove_nodup| |cbn; eauto].
    intros n' Hn'. destruct (H3 n') as [i' [Hi' Hc']]; [now right|].
    exists i'. split; [exact Hi'|]. apply remove_in; auto. split; [exact Hc'|]. intros ->.
    apply index_of_some in Hi, Hi'. destruct Hi as [Hi _], Hi' as [Hi' _].
    rewrite Hi in Hi'. injection Hi' as ->. contradiction. }
  destruct (G names (rev (seq 0 (List.length (map lower columns))))) as [m Hm]; auto;
    [apply NoDup_rev, seq_NoDup| |].
  { intros n Hn. destruct (Hin n Hn) as [i Hi]. apply index_first_col in Hi. exists i. split; [exact Hi|].
    eapply columns_free; eauto. }
  assert (Hm' : from_dataframe cfg 0 columns names = Ok m).
  { rewrite fd0.
    destruct (Nat.ltb_spec (List.length (map lower columns)) (List.length names)) as [H|H];
      [rewrite map_length in H; lia|exact Hm]. }
  exists m. split; [exact Hm'|].
  assert (Hfst := from_dataframe_inj _ _ _ _ Hm'). destruct Hfst as [Hfst _]. split; [exact Hfst|].
  assert (Hm2 := Hm'). rewrite <- (app_nil_r names) in Hm2. apply named_prefix in Hm2; auto.
  destruct Hm2 as [m1 [m2 [E [E1 E2]]]].
  assert (L : m2 = []).
  { apply (f_equal (@List.length _)) in Hfst. rewrite map_length, E, app_length in Hfst.
    rewrite <- E1, map_length in Hfst. destruct m2; [reflexivity|cbn in Hfst; lia]. }
  subst m2. rewrite app_nil_r in E. subst. exact E2.
Qed.

(** an input whose predecessors are all named gets its own column *)
Lemma named_column : forall cfg columns pre n post m i, ohlc_first cfg = false ->
  NoDup (pre ++ [n]) ->
  (forall x, In x (pre ++ [n]) -> exists j, first_col columns x j) ->
  from_dataframe cfg 0 columns (pre ++ n :: post) = Ok m -> NoDup (pre ++ n :: post) ->
  In (n, i) m -> first_col columns n i.
Proof.
  intros cfg columns pre n post m i Hf Hnd Hin H Hall Hi.
  assert (Hfst := from_dataframe_inj _ _ _ _ H). destruct Hfst as [Hfst _].
  replace (pre ++ n :: post) with ((pre ++ [n]) ++ post) in * by now rewrite <- app_assoc.
  apply named_prefix in H; auto. destruct H as [m1 [m2 [-> [E1 E2]]]].
  apply in_app_or in Hi. destruct Hi as [Hi|Hi]; [now apply E2|]. exfalso.
  rewrite map_app, E1 in Hfst. apply app_inv_head in Hfst.
  apply (in_map fst) in Hi. rewrite Hfst in Hi. cbn in Hi.
  rewrite <- app_assoc in Hall. apply NoDup_remove_2 in Hall. apply Hall.
  apply in_or_app. now right.
Qed.

(** ** Rejections *)
Lemma df_rejected : forall cfg depth names allow sl columns rest,
  S (List.length rest) < List.length names ->
  (List.length columns < List.length names \/ 0 < depth) ->
  bind_inputs cfg depth names allow sl (ADf columns :: rest) = (Raise InputsError, sl).
Proof.
  intros cfg depth names allow sl columns rest Hl Hr. unfold bind_inputs, from_args.
  cbn [List.length]. destruct (Nat.leb_spec (List.length names) (S (List.length rest))); [lia|].
  unfold from_dataframe. rewrite map_length.
  destruct (Nat.ltb_spec 0 depth); [reflexivity|].
  destruct (Nat.ltb_spec (List.length columns) (List.length names)); [reflexivity|lia].
Qed.

(** ** Indicators as multi-dimensional input *)
Lemma visible_ok : forall m, NoDup (map fst m) -> visible (map fst m) m = Ok m.
Proof.
  assert (G : forall m2 m, (forall n s, In (n, s) m2 -> dget m n = Some s) -> visible (map fst m2) m = Ok m2).
  { induction m2 as [|[n s] m2 IH]; cbn; intros m H; [reflexivity|].
    rewrite (H n s) by now left. rewrite IH; [reflexivity|]. intros. apply H. now right. }
  assert (D : forall m n (s : source), NoDup (map fst m) -> In (n, s) m -> dget m n = Some s).
  { induction m as [|[n' s'] m IH]; cbn; intros n s Hn Hi; [destruct Hi|]. inversion Hn; subst.
    destruct Hi as [Hi|Hi].
    - injection Hi as -> ->. now rewrite String.eqb_refl.
    - destruct (String.eqb_spec n' n) as [->|]; [|now apply IH].
      exfalso. apply H1. apply (in_map fst) in Hi. exact Hi. }
  intros m Hn. apply G. intros. now apply D.
Qed.
Lemma visible_missing : forall sl m n, In n sl -> ~ In n (map fst m) -> visible sl m = Raise AttributeError.
Proof.
  induction sl as [|s sl IH]; cbn; intros m n Hi Hn; [destruct Hi|].
  destruct (dget m s) as [v|] eqn:E; [|reflexivity].
  destruct Hi as [->|Hi].
  - exfalso. apply Hn. clear - E. induction m as [|[a b] m IH]; cbn in *; [discriminate|].
    destruct (String.eqb_spec a n); [now left|right; auto].
  - now rewrite (IH m n Hi Hn).
Qed.
Lemma combine_fst : forall (A B : Type) (l : list A) (l' : list B), map fst (combine l l') = firstn (List.length l') l.
Proof.
  induction l as [|a l IH]; intros [|b l']; cbn; try reflexivity. now rewrite IH.
Qed.

Definition outs (i k : nat) : list source := map (SOut i) (seq 0 k).

Lemma combine_firstn_r : forall (A B : Type) (l : list A) (l' : list B),
  combine l l' = combine l (firstn (List.length l) l').
Proof.
  induction l as [|a l IH]; intros [|b l']; cbn; try reflexivity. now rewrite <- IH.
Qed.
Lemma firstn_seq_le : forall n k s, k <= n -> firstn k (seq s n) = seq s k.
Proof.
  induction n as [|n IH]; intros k s H; [assert (k = 0) by lia; now subst|].
  destruct k; cbn; [reflexivity|]. now rewrite IH by lia.
Qed.

Lemma holder_cases : forall cfg depth names allow nouts bars rest,
  NoDup names -> S (List.length rest) < List.length names ->
  bind_inputs cfg depth names allow names (AHolder nouts bars :: rest) =
  ((if bars <? List.length names then Raise InputsError
    else if nouts <? List.length names then Raise AttributeError
    else Ok (combine names (outs 0 (List.length names)))), names).
Proof.
  intros cfg depth names allow nouts bars rest Hn Hl. unfold bind_inputs, from_args.
  cbn [List.length]. destruct (Nat.leb_spec (List.length names) (S (List.length rest))); [lia|].
  unfold from_linesholder. destruct (bars <? List.length names); [reflexivity|]. cbn [bind].
  destruct (Nat.ltb_spec nouts (List.length names)) as [Ho|Ho].
  - f_equal. destruct (nth_error names nouts) as [n|] eqn:E; [|apply nth_error_None in E; lia].
    apply visible_missing with (n := n).
    + eapply nth_error_In; eauto.
    + rewrite combine_fst, map_length, seq_length. intro Hi.
      apply nth_error_split in E. destruct E as [l1 [l2 [-> Hl1]]].
      rewrite <- Hl1, firstn_app, Nat.sub_diag, firstn_all in Hi. cbn in Hi. rewrite app_nil_r in Hi.
      apply NoDup_remove_2 in Hn. apply Hn. apply in_or_app. now left.
  - f_equal. rewrite combine_firstn_r, firstn_map, firstn_seq_le by lia. fold (outs 0 (List.length names)).
    assert (E : map fst (combine names (outs 0 (List.length names))) = names).
    { rewrite combine_fst. unfold outs. rewrite map_length, seq_length. apply firstn_all. }
    rewrite <- E at 1. apply visible_ok. now rewrite E.
Qed.

(** ** Enough positional arguments *)
Lemma make_inputs_fst : forall cfg args names i m, make_inputs cfg i args names = Ok m ->
  List.length names <= List.length args -> map fst m = names.
Proof.
  induction args as [|a args IH]; intros [|n names] i m H Hl; cbn in *; try (injection H as <-; reflexivity); try lia.
  destruct (make_input cfg i a n) as [s|]; [|discriminate]. cbn in H.
  destruct (make_inputs cfg (S i) args names) as [m'|] eqn:E; [|discriminate]. cbn in H. injection H as <-.
  cbn. f_equal. eapply IH; eauto. lia.
Qed.
Lemma make_inputs_nth : forall cfg args names i0 m k n s, make_inputs cfg i0 args names = Ok m ->
  nth_error m k = Some (n, s) ->
  nth_error names k = Some n /\ exists a, nth_error args k = Some a /\ make_input cfg (i0 + k) a n = Ok s.
Proof.
  induction args as [|a args IH]; intros [|x names] i0 m k n s H Hk; cbn in *;
    try (injection H as <-; destruct k; discriminate).
  destruct (make_input cfg i0 a x) as [s'|] eqn:Em; [|discriminate]. cbn in H.
  destruct (make_inputs cfg (S i0) args names) as [m'|] eqn:E; [|discriminate]. cbn in H. injection H as <-.
  destruct k; cbn in *.
  - injection Hk as <- <-. split; [reflexivity|]. exists a. rewrite Nat.add_0_r. auto.
  - rewrite Nat.add_succ_r. eapply IH in E; eauto.
Qed.
Lemma nth_error_firstn_lt : forall (A : Type) (l : list A) k j, j < k -> nth_error (firstn k l) j = nth_error l j.
Proof.
  induction l as [|a l IH]; intros [|k] [|j] H; cbn; try reflexivity; try lia. apply IH. lia.
Qed.

(** with at least as many arguments as inputs, input k is made from argument k *)
Lemma positional_ok : forall cfg depth names allow sl args r,
  names <> [] -> List.length names <= List.length args ->
  from_args cfg depth names allow sl args = Ok r ->
  exists m, r = (m, List.length names, sl) /\ map fst m = names /\
    forall k n s, nth_error m k = Some (n, s) ->
      exists a, nth_error args k = Some a /\ make_input cfg k a n = Ok s.
Proof.
  intros cfg depth names allow sl args r Hne Hl H. unfold from_args in H.
  destruct args as [|a0 args]; [destruct names; [congruence|cbn in Hl; lia]|].
  set (al := a0 :: args) in *.
  destruct (Nat.leb_spec (List.length names) (List.length al)); [|lia].
  destruct (make_inputs cfg 0 (firstn (List.length names) al) names) as [m|] eqn:E; [|discriminate].
  cbn [bind] in H. injection H as <-. exists m. split; [reflexivity|].
  assert (Hf : map fst m = names).
  { eapply make_inputs_fst; eauto. rewrite firstn_length. lia. }
  split; [exact Hf|]. intros k n s Hk.
  assert (Hlt : k < List.length names).
  { rewrite <- Hf, map_length. apply nth_error_Some. congruence. }
  eapply make_inputs_nth in E; eauto. destruct E as [_ [a [Ha Hm]]]. exists a. split; [|exact Hm].
  rewrite nth_error_firstn_lt in Ha; auto.
Qed.

(** ** Single input *)
Lemma bind_single : forall cfg depth n allow columns rest,
  bind_inputs cfg depth [n] allow [n] (ADf columns :: rest) =
  (match line_from_dataframe cfg columns n with Ok c => Ok [(n, SCol 0 c)] | Raise e => Raise e end, [n]).
Proof.
  intros. unfold bind_inputs, from_args. cbn [List.length]. cbn [Nat.leb firstn make_inputs make_input].
  destruct (line_from_dataframe cfg columns n) as [c|e]; [|reflexivity]. cbn [bind visible dget].
  now rewrite String.eqb_refl.
Qed.
Lemma lfd_named : forall cfg columns n i, first_col columns n i -> line_from_dataframe cfg columns n = Ok i.
Proof.
  intros cfg columns n i H. assert (Hl : i < List.length columns).
  { destruct H as [[c [Hc _]] _]. apply nth_error_Some. congruence. }
  apply index_first_col in H. unfold line_from_dataframe. rewrite H. cbn [bind]. rewrite map_length.
  destruct (Z.leb_spec (Z.of_nat (List.length columns)) (Z.of_nat i)); [lia|].
  unfold iloc_col. destruct (Z.ltb_spec (Z.of_nat i) 0); [lia|].
  destruct (Z.ltb_spec (Z.of_nat i) (Z.of_nat (List.length columns))); [|lia]. now rewrite Nat2Z.id.
Qed.
Lemma lfd_int : forall cfg columns n z, no_col columns n -> dget (ohlc_indices cfg) n = Some (CInt z) ->
  (0 <= z < Z.of_nat (List.length columns))%Z -> line_from_dataframe cfg columns n = Ok (Z.to_nat z).
Proof.
  intros cfg columns n z H Hd Hz. apply index_no_col in H. unfold line_from_dataframe. rewrite H, Hd. cbn [bind].
  rewrite map_length. destruct (Z.leb_spec (Z.of_nat (List.length columns)) z); [lia|].
  unfold iloc_col. destruct (Z.ltb_spec z 0); [lia|].
  destruct (Z.ltb_spec z (Z.of_nat (List.length columns))); [|lia]. reflexivity.
Qed.
Lemma lfd_zero : forall cfg columns n, no_col columns n -> columns <> [] ->
  (dget (ohlc_indices cfg) n = None \/
   exists z, dget (ohlc_indices cfg) n = Some (CInt z) /\ (Z.of_nat (List.length columns) <= z)%Z) ->
  line_from_dataframe cfg columns n = Ok 0.
Proof.
  intros cfg columns n H Hne Hd. apply index_no_col in H. unfold line_from_dataframe. rewrite H.
  assert (Hl : 0 < List.length columns) by (destruct columns; [congruence|cbn; lia]).
  assert (E : exists z, match dget (ohlc_indices cfg) n with None => Ok 0%Z | Some (CInt z) => Ok z
      | Some (CStr _) => Raise TypeError end = Ok z /\ (z = 0 \/ Z.of_nat (List.length columns) <= z)%Z).
  { destruct Hd as [->|[z [-> Hz]]]; eauto. }
  destruct E as [z [-> Hz]]. cbn [bind]. rewrite map_length.
  assert (E : (if Z.leb (Z.of_nat (List.length columns)) z then 0%Z else z) = 0%Z).
  { destruct (Z.leb_spec (Z.of_nat (List.length columns)) z); lia. }
  rewrite E. unfold iloc_col. cbn. destruct (Z.ltb_spec 0 (Z.of_nat (List.length columns))); [reflexivity|lia].
Qed.
Lemma lfd_str : forall cfg columns n s, no_col columns n -> dget (ohlc_indices cfg) n = Some (CStr s) ->
  line_from_dataframe cfg columns n = Raise TypeError.
Proof.
  intros cfg columns n s H Hd. apply index_no_col in H. unfold line_from_dataframe. now rewrite H, Hd.
Qed.
Lemma lfd_neg : forall cfg columns n z, no_col columns n -> dget (ohlc_indices cfg) n = Some (CInt z) -> (z < 0)%Z ->
  line_from_dataframe cfg columns n =
  if (z <? - Z.of_nat (List.length columns))%Z then Raise IndexError
  else Ok (Z.to_nat (Z.of_nat (List.length columns) + z)).
Proof.
  intros cfg columns n z H Hd Hz. apply index_no_col in H. unfold line_from_dataframe. rewrite H, Hd. cbn [bind].
  rewrite map_length. destruct (Z.leb_spec (Z.of_nat (List.length columns)) z); [lia|].
  unfold iloc_col. destruct (Z.ltb_spec z 0); [reflexivity|lia].
Qed.
