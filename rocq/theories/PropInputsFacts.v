(** Proofs assembled for the properties about inputs. *)
From Coq Require Import List String Bool Arith ZArith Lia.
From Verif Require Import Series Py Inputs InputsFacts.
Import ListNotations.
Set Implicit Arguments.
Local Open Scope string_scope.
Local Open Scope list_scope.
Local Open Scope nat_scope.

Lemma single_input : forall cfg depth n allow columns rest,
  let got c := bind_inputs cfg depth [n] allow [n] (ADf columns :: rest) = (Ok [(n, SCol 0 c)], [n]) in
  let conf := dget (ohlc_indices cfg) n in
  let w := Z.of_nat (List.length columns) in
  (forall i, first_col columns n i -> got i) /\
  (no_col columns n ->
     (forall z, conf = Some (CInt z) -> (0 <= z < w)%Z -> got (Z.to_nat z)) /\
     (forall z, conf = Some (CInt z) -> (w <= z)%Z -> columns <> [] -> got 0) /\
     (conf = None -> columns <> [] -> got 0) /\
     (forall s, conf = Some (CStr s) ->
        bind_inputs cfg depth [n] allow [n] (ADf columns :: rest) = (Raise TypeError, [n])) /\
     (forall z, conf = Some (CInt z) -> (- w <= z < 0)%Z -> got (Z.to_nat (w + z))) /\
     (forall z, conf = Some (CInt z) -> (z < - w)%Z ->
        bind_inputs cfg depth [n] allow [n] (ADf columns :: rest) = (Raise IndexError, [n]))).
Proof.
  intros cfg depth n allow columns rest got conf w. unfold got, conf, w. rewrite bind_single.
  split.
  - intros i H. now rewrite (@lfd_named cfg _ _ _ H).
  - intro H. repeat split; intros.
    + now rewrite (@lfd_int cfg columns n z H H0 H1).
    + rewrite (@lfd_zero cfg columns n H H2); [reflexivity|]. eauto.
    + rewrite (@lfd_zero cfg columns n H H1); [reflexivity|]. auto.
    + now rewrite (@lfd_str cfg columns n s H H0).
    + rewrite (@lfd_neg cfg columns n z H H0) by lia.
      destruct (Z.ltb_spec z (- Z.of_nat (List.length columns))); [lia|reflexivity].
    + rewrite (@lfd_neg cfg columns n z H H0) by lia.
      destruct (Z.ltb_spec z (- Z.of_nat (List.length columns))); [reflexivity|lia].
Qed.

(** a column carrying the name of an input is taken by an earlier, missing, input *)
Lemma stolen : exists columns names m,
  NoDup names /\ from_dataframe default_cfg 0 columns names = Ok m /\
  In "low" names /\ first_col columns "low" 1 /\ In ("high", 1) m /\ ~ In ("low", 1) m.
Proof.
  exists ["close"; "low"], ["high"; "low"], [("high", 1); ("low", 0)].
  split; [repeat constructor; cbn; intuition discriminate|].
  split; [reflexivity|]. split; [cbn; auto|]. split.
  - apply index_first_col. reflexivity.
  - cbn. split; [auto|]. intuition congruence.
Qed.

(** This happens for every DataFrame in which the column configured for a missing first input carries the name
    of a later input. *)
Lemma stolen_general : forall cfg columns a post m i n,
  ohlc_first cfg = false -> no_col columns a ->
  dget (ohlc_indices cfg) a = Some (CInt (Z.of_nat i)) -> i < List.length columns ->
  In n post -> first_col columns n i -> n <> a ->
  from_dataframe cfg 0 columns (a :: post) = Ok m ->
  In (a, i) m /\ ~ In (n, i) m.
Proof.
  intros cfg columns a post m i n Hf Hno Hc Hl Hn Hfirst Hne H.
  assert (Inj := from_dataframe_inj _ _ _ _ H). destruct Inj as [Hfst [Hnd _]].
  assert (Hin : In (a, i) m).
  { rewrite fd0 in H. destruct (_ <? _) in H; [discriminate|]. cbn [df_loop] in H.
    unfold df_step in H. rewrite Hf in H. cbn [bind] in H.
    set (cs := rev (seq 0 (List.length (map lower columns)))) in *.
    assert (F : free (-1)%Z cs = false).
    { destruct (free (-1)%Z cs) eqn:E; [|reflexivity]. apply free_spec in E. destruct E as [k [_ E]]. lia. }
    rewrite F in H. apply index_no_col in Hno. rewrite Hno in H. unfold conf_index in H. rewrite Hc in H.
    cbn [bind] in H.
    assert (F2 : free (Z.of_nat i) cs = true).
    { apply free_nat. unfold cs. rewrite <- in_rev. apply in_seq. rewrite map_length. lia. }
    rewrite F2 in H. cbn [bind fst snd] in H. rewrite Nat2Z.id in H.
    destruct (df_loop cfg (map lower columns) post (remove_idx (Z.of_nat i) cs)); [|discriminate].
    cbn [bind] in H. injection H as <-. now left. }
  split; [exact Hin|]. intro Hin2. apply Hne.
  assert (U : forall (l : list (string * nat)) x y c, NoDup (map snd l) -> In (x, c) l -> In (y, c) l -> x = y).
  { induction l as [|[u v] l IH]; intros x y c Hd H1 H2; [destruct H1|]. cbn in Hd. inversion Hd; subst.
    destruct H1 as [H1|H1], H2 as [H2|H2].
    - congruence.
    - injection H1 as -> ->. exfalso. apply H4. apply (in_map snd) in H2. exact H2.
    - injection H2 as -> ->. exfalso. apply H4. apply (in_map snd) in H1. exact H1.
    - eauto. }
  eauto.
Qed.
