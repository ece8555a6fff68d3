(** Which column of a DataFrame an input takes. *)
From Coq Require Import List String Bool Arith ZArith Lia Sorted.
From Verif Require Import Series Py Inputs InputsFacts.
Import ListNotations.
Set Implicit Arguments.
Local Open Scope string_scope.
Local Open Scope list_scope.
Local Open Scope nat_scope.

(** ** Specification *)

(** set_ohlc_indices names column [i] for the input [n], by position or by (lower-case) label *)
Definition configured (cfg : icfg) (columns : list string) (n : string) (i : nat) : Prop :=
  dget (ohlc_indices cfg) n = Some (CInt (Z.of_nat i)) \/
  exists s, dget (ohlc_indices cfg) n = Some (CStr s) /\ first_col columns s i.

(** a column no earlier input has taken *)
Definition available (columns : list string) (taken : list nat) (i : nat) : Prop :=
  i < List.length columns /\ ~ In i taken.

(** the configuration is consulted before the names and leads to a column still available *)
Definition first_choice (cfg : icfg) (columns : list string) (taken : list nat) (n : string) (i : nat) : Prop :=
  ohlc_first cfg = true /\ configured cfg columns n i /\ available columns taken i.

Inductive chosen (cfg : icfg) (columns : list string) (taken : list nat) (n : string) (i : nat) : Prop :=
| by_index_first : first_choice cfg columns taken n i -> chosen cfg columns taken n i
| by_name : (forall j, ~ first_choice cfg columns taken n j) ->
    first_col columns n i -> available columns taken i -> chosen cfg columns taken n i
| by_index : (forall j, ~ first_choice cfg columns taken n j) -> no_col columns n ->
    configured cfg columns n i -> available columns taken i -> chosen cfg columns taken n i
| by_default : (forall j, ~ first_choice cfg columns taken n j) ->
    (forall j, first_col columns n j -> In j taken) ->
    (no_col columns n -> forall j, configured cfg columns n j -> ~ available columns taken j) ->
    available columns taken i -> (forall j, available columns taken j -> i <= j) ->
    chosen cfg columns taken n i.

(** ** Facts *)
Lemma configured_unique : forall cfg columns n i j,
  configured cfg columns n i -> configured cfg columns n j -> i = j.
Proof.
  intros cfg columns n i j [H|[s [H F]]] [H'|[s' [H' F']]]; rewrite H in H'; try discriminate.
  - injection H' as E. lia.
  - injection H' as <-. eapply first_col_unique; eauto.
Qed.
Lemma chosen_unique : forall cfg columns taken n i j,
  chosen cfg columns taken n i -> chosen cfg columns taken n j -> i = j.
Proof.
  intros cfg columns taken n i j Hi Hj.
  destruct Hi as [[A [B C]]|A B C|A B C D|A B C D E], Hj as [[A' [B' C']]|A' B' C'|A' B' C' D'|A' B' C' D' E'].
  - eapply configured_unique; eauto.
  - exfalso. apply (A' i). now split.
  - exfalso. apply (A' i). now split.
  - exfalso. apply (A' i). now split.
  - exfalso. apply (A j). now split.
  - eapply first_col_unique; eauto.
  - exfalso. destruct B as [[c [Hc E]] _]. apply (B' c); [eapply nth_error_In; eauto|exact E].
  - exfalso. destruct C as [_ C]. apply C, B', B.
  - exfalso. apply (A j). now split.
  - exfalso. destruct B' as [[c [Hc E]] _]. apply (B c); [eapply nth_error_In; eauto|exact E].
  - eapply configured_unique; eauto.
  - exfalso. apply (C' B i C D).
  - exfalso. apply (A j). now split.
  - exfalso. destruct C' as [_ C']. apply C', B, B'.
  - exfalso. apply (C B' j C' D').
  - assert (i <= j) by now apply E. assert (j <= i) by now apply E'. lia.
Qed.

(** the free columns: in decreasing order, exactly the available ones *)
Definition holds_free (columns : list string) (taken cs : list nat) : Prop :=
  StronglySorted (fun a b => b < a) cs /\ forall i, In i cs <-> available columns taken i.

Lemma conf_spec : forall cfg columns n z, conf_index cfg (map lower columns) n = Ok z ->
  forall i, z = Z.of_nat i <-> configured cfg columns n i.
Proof.
  unfold conf_index, configured. intros cfg columns n z H i.
  destruct (dget (ohlc_indices cfg) n) as [[y|s]|].
  - injection H as ->. split; [intros ->; now left|].
    intros [E|[s [E _]]]; [now injection E|discriminate].
  - destruct (index_of s (map lower columns)) as [j|] eqn:E; [|discriminate].
    injection H as <-. split.
    + intro Q. apply Nat2Z.inj in Q. subst j. right. exists s. split; [reflexivity|now apply index_first_col].
    + intros [Q|[s' [Q F]]]; [discriminate|]. injection Q as <-. apply index_first_col in F.
      rewrite E in F. now injection F as ->.
  - injection H as <-. split; [lia|]. intros [E|[s [E _]]]; discriminate.
Qed.

Lemma sorted_remove : forall cs z, StronglySorted (fun a b => b < a) cs ->
  StronglySorted (fun a b => b < a) (remove_idx z cs) /\
  (forall i, In i (remove_idx z cs) <-> In i cs /\ Z.of_nat i <> z).
Proof.
  induction cs as [|c cs IH]; intros z H; cbn; [split; [constructor|tauto]|].
  apply StronglySorted_inv in H as [Hs Hf]. rewrite Forall_forall in Hf.
  destruct (Z.eqb_spec (Z.of_nat c) z) as [E|E].
  - split; [exact Hs|]. intro i. split.
    + intro Hi. specialize (Hf i Hi). split; [now right|lia].
    + intros [[->|Hi] Q]; [lia|exact Hi].
  - destruct (IH z Hs) as [H1 H2]. split.
    + constructor; [exact H1|]. rewrite Forall_forall. intros x Hx. apply H2 in Hx. apply Hf. tauto.
    + intro i. cbn. rewrite H2. split.
      * intros [<-|?]; [split; [now left|exact E]|]. tauto.
      * tauto.
Qed.
Lemma sorted_snoc : forall l x, StronglySorted (fun a b => b < a) (l ++ [x]) ->
  StronglySorted (fun a b => b < a) l /\ forall y, In y l -> x < y.
Proof.
  induction l as [|a l IH]; intros x H; cbn in *; [split; [constructor|easy]|].
  apply StronglySorted_inv in H as [Hs Hf]. rewrite Forall_forall in Hf.
  destruct (IH x Hs) as [H1 H2]. split.
  - constructor; [exact H1|]. rewrite Forall_forall. intros y Hy. apply Hf, in_or_app. now left.
  - intros y [<-|Hy]; [|now apply H2]. apply Hf, in_or_app. right. now left.
Qed.

Lemma take_free : forall columns taken cs i, holds_free columns taken cs -> In i cs ->
  holds_free columns (i :: taken) (remove_idx (Z.of_nat i) cs).
Proof.
  intros columns taken cs i [Hs H] Hi. destruct (sorted_remove (Z.of_nat i) Hs) as [H1 H2].
  split; [exact H1|]. intro j. rewrite H2, H. unfold available. cbn. split.
  - intros [[A B] C]. split; [exact A|]. intros [->|Q]; [now apply C|now apply B].
  - intros [A B]. split; [split; [exact A|tauto]|]. intro Q. apply B. left. lia.
Qed.
Lemma pop_free : forall columns taken cs i r, holds_free columns taken cs -> pop_idx cs = Ok (i, r) ->
  available columns taken i /\ (forall j, available columns taken j -> i <= j) /\
  holds_free columns (i :: taken) r.
Proof.
  unfold pop_idx. intros columns taken cs i r [Hs H] E.
  destruct (rev cs) as [|x q] eqn:R; [discriminate|]. injection E as -> <-.
  assert (Hc : cs = rev q ++ [i]) by (rewrite <- (rev_involutive cs), R; reflexivity).
  rewrite Hc in Hs. destruct (sorted_snoc _ _ Hs) as [H1 H2].
  split; [apply H; rewrite Hc; apply in_or_app; right; now left|]. split.
  - intros j Hj. apply H in Hj. rewrite Hc in Hj. apply in_app_or in Hj as [Hj|[->|[]]]; [|lia].
    apply H2 in Hj. lia.
  - split; [exact H1|]. intro j. unfold available. cbn. split.
    + intro Hj. assert (A : available columns taken j) by (apply H; rewrite Hc; apply in_or_app; now left).
      destruct A as [A B]. split; [exact A|]. intros [->|Q]; [|now apply B]. apply H2 in Hj. lia.
    + intros [A B]. assert (Q : In j cs) by (apply H; split; [exact A|tauto]).
      rewrite Hc in Q. apply in_app_or in Q as [Q|[->|[]]]; [exact Q|]. exfalso. apply B. now left.
Qed.

Lemma step_chosen : forall cfg columns n taken cs i r, holds_free columns taken cs ->
  df_step cfg (map lower columns) n cs = Ok (i, r) ->
  chosen cfg columns taken n i /\ holds_free columns (i :: taken) r.
Proof.
  intros cfg columns n taken cs i r HF H. unfold df_step in H.
  assert (Hfree : forall z, free z cs = true <-> exists j, z = Z.of_nat j /\ available columns taken j).
  { intro z. rewrite free_spec. destruct HF as [_ HF]. split; intros [j [A B]]; exists j; (split; [now (auto || apply HF)|]);
      (now apply HF) || auto. }
  destruct (if ohlc_first cfg then conf_index cfg (map lower columns) n else Ok (-1)%Z) as [z|] eqn:E1; [|discriminate].
  cbn [bind] in H.
  assert (HFC : forall j, first_choice cfg columns taken n j <-> z = Z.of_nat j /\ available columns taken j).
  { intro j. unfold first_choice. destruct (ohlc_first cfg).
    - rewrite <- (conf_spec _ _ _ E1 j). tauto.
    - injection E1 as <-. split; [intros [? _]; discriminate|]. intros [Q _]. lia. }
  destruct (free z cs) eqn:F1.
  - cbn [bind] in H. rewrite F1 in H. apply Hfree in F1 as [j [-> A]]. injection H as <- <-.
    rewrite Nat2Z.id. split; [apply by_index_first, HFC; auto|].
    apply take_free; [exact HF|]. now apply HF.
  - assert (NF : forall j, ~ first_choice cfg columns taken n j).
    { intros j Q. apply HFC in Q as [-> A]. assert (free (Z.of_nat j) cs = true) by (apply Hfree; eauto). congruence. }
    destruct (index_of n (map lower columns)) as [k|] eqn:E2.
    + cbn [bind] in H. apply index_first_col in E2. destruct (free (Z.of_nat k) cs) eqn:F2.
      * apply Hfree in F2 as [j [Q A]]. apply Nat2Z.inj in Q. subst j. injection H as <- <-.
        rewrite Nat2Z.id. split; [now apply by_name|]. apply take_free; [exact HF|]. now apply HF.
      * destruct (pop_free HF H) as [A [B C]]. split; [|exact C]. apply by_default; auto.
        -- intros j Hj. assert (j = k) by (eapply first_col_unique; eauto). subst j.
           destruct (in_dec Nat.eq_dec k taken) as [Q|Q]; [exact Q|]. exfalso.
           assert (free (Z.of_nat k) cs = true); [|congruence]. apply Hfree. exists k. split; [reflexivity|].
           split; [|exact Q]. destruct E2 as [[c [Hc _]] _]. apply nth_error_Some. congruence.
        -- intros Hn. exfalso. destruct E2 as [[c [Hc Q]] _]. apply (Hn c); [eapply nth_error_In; eauto|exact Q].
    + apply index_no_col in E2. destruct (conf_index cfg (map lower columns) n) as [y|] eqn:E3; [|discriminate].
      cbn [bind] in H. destruct (free y cs) eqn:F2.
      * apply Hfree in F2 as [j [-> A]]. injection H as <- <-. rewrite Nat2Z.id. split.
        -- apply by_index; auto. now apply (conf_spec _ _ _ E3).
        -- apply take_free; [exact HF|]. now apply HF.
      * destruct (pop_free HF H) as [A [B C]]. split; [|exact C]. apply by_default; auto.
        -- intros j Hj. exfalso. destruct Hj as [[c [Hc Q]] _]. apply (E2 c); [eapply nth_error_In; eauto|exact Q].
        -- intros _ j Hj Av. apply (conf_spec _ _ _ E3) in Hj. subst y.
           assert (free (Z.of_nat j) cs = true) by (apply Hfree; eauto). congruence.
Qed.

Lemma loop_chosen : forall cfg columns names taken cs m, holds_free columns taken cs ->
  df_loop cfg (map lower columns) names cs = Ok m ->
  forall pre n i post, m = pre ++ (n, i) :: post -> chosen cfg columns (rev (map snd pre) ++ taken) n i.
Proof.
  induction names as [|a names IH]; intros taken cs m HF H pre n i post E; cbn [df_loop] in H.
  - injection H as <-. destruct pre; discriminate.
  - destruct (df_step cfg (map lower columns) a cs) as [[j r]|] eqn:E1; [|discriminate]. cbn [bind fst snd] in H.
    destruct (df_loop cfg (map lower columns) names r) as [m'|] eqn:E2; [|discriminate]. cbn [bind] in H.
    injection H as <-. destruct (@step_chosen _ _ _ _ _ _ _ HF E1) as [A B].
    destruct pre as [|[a' j'] pre]; cbn [app] in E; inversion E; subst; clear E.
    + cbn. exact A.
    + cbn [map snd rev]. rewrite <- app_assoc. cbn [app]. eapply IH; eauto.
Qed.

Lemma rev_seq_free : forall columns,
  holds_free columns [] (rev (seq 0 (List.length (map lower columns)))).
Proof.
  intro columns. rewrite map_length. split.
  - assert (G : forall k s, (forall y, In y s -> k <= y) -> StronglySorted (fun a b => b < a) s ->
              StronglySorted (fun a b => b < a) (s ++ rev (seq 0 k))).
    { intros k s Hy Hs. revert k Hy. induction Hs as [|a s Hs IH Hf]; intros k Hy; cbn [app].
      - clear Hy. induction k as [|k IHk]; [constructor|].
        rewrite seq_S, rev_app_distr. cbn. constructor; [exact IHk|].
        rewrite Forall_forall. intros x Hx. rewrite <- in_rev, in_seq in Hx. lia.
      - constructor; [apply IH; intros y Q; apply Hy; now right|].
        rewrite Forall_forall in *. intros x Hx. apply in_app_or in Hx as [Hx|Hx]; [now apply Hf|].
        rewrite <- in_rev, in_seq in Hx. specialize (Hy a (or_introl eq_refl)). lia. }
    apply (G (List.length columns) []); [intros y []|constructor].
  - intro i. rewrite <- in_rev, in_seq. unfold available. cbn. lia.
Qed.

Lemma dataframe_chosen : forall cfg columns names m, from_dataframe cfg 0 columns names = Ok m ->
  forall pre n i post, m = pre ++ (n, i) :: post -> chosen cfg columns (map snd pre) n i.
Proof.
  unfold from_dataframe. intros cfg columns names m H pre n i post E. change (0 <? 0) with false in H.
  cbv beta iota zeta in H.
  destruct (List.length (map lower columns) <? List.length names); [discriminate|].
  assert (Q := @loop_chosen _ _ _ _ _ _ (rev_seq_free columns) H _ _ _ _ E).
  rewrite app_nil_r in Q.
  assert (P : forall x l, chosen cfg columns (rev l) n x -> chosen cfg columns l n x).
  { intros x l. assert (I : forall y, In y (rev l) <-> In y l) by (intro; now rewrite <- in_rev).
    assert (Av : forall y, available columns (rev l) y <-> available columns l y)
      by (intro; unfold available; now rewrite I).
    assert (Fc : forall y, first_choice cfg columns (rev l) n y <-> first_choice cfg columns l n y)
      by (intro; unfold first_choice; now rewrite Av).
    intros [A|A B C|A B C D|A B C D F].
    - apply by_index_first. now apply Fc.
    - apply by_name; auto; [intros j Q'; apply (A j); now apply Fc|now apply Av].
    - apply by_index; auto; [intros j Q'; apply (A j); now apply Fc|now apply Av].
    - apply by_default.
      + intros j Q'. apply (A j). now apply Fc.
      + intros j Q'. apply I. now apply B.
      + intros Q' j Q'' Q3. apply (C Q' j Q''). now apply Av.
      + now apply Av.
      + intros j Q'. apply F. now apply Av. }
  now apply P.
Qed.

(** ** One argument per input *)

(** what argument number [k] gives to the input [n]: a series or line itself, the first output of an indicator, and
    of a DataFrame the column with the name, else the configured position, else the first column *)
Inductive given (cfg : icfg) (k : nat) (n : string) : arg -> source -> Prop :=
| given_line : given cfg k n ALine (SArg k)
| given_output : forall nouts bars, given cfg k n (AHolder nouts bars) (SOut k 0)
| given_named : forall columns i, first_col columns n i -> given cfg k n (ADf columns) (SCol k i)
| given_configured : forall columns i, no_col columns n -> i < List.length columns ->
    dget (ohlc_indices cfg) n = Some (CInt (Z.of_nat i)) -> given cfg k n (ADf columns) (SCol k i)
| given_from_end : forall columns i, no_col columns n -> i < List.length columns ->
    dget (ohlc_indices cfg) n = Some (CInt (Z.of_nat i - Z.of_nat (List.length columns))) ->
    given cfg k n (ADf columns) (SCol k i)
| given_first : forall columns, no_col columns n -> columns <> [] ->
    (dget (ohlc_indices cfg) n = None \/
     exists z, dget (ohlc_indices cfg) n = Some (CInt z) /\ (Z.of_nat (List.length columns) <= z)%Z) ->
    given cfg k n (ADf columns) (SCol k 0).

Lemma make_given : forall cfg k a n s, make_input cfg k a n = Ok s <-> given cfg k n a s.
Proof.
  intros cfg k a n s. split.
  - destruct a as [columns|nouts bars|]; cbn [make_input].
    + intro H. destruct (line_from_dataframe cfg columns n) as [c|] eqn:E; [|discriminate].
      cbn [bind] in H. injection H as <-. revert E. unfold line_from_dataframe. cbv zeta.
      rewrite map_length. set (w := List.length columns).
      destruct (index_of n (map lower columns)) as [i|] eqn:Q.
      * apply index_first_col in Q. cbn [bind].
        assert (Hi : i < w) by (destruct Q as [[c' [Hc _]] _]; apply nth_error_Some; congruence).
        destruct (Z.leb_spec (Z.of_nat w) (Z.of_nat i)); [lia|]. unfold iloc_col.
        destruct (Z.ltb_spec (Z.of_nat i) 0); [lia|]. destruct (Z.ltb_spec (Z.of_nat i) (Z.of_nat w)); [|lia].
        intro E. injection E as <-. rewrite Nat2Z.id. now apply given_named.
      * apply index_no_col in Q. destruct (dget (ohlc_indices cfg) n) as [[z|s']|] eqn:D; cbn [bind].
        -- destruct (Z.leb_spec (Z.of_nat w) z) as [L|L]; unfold iloc_col.
           ++ change (0 <? 0)%Z with false. cbv iota. destruct (Z.ltb_spec 0 (Z.of_nat w)) as [W|W]; [|discriminate].
              intro E. injection E as <-. apply given_first; [exact Q| |right; eauto].
              intros ->. cbn in w. subst w. lia.
           ++ destruct (Z.ltb_spec z 0) as [Z0|Z0].
              ** destruct (Z.ltb_spec z (- Z.of_nat w)); [discriminate|]. intro E. injection E as <-.
                 apply given_from_end; [exact Q|unfold w in *; lia|]. rewrite D. do 2 f_equal. unfold w in *. lia.
              ** destruct (Z.ltb_spec z (Z.of_nat w)); [|lia]. intro E. injection E as <-.
                 apply given_configured; [exact Q|unfold w in *; lia|]. rewrite D. do 2 f_equal. lia.
        -- discriminate.
        -- assert (G : (if (Z.of_nat w <=? 0)%Z then 0%Z else 0%Z) = 0%Z) by now destruct (Z.of_nat w <=? 0)%Z.
           rewrite G. unfold iloc_col. change (0 <? 0)%Z with false. cbv iota.
           destruct (Z.ltb_spec 0 (Z.of_nat w)) as [W|W]; [|discriminate].
           intro E. injection E as <-. apply given_first; [exact Q| |now left].
           intros ->. cbn in w. subst w. lia.
    + intro H. injection H as <-. constructor.
    + intro H. injection H as <-. constructor.
  - intro H. destruct H as [|nouts bars|columns i F|columns i N L D|columns i N L D|columns N C D]; cbn [make_input].
    + reflexivity.
    + reflexivity.
    + now rewrite (@lfd_named cfg _ _ _ F).
    + rewrite (@lfd_int cfg columns n _ N D) by lia. cbn. now rewrite Nat2Z.id.
    + rewrite (@lfd_neg cfg columns n _ N D) by lia.
      destruct (Z.ltb_spec (Z.of_nat i - Z.of_nat (List.length columns)) (- Z.of_nat (List.length columns))); [lia|].
      cbn [bind]. do 2 f_equal. lia.
    + rewrite (@lfd_zero cfg columns n N C); [reflexivity|]. destruct D as [D|[z [D L]]]; eauto.
Qed.
Lemma positional_given : forall cfg depth names allow sl args r,
  names <> [] -> List.length names <= List.length args ->
  from_args cfg depth names allow sl args = Ok r ->
  exists m, r = (m, List.length names, sl) /\ map fst m = names /\
    forall k n s, nth_error m k = Some (n, s) -> exists a, nth_error args k = Some a /\ given cfg k n a s.
Proof.
  intros cfg depth names allow sl args r N L H. destruct (positional_ok _ _ _ _ _ N L H) as [m [A [B C]]].
  exists m. split; [exact A|]. split; [exact B|]. intros k n s Q. destruct (C k n s Q) as [a [D E]]. exists a.
  split; [exact D|]. now apply make_given.
Qed.
Lemma make_inputs_all : forall cfg names args i,
  (forall k n a, nth_error names k = Some n -> nth_error args k = Some a -> exists s, given cfg (i + k) n a s) ->
  exists m, make_inputs cfg i args names = Ok m.
Proof.
  induction names as [|n names IH]; intros [|a args] i H; cbn [make_inputs]; eauto.
  destruct (H 0 n a eq_refl eq_refl) as [s G]. rewrite Nat.add_0_r in G. apply make_given in G. rewrite G. cbn [bind].
  destruct (IH args (S i)) as [m E].
  - intros k n' a' A B. destruct (H (S k) n' a' A B) as [s' G']. exists s'. now rewrite Nat.add_succ_r in G'.
  - rewrite E. cbn. eauto.
Qed.
Lemma positional_complete : forall cfg depth names allow sl args,
  names <> [] -> List.length names <= List.length args ->
  (forall k n a, nth_error names k = Some n -> nth_error args k = Some a -> exists s, given cfg k n a s) ->
  exists r, from_args cfg depth names allow sl args = Ok r.
Proof.
  intros cfg depth names allow sl args N L H. unfold from_args.
  destruct args as [|a0 args]; [destruct names; [congruence|cbn in L; lia]|].
  set (al := a0 :: args) in *. destruct (Nat.leb_spec (List.length names) (List.length al)); [|lia].
  destruct (@make_inputs_all cfg names (firstn (List.length names) al) 0) as [m E].
  - intros k n a A B. apply H; [exact A|]. rewrite nth_error_firstn_lt in B; [exact B|].
    apply nth_error_Some. congruence.
  - rewrite E. cbn. eauto.
Qed.
