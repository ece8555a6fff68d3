(** Lemmas for the theorems added after seeded bugs survived: what the caller holds, the initial configuration, case of
    names, help texts, look-up with a default. *)
From Coq Require Import List String Ascii Bool Arith ZArith Lia.
From Verif Require Import Num Series Line Apply Py PyFacts Params LinesGen Mem Keep KeepSpec Inputs Docs Calls Holder HolderFacts PropHolderFacts.
Import ListNotations.
Local Open Scope string_scope.
Local Open Scope list_scope.
Local Open Scope nat_scope.

Section Kept.
  Context {V : Type} {N : Num V}.

  Lemma mine_kept : forall (w : kworld V) ev s, mine w s -> ev <> KForget s -> mine (kstep w ev) s.
  Proof.
    unfold mine. intros w ev s H Hn. destruct ev; cbn [kstep k_mine]; auto.
    - destruct (pick _ _ _); [|exact H]. unfold read_one. cbn [k_mine]. destruct (series_of _ _); [|exact H]. apply in_or_app. now left.
    - destruct (pick _ _ _); [|exact H]. unfold read_one. cbn [k_mine]. destruct (series_of _ _); [|exact H]. apply in_or_app. now left.
    - unfold remove_nat. apply filter_In. split; [exact H|]. apply negb_true_iff, Nat.eqb_neq. intros ->. now apply Hn.
  Qed.
  Lemma mine_history : forall evs (w : kworld V) s, mine w s -> (forall e, In e evs -> e <> KForget s) -> mine (khistory w evs) s.
  Proof.
    induction evs as [|e evs IH]; intros w s H Hn; [exact H|]. unfold khistory. cbn [fold_left]. apply IH.
    - apply mine_kept; [exact H|]. apply Hn. now left.
    - intros e' He. apply Hn. now right.
  Qed.
  Lemma own_held : forall (st : store V) s evs, s < List.length (sers st) -> (forall e, In e evs -> e <> KForget s) ->
    in_use (khistory (start st) evs) s.
  Proof.
    intros st s evs H Hn. left. apply mine_history; [|exact Hn]. unfold mine, start. cbn [k_mine]. apply in_seq. lia.
  Qed.
  Lemma read_held : forall (w : kworld V) k j l s evs,
    series_of (k_st w) l = Some s ->
    (forall e, In e evs -> e <> KForget s) ->
    (pick (w_inds (k_w w)) k j = Some l -> in_use (khistory (kstep w (KRead k j)) evs) s) /\
    (pick (k_ins w) k j = Some l -> in_use (khistory (kstep w (KLook k j)) evs) s).
  Proof.
    intros w k j l s evs S Hn. split; intros P; left; apply mine_history; auto; unfold mine; cbn [kstep]; rewrite P;
      unfold read_one; cbn [k_mine]; rewrite S; apply in_or_app; right; now left.
  Qed.
End Kept.

Lemma lower_letter : forall c : ascii,
  let n := nat_of_ascii c in
  (65 <= n <= 90 -> nat_of_ascii (lower_ascii c) = n + 32) /\ (~ 65 <= n <= 90 -> lower_ascii c = c).
Proof.
  intros c n. subst n. unfold lower_ascii. cbv zeta. destruct (Nat.leb_spec 65 (nat_of_ascii c)), (Nat.leb_spec (nat_of_ascii c) 90); cbn [andb]; split; intros; try lia; try reflexivity.
  apply nat_ascii_embedding. lia.
Qed.
Lemma lower_chars : forall s i, String.get i (lower s) = option_map lower_ascii (String.get i s).
Proof. induction s as [|c s IH]; intros [|i]; cbn; auto. Qed.
Lemma lower_letters : forall s i c, String.get i s = Some c ->
  exists d, String.get i (lower s) = Some d /\
    (65 <= nat_of_ascii c <= 90 -> nat_of_ascii d = nat_of_ascii c + 32) /\ (~ 65 <= nat_of_ascii c <= 90 -> d = c).
Proof. intros s i c H. exists (lower_ascii c). rewrite lower_chars, H. split; [reflexivity|]. exact (lower_letter c). Qed.
Lemma lower_length : forall s, String.length (lower s) = String.length s.
Proof. induction s as [|c s IH]; cbn; auto. Qed.

Lemma shown_as : forall cn v,
  (forall s, show cn v = ShQuoted s <-> v = PStr s) /\
  (forall n, show cn v = ShClass n <-> exists k, v = PObj k /\ cn k = Some n) /\
  ((forall s, v <> PStr s) -> (forall k n, v = PObj k -> cn k <> Some n) -> show cn v = ShValue v).
Proof.
  intros cn v. destruct v; cbn; try (repeat split; [discriminate|discriminate|discriminate|intros (? & [=] & _)]); try (intros; congruence).
  - split; [|split].
    + intro u. split; congruence.
    + intro n. split; [discriminate|intros (k & [=] & _)].
    + intros H _. now elim (H s).
  - split; [|split].
    + intro u. destruct (cn id); split; congruence.
    + intro n. destruct (cn id) as [m|] eqn:E; split.
      * intros [= <-]. exists id. auto.
      * intros (k & [= <-] & F). congruence.
      * discriminate.
      * intros (k & [= <-] & F). congruence.
    + intros _ H. destruct (cn id) as [m|] eqn:E; [now elim (H id m)|reflexivity].
Qed.

Lemma initial_config :
  get_return_dataframe config0 = false /\
  (forall kw, dget kw "_talib" = None -> talib_flag config0 kw = false) /\
  (forall n k, dget (cf_indices config0) n = Some (CInt k) <->
     exists i, k = Z.of_nat i /\ nth_error ["open"; "high"; "low"; "close"; "volume"; "openinterest"] i = Some n) /\
  truthy (cf_first config0) = false.
Proof.
  split; [reflexivity|]. split.
  - intros kw H. unfold talib_flag. rewrite H. reflexivity.
  - split; [|reflexivity]. intros n k. split.
    + cbn [config0 cf_indices dget].
      repeat match goal with
      | |- context [String.eqb ?a ?b] => destruct (String.eqb_spec a b) as [E|_]
      end; intro H; try discriminate H; injection H as <-; rewrite E.
      * now exists 0.
      * now exists 1.
      * now exists 2.
      * now exists 3.
      * now exists 4.
      * now exists 5.
    + intros (i & -> & H). do 6 (destruct i as [|i]; [injection H as <-; reflexivity|]). destruct i; discriminate H.
Qed.

Lemma get_default : forall (A : Type) bases decl ext cls, lgenerate bases decl ext = Ok cls ->
  forall islots mps extra body (outs : list (string * hval A)) h,
  construct cls (lnames cls) islots mps extra body outs = Ok h ->
  (forall s, In s (lnames cls) -> exists l, hitem h (KStr s) = Ok (ALine l) /\ lget_dflt (hd_out h) s = Ok (Some (ALine l))) /\
  (forall s, hcontains h s = Ok false <-> lget_dflt (hd_out h) s = Ok None).
Proof.
  intros A bases decl ext cls G islots mps extra body outs h B. split.
  - intros s Hs. destruct (@holder_access A _ _ _ _ G _ _ _ _ _ _ B) as (ls & Hn & _ & _ & _ & Ha).
    rewrite <- Hn in Hs. apply in_map_iff in Hs. destruct Hs as (l & <- & Hl). apply In_nth_error in Hl. destruct Hl as [k Hk].
    destruct (Ha k l Hk) as (_ & _ & H3 & H4 & _). exists l. split; [exact H3|]. unfold lget_dflt. now rewrite H4.
  - intro s. unfold hcontains, lhas, lget_dflt. destruct (lget (hd_out h) s) as [a|e]; [split; discriminate|].
    destruct e; split; congruence.
Qed.
