(** No repainting for the Hilbert transform indicators that index with the measured cycle, for every number type in
    which that cycle is not longer than the number of bars seen (CatalogHT.v for exact arithmetic; here the same
    argument with that bound as a hypothesis, for double precision). *)
From Coq Require Import ZArith QArith List Bool Lia Arith.
From Verif Require Import Num Series Line Spec LineFacts ScanFacts Expr CausalFacts
  Apply IndSar IndHT Catalog CatalogSpec CatalogR CatalogR2 CatalogFacts.
Import ListNotations.
Set Implicit Arguments.

Lemma bind_Ok {A B} (r : res A) (f : A -> res B) y : bind r f = Ok y -> exists a, r = Ok a /\ f a = Ok y.
Proof. destruct r; cbn; [eauto|discriminate]. Qed.
Lemma getitem_prefix {A} (s t : list A) k : (k < length s)%nat -> getitem (s ++ t) (Z.of_nat k) = getitem s (Z.of_nat k).
Proof.
  intro H. unfold getitem. destruct (Z.ltb_spec (Z.of_nat k) 0); [lia|].
  destruct (Z.ltb_spec (Z.of_nat k) 0); [lia|]. rewrite Nat2Z.id, nth_error_app1 by lia. reflexivity.
Qed.

Section Gen.
  Context {V : Type} {N : Num V} {T : NumT V}.
  (** [okp d v]: after [d] turns the smoothed cycle can be [v] *)
  Variable okp : nat -> V -> Prop.
  Variable okq : nat -> V -> Prop.
  Hypothesis bars_seen0 : forall d v z, okp (S d) v -> pyint (vadd v (vofQ (5 # 10))) = Ok z ->
    exists w, z = Z.of_nat w /\ (w <= 31 + d)%nat.
  Definition st_ok (d : nat) (st : htst V) : Prop := okq d (h_period st) /\ okp d (h_sp st).
  Hypothesis ht0_ok : st_ok 0 ht0.
  Hypothesis step_ok0 : forall d st p, st_ok d st -> st_ok (S d) (ht_step st p).
  Lemma bars_seen d v z : okp (S d) v -> pyint (vadd v (vofQ (5 # 10))) = Ok z -> exists w, z = Z.of_nat w /\ (w <= 31 + d)%nat.
  Proof. apply bars_seen0. Qed.
  Lemma step_ok d st p : st_ok d st -> st_ok (S d) (ht_step st p).
  Proof. apply step_ok0. Qed.

(** ** The turns of the loops read only bars seen *)
Lemma dft_prefix (s t : list V) i c dcis a b :
  (i < length s)%nat -> (forall j, In j dcis -> (j <= i)%nat) ->
  dft_from (s ++ t) (Z.of_nat i) c dcis a b = dft_from s (Z.of_nat i) c dcis a b.
Proof.
  intros Hi. revert a b. induction dcis as [|j dcis IH]; intros a b Hj; cbn [dft_from]; [reflexivity|].
  assert (Hji : (j <= i)%nat) by (apply Hj; now left).
  replace (Z.of_nat i - Z.of_nat j)%Z with (Z.of_nat (i - j)) by lia.
  rewrite getitem_prefix by lia. destruct (getitem s _); cbn [bind]; [|reflexivity].
  apply IH. intros j' H. apply Hj. now right.
Qed.
Lemma phase_prefix (s t : list V) d v ph :
  okp (S d) v -> (31 + d < length s)%nat -> phase_at (s ++ t) (31 + d) v ph = phase_at s (31 + d) v ph.
Proof.
  intros Hv Hs. unfold phase_at. destruct (pyint _) as [z|] eqn:E; cbn [bind]; [|reflexivity].
  destruct (bars_seen Hv E) as (w & -> & Hw). unfold dft.
  rewrite dft_prefix; auto. intros j Hj. apply in_seq in Hj. lia.
Qed.
Lemma it_prefix (s t : list V) d w :
  (w <= 31 + d)%nat -> (31 + d < length s)%nat ->
  it_at (s ++ t) (31 + d) (Z.of_nat w) = it_at s (31 + d) (Z.of_nat w).
Proof.
  intros Hw Hs. unfold it_at.
  replace (Z.of_nat (31 + d) - (Z.of_nat w - 1))%Z with (Z.of_nat (32 + d - w)) by lia.
  replace (Z.of_nat (31 + d) + 1)%Z with (Z.of_nat (32 + d)) by lia.
  rewrite !slice_nat. rewrite skipn_app.
  replace (32 + d - w - length s)%nat with 0%nat by lia. cbn [skipn].
  rewrite firstn_app, skipn_length.
  replace (32 + d - (32 + d - w) - (length s - (32 + d - w)))%nat with 0%nat by lia.
  rewrite firstn_O, app_nil_r. reflexivity.
Qed.
Lemma tm_prefix (s t s0 t0 : list V) d v p S0 :
  okp (S d) v -> (31 + d < length s)%nat -> (31 + d < length s0)%nat ->
  tm_step (s ++ t) (s0 ++ t0) (31 + d) v p S0 = tm_step s s0 (31 + d) v p S0.
Proof.
  intros Hv Hs Hs0. unfold tm_step. rewrite phase_prefix by auto.
  destruct (phase_at s _ _ _); cbn [bind]; [|reflexivity].
  destruct (pyint _) as [z|] eqn:E; cbn [bind]; [|reflexivity].
  destruct (bars_seen Hv E) as (w & -> & Hw). rewrite it_prefix by auto. reflexivity.
Qed.


Section Loops.
  Variables s t s0 t0 : list V.

  Lemma phase_loop_prefix rest u d st ph r r' :
    (31 + d + length rest <= length s)%nat -> st_ok d st ->
    phase_loop s (31 + d) st ph rest = Ok r -> phase_loop (s ++ t) (31 + d) st ph (rest ++ u) = Ok r' ->
    length r = length rest /\ length r' = length (rest ++ u) /\ prefix r r'.
  Proof.
    assert (HL : forall rest i st ph (q : list V) x, phase_loop q i st ph rest = Ok x -> length x = length rest).
    { clear. induction rest as [|p rest IH]; intros i st ph q x H; cbn [phase_loop] in H.
      - injection H as <-. reflexivity.
      - apply bind_Ok in H. destruct H as (a & _ & H). apply bind_Ok in H. destruct H as (b & H & [= <-]).
        cbn [length]. f_equal. eapply IH; eauto. }
    intros Hlen Hst H H'. split; [eapply HL; eauto|]. split; [eapply HL; eauto|].
    revert d st ph r r' Hlen Hst H H'.
    induction rest as [|p rest IH]; intros d st ph r r' Hlen Hst H H'.
    - injection H as <-. exists r'. reflexivity.
    - cbn [phase_loop app length] in *. pose proof (step_ok p Hst) as Hst'.
      rewrite phase_prefix in H'; [|apply Hst'|lia].
      apply bind_Ok in H. destruct H as (a & E & H). rewrite E in H'. cbn [bind] in H'.
      apply bind_Ok in H. destruct H as (b & H & [= <-]).
      apply bind_Ok in H'. destruct H' as (b' & H' & [= <-]).
      destruct (IH (S d) (ht_step st p) a b b') as [v ->]; auto; try lia.
      exists v. reflexivity.
  Qed.

  Lemma trend_loop_prefix rest u d st a b c r r' :
    (31 + d + length rest <= length s0)%nat -> st_ok d st ->
    trend_loop s0 (31 + d) st a b c rest = Ok r -> trend_loop (s0 ++ t0) (31 + d) st a b c (rest ++ u) = Ok r' ->
    length r = length rest /\ length r' = length (rest ++ u) /\ prefix r r'.
  Proof.
    assert (HL : forall rest i st a b c (q : list V) x, trend_loop q i st a b c rest = Ok x -> length x = length rest).
    { clear. induction rest as [|p rest IH]; intros i st a b c q x H; cbn [trend_loop] in H.
      - injection H as <-. reflexivity.
      - apply bind_Ok in H. destruct H as (e & _ & H). apply bind_Ok in H. destruct H as (f & H & [= <-]).
        cbn [length]. f_equal. eapply IH; eauto. }
    intros Hlen Hst H H'. split; [eapply HL; eauto|]. split; [eapply HL; eauto|].
    revert d st a b c r r' Hlen Hst H H'.
    induction rest as [|p rest IH]; intros d st a b c r r' Hlen Hst H H'.
    - injection H as <-. exists r'. reflexivity.
    - cbn [trend_loop app length] in *. pose proof (step_ok p Hst) as Hst'.
      apply bind_Ok in H. destruct H as (z & E & H). rewrite E in H'. cbn [bind] in H'.
      destruct (bars_seen (proj2 Hst') E) as (w & -> & Hw). rewrite it_prefix in H' by (auto; lia).
      apply bind_Ok in H. destruct H as (e & H & [= <-]).
      apply bind_Ok in H'. destruct H' as (e' & H' & [= <-]).
      destruct (IH (S d) (ht_step st p) (it_at s0 (31 + d) (Z.of_nat w)) a b e e') as [v ->]; auto; try lia.
      exists v. reflexivity.
  Qed.

  Lemma tm_loop_prefix rest u d st S0 r r' :
    (31 + d + length rest <= length s)%nat -> length s0 = length s -> st_ok d st ->
    tm_loop s s0 (31 + d) st S0 rest = Ok r -> tm_loop (s ++ t) (s0 ++ t0) (31 + d) st S0 (rest ++ u) = Ok r' ->
    length r = length rest /\ length r' = length (rest ++ u) /\ prefix r r'.
  Proof.
    assert (HL : forall rest i st a (q q0 : list V) x, tm_loop q q0 i st a rest = Ok x -> length x = length rest).
    { clear. induction rest as [|p rest IH]; intros i st a q q0 x H; cbn [tm_loop] in H.
      - injection H as <-. reflexivity.
      - apply bind_Ok in H. destruct H as (e & _ & H). apply bind_Ok in H. destruct H as (f & H & [= <-]).
        cbn [length]. f_equal. eapply IH; eauto. }
    intros Hlen H0 Hst H H'. split; [eapply HL; eauto|]. split; [eapply HL; eauto|].
    revert d st S0 r r' Hlen Hst H H'.
    induction rest as [|p rest IH]; intros d st S0 r r' Hlen Hst H H'.
    - injection H as <-. exists r'. reflexivity.
    - cbn [tm_loop app length] in *. pose proof (step_ok p Hst) as Hst'.
      rewrite tm_prefix in H'; [|apply Hst'|lia|lia].
      apply bind_Ok in H. destruct H as (a & E & H). rewrite E in H'. cbn [bind] in H'.
      apply bind_Ok in H. destruct H as (b & H & [= <-]).
      apply bind_Ok in H'. destruct H' as (b' & H' & [= <-]).
      destruct (IH (S d) (ht_step st p) (fst a) b b') as [v ->]; auto; try lia.
      exists v. reflexivity.
  Qed.
End Loops.

Lemma zeroed_form (s : list V) : (31 <= length s)%nat -> zeroed 31 s = repeat v0 31 ++ skipn 31 s.
Proof.
  intro H. unfold zeroed, set_slice. change 0%Z with (Z.of_nat 0). rewrite !slice_lo_nat, Nat.min_0_l.
  rewrite (Nat.min_l 31) by lia. rewrite Nat.max_0_l, Nat.sub_0_r. reflexivity.
Qed.
Lemma zeroed_prefix (s t : list V) : (31 <= length s)%nat -> zeroed 31 (s ++ t) = zeroed 31 s ++ t.
Proof.
  intro H. rewrite !zeroed_form by (rewrite ?app_length; lia). rewrite <- app_assoc. f_equal.
  rewrite skipn_app. replace (31 - length s)%nat with 0%nat by lia. reflexivity.
Qed.
Lemma zeroed_length (s : list V) : (31 <= length s)%nat -> length (zeroed 31 s) = length s.
Proof. intro H. rewrite zeroed_form by auto. rewrite app_length, repeat_length, skipn_length. lia. Qed.

Lemma buffered_prefix k (s t r r' : list V) :
  length r = (length s - k)%nat -> length r' = (length (s ++ t) - k)%nat -> ((k <= length s)%nat -> prefix r r') ->
  length (buffered k s r) = length s /\ length (buffered k (s ++ t) r') = length (s ++ t) /\
  prefix (buffered k s r) (buffered k (s ++ t) r').
Proof.
  intros H1 H2 H3. unfold buffered. rewrite !app_length, !repeat_length in *. split; [lia|]. split; [lia|].
  rewrite <- !plc_form. apply plc_prefix; auto. lia.
Qed.

(** ** Both calculations succeed: then they agree *)
Definition Rb {A A'} (P : A -> A' -> Prop) (r : res A) (r' : res A') : Prop :=
  forall y y', r = Ok y -> r' = Ok y' -> P y y'.
Lemma Rb_of {A A'} (P : A -> A' -> Prop) r r' : Rr P r r' -> Rb P r r'.
Proof. intros H y y' E E'. destruct (H _ E) as (z & E2 & HP). rewrite E' in E2. injection E2 as ->. exact HP. Qed.
Lemma Rb_ok {A A'} (P : A -> A' -> Prop) a a' : P a a' -> Rb P (Ok a) (Ok a').
Proof. now intros H y y' [= <-] [= <-]. Qed.
Lemma Rb_bind {A A' B B'} (P : A -> A' -> Prop) (Q : B -> B' -> Prop) r r' f f' :
  Rb P r r' -> (forall a a', P a a' -> Rb Q (f a) (f' a')) -> Rb Q (bind r f) (bind r' f').
Proof.
  intros H Hf y y' E E'. apply bind_Ok in E. destruct E as (a & Ea & E).
  apply bind_Ok in E'. destruct E' as (a' & Ea' & E'). eapply Hf; eauto.
Qed.

Definition FcausalB (F : list V -> list (list V) -> res (list (list V))) : Prop :=
  forall s ss s' ss' r r' m m', length s = m -> length s' = m' -> (m <= m')%nat ->
    Forall (fun x => length x = m) ss -> Forall (fun x => length x = m') ss' ->
    prefix s s' -> Forall2 prefix ss ss' -> F s ss = Ok r -> F s' ss' = Ok r' ->
    Forall2 (fun x x' => length x = m /\ length x' = m' /\ prefix x x') r r'.

Section R.
  Variables n n' : nat.
  Hypothesis Hnn : (n <= n')%nat.
  Notation line := (line V).
  Notation Rl := (@Rl V n n').
  Notation Rp := (@Rp V n n').
  Notation Rin := (@Rin V n n').

  Lemma Rb_applymulti F a a' args args' :
    FcausalB F -> Rl a a' -> Forall2 Rl args args' ->
    Rb (Forall2 Rl) (applymulti_ F a args) (applymulti_ F a' args').
  Proof.
    intros HF Ha Hargs y y' Hy Hy'. pose proof Ha as (A1 & A2 & A3 & A4 & A5). unfold applymulti_ in *.
    destruct (max_mp_R Hnn Ha Hargs) as [M1 M2]. rewrite <- M1 in *.
    destruct (@mi_nat (max_mp a args)) as [k Hk]; auto. rewrite Hk, slice_from_nat in *.
    assert (E : forall l : list line, map (fun x => slice_from (lser x) (Z.of_nat k)) l =
                               map (fun x => skipn k (lser x)) l).
    { intro l. apply map_ext. intro x. apply slice_from_nat. }
    rewrite E in *. apply bind_Ok in Hy. destruct Hy as (r & Hr & Hy). injection Hy as <-.
    apply bind_Ok in Hy'. destruct Hy' as (r' & Hr' & Hy'). injection Hy' as <-.
    destruct (args_prefix Hnn k Hargs) as (I1 & I2 & I3).
    assert (P := HF (skipn k (lser a)) (map (fun x => skipn k (lser x)) args)
                 (skipn k (lser a')) (map (fun x => skipn k (lser x)) args') r r' (n - k)%nat (n' - k)%nat).
    rewrite !skipn_length in P. specialize (P ltac:(lia) ltac:(lia) ltac:(lia) I1 I2 (prefix_skipn _ A5) I3 Hr Hr').
    clear Hr Hr'. induction P as [|x x' xs xs' (L & L' & P) Pxs IH]; simpl; constructor; auto.
    rewrite !clone_pos by lia. unfold nans. rewrite A2, A3.
    repeat split; cbn [lmp lser]; auto.
    - apply (@plc_length V). lia.
    - apply (@plc_length V). lia.
    - apply (@plc_prefix V); auto.
  Qed.
  (** [apply_] is [applymulti_] with one result *)
  Lemma Rb_apply F a a' args args' :
    FcausalB (fun s ss => r <- F s ss ;; Ok [r]) -> Rl a a' -> Forall2 Rl args args' ->
    Rb Rl (apply_ F a args) (apply_ F a' args').
  Proof.
    intros HF Ha Hargs y y' Hy Hy'.
    assert (H : Forall2 Rl [y] [y']).
    { apply (Rb_applymulti HF Ha Hargs); unfold apply_, applymulti_ in *.
      - apply bind_Ok in Hy. destruct Hy as (r & -> & [= <-]). reflexivity.
      - apply bind_Ok in Hy'. destruct Hy' as (r & -> & [= <-]). reflexivity. }
    now inversion H.
  Qed.

  Lemma phase_loops s u r r' :
    phase_loop (zeroed 31 s) 31 ht0 v0 (skipn 31 s) = Ok r ->
    phase_loop (zeroed 31 (s ++ u)) 31 ht0 v0 (skipn 31 (s ++ u)) = Ok r' ->
    length r = (length s - 31)%nat /\ length r' = (length (s ++ u) - 31)%nat /\ ((31 <= length s)%nat -> prefix r r').
  Proof.
    intros H H'.
    assert (HL : forall rest i st ph (q : list V) x, phase_loop q i st ph rest = Ok x -> length x = length rest).
    { clear. induction rest as [|p rest IH]; intros i st ph q x H; cbn [phase_loop] in H.
      - injection H as <-. reflexivity.
      - apply bind_Ok in H. destruct H as (a & _ & H). apply bind_Ok in H. destruct H as (b & H & [= <-]).
        cbn [length]. f_equal. eapply IH; eauto. }
    rewrite (HL _ _ _ _ _ _ H), (HL _ _ _ _ _ _ H'), !skipn_length. split; [lia|]. split; [lia|]. intro L.
    rewrite zeroed_prefix in H' by auto. rewrite skipn_app in H'. replace (31 - length s)%nat with 0%nat in H' by lia.
    eapply (@phase_loop_prefix (zeroed 31 s) u _ _ 0 ht0 v0); [|apply ht0_ok|exact H|exact H'].
    rewrite zeroed_length, skipn_length by auto. lia.
  Qed.

  Lemma dcphasize_B : FcausalB (fun s ss => r <- dcphasize s ;; Ok [r]).
  Proof.
    intros s ss s' ss' r r' m m' Hs Hs' Hm _ _ [u ->] _ H H'.
    apply bind_Ok in H. destruct H as (a & H & [= <-]). apply bind_Ok in H'. destruct H' as (a' & H' & [= <-]).
    unfold dcphasize in *. apply bind_Ok in H. destruct H as (b & H & [= <-]).
    apply bind_Ok in H'. destruct H' as (b' & H' & [= <-]).
    destruct (phase_loops _ _ H H') as (A & B & C). subst m m'.
    constructor; [|constructor]. apply buffered_prefix; auto.
  Qed.
  Lemma prefix_map {A B} (f : A -> B) l m : prefix l m -> prefix (map f l) (map f m).
  Proof. intros [t ->]. exists (map f t). apply map_app. Qed.
  Lemma sinize_B : FcausalB (fun s (_ : list (list V)) => sinize s).
  Proof.
    intros s ss s' ss' r r' m m' Hs Hs' Hm _ _ [u ->] _ H H'.
    unfold sinize in *. apply bind_Ok in H. destruct H as (b & H & [= <-]).
    apply bind_Ok in H'. destruct H' as (b' & H' & [= <-]).
    destruct (phase_loops _ _ H H') as (A & B & C). subst m m'.
    constructor; [|constructor; [|constructor]];
      (apply buffered_prefix; [now rewrite map_length|now rewrite map_length|]; intro L; apply prefix_map; auto).
  Qed.
  Lemma trendlinize_B : FcausalB (fun price args =>
    r <- match args with price0 :: _ => trendlinize price price0 | [] => Raise TypeError end ;; Ok [r]).
  Proof.
    intros s ss s' ss' r r' m m' Hs Hs' Hm Hl Hl' [u ->] P H H'.
    destruct P as [|s0 s0' ss ss' [u0 ->] _]; [discriminate|].
    inversion Hl as [|? ? L0 _]; subst. inversion Hl' as [|? ? L0' _]; subst.
    apply bind_Ok in H. destruct H as (a & H & [= <-]). apply bind_Ok in H'. destruct H' as (a' & H' & [= <-]).
    unfold trendlinize in *. apply bind_Ok in H. destruct H as (b & H & [= <-]).
    apply bind_Ok in H'. destruct H' as (b' & H' & [= <-]).
    assert (HL : forall rest i st a b c (q : list V) x, trend_loop q i st a b c rest = Ok x -> length x = length rest).
    { clear. induction rest as [|p rest IH]; intros i st a b c q x H; cbn [trend_loop] in H.
      - injection H as <-. reflexivity.
      - apply bind_Ok in H. destruct H as (e & _ & H). apply bind_Ok in H. destruct H as (f & H & [= <-]).
        cbn [length]. f_equal. eapply IH; eauto. }
    constructor; [|constructor].
    apply buffered_prefix; [now rewrite (HL _ _ _ _ _ _ _ _ H), skipn_length|
                            now rewrite (HL _ _ _ _ _ _ _ _ H'), skipn_length|].
    intro L. rewrite skipn_app in H'. replace (31 - length s)%nat with 0%nat in H' by lia.
    eapply (@trend_loop_prefix s0 u0 _ _ 0 ht0); [|apply ht0_ok|exact H|exact H'].
    rewrite skipn_length, L0. lia.
  Qed.
  Lemma trendmodize_B : FcausalB (fun price args =>
    r <- match args with price0 :: _ => trendmodize price price0 | [] => Raise TypeError end ;; Ok [r]).
  Proof.
    intros s ss s' ss' r r' m m' Hs Hs' Hm Hl Hl' [u ->] P H H'.
    destruct P as [|s0 s0' ss ss' [u0 ->] _]; [discriminate|].
    inversion Hl as [|? ? L0 _]; subst. inversion Hl' as [|? ? L0' _]; subst.
    apply bind_Ok in H. destruct H as (a & H & [= <-]). apply bind_Ok in H'. destruct H' as (a' & H' & [= <-]).
    unfold trendmodize in *. apply bind_Ok in H. destruct H as (b & H & [= <-]).
    apply bind_Ok in H'. destruct H' as (b' & H' & [= <-]).
    assert (HL : forall rest i st a (q q0 : list V) x, tm_loop q q0 i st a rest = Ok x -> length x = length rest).
    { clear. induction rest as [|p rest IH]; intros i st a q q0 x H; cbn [tm_loop] in H.
      - injection H as <-. reflexivity.
      - apply bind_Ok in H. destruct H as (e & _ & H). apply bind_Ok in H. destruct H as (f & H & [= <-]).
        cbn [length]. f_equal. eapply IH; eauto. }
    constructor; [|constructor].
    apply buffered_prefix; [now rewrite (HL _ _ _ _ _ _ _ H), skipn_length|
                            now rewrite (HL _ _ _ _ _ _ _ H'), skipn_length|].
    intro L. rewrite zeroed_prefix in H' by auto.
    rewrite skipn_app in H'. replace (31 - length s)%nat with 0%nat in H' by lia.
    eapply (@tm_loop_prefix (zeroed 31 s) u s0 u0 _ _ 0 ht0); [| |apply ht0_ok|exact H|exact H'].
    - rewrite zeroed_length, skipn_length by auto. lia.
    - rewrite zeroed_length by auto. exact L0.
  Qed.

  Unset Implicit Arguments.
  Lemma Rb_two (y y' : list line) e :
    Forall2 Rl y y' ->
    Rb Rp (match y with
           | [a; b] => Ok (period_ a 57 false (Some vnan), period_ b 57 false (Some vnan)) | _ => Raise e end)
          (match y' with
           | [a; b] => Ok (period_ a 57 false (Some vnan), period_ b 57 false (Some vnan)) | _ => Raise e end).
  Proof.
    intros H. destruct H as [|a a' y y' Ha [|b b' z z' Hb [|]]]; try (intros ? ? HH; discriminate HH).
    apply Rb_ok. split; cbn [fst snd]; apply (R_period Hnn (inc := 57%Z)); auto; lia.
  Qed.
  Lemma Rb_dcphase i i' : Rin i i' -> Rb Rl (ht_dcphase i) (ht_dcphase i').
  Proof.
    intro Hi. unfold ht_dcphase. cbv zeta. pose proof (R_p0smooth Hnn (R_p0 Hnn i i' Hi)) as Hp.
    eapply Rb_bind with (P := Rl).
    - apply Rb_apply; [exact dcphasize_B|exact Hp|]. constructor; [|constructor]. apply (R_filled Hnn v0 Hp).
    - intros x x' Hx. apply Rb_ok. apply (R_period Hnn (inc := 57%Z)); auto; lia.
  Qed.
  Lemma Rb_sine i i' : Rin i i' -> Rb Rp (ht_sine i) (ht_sine i').
  Proof.
    intro Hi. unfold ht_sine. cbv zeta. pose proof (R_p0smooth Hnn (R_p0 Hnn i i' Hi)) as Hp.
    eapply Rb_bind with (P := Forall2 Rl).
    - apply Rb_applymulti; [exact sinize_B|exact Hp|].
      constructor; [|constructor; [|constructor]]; apply (R_filled Hnn v0 Hp).
    - intros x x' Hx. now apply Rb_two.
  Qed.
  Lemma Rb_trendline i i' : Rin i i' -> Rb Rl (ht_trendline i) (ht_trendline i').
  Proof.
    intro Hi. unfold ht_trendline. cbv zeta. pose proof (R_p0 Hnn i i' Hi) as H0.
    pose proof (R_p0smooth Hnn H0) as Hp.
    eapply Rb_bind with (P := Rl).
    - apply Rb_apply; [exact trendlinize_B|exact Hp|].
      constructor; [exact H0|constructor; [|constructor]]. apply (R_filled Hnn v0 Hp).
    - intros x x' Hx. apply Rb_ok. apply (R_period Hnn (inc := 57%Z)); auto; lia.
  Qed.
  Lemma Rb_trendmode i i' : Rin i i' -> Rb Rl (ht_trendmode i) (ht_trendmode i').
  Proof.
    intro Hi. unfold ht_trendmode. cbv zeta. pose proof (R_p0 Hnn i i' Hi) as H0.
    pose proof (R_p0smooth Hnn H0) as Hp.
    eapply Rb_bind with (P := Rl).
    - apply Rb_apply; [exact trendmodize_B|exact Hp|].
      constructor; [exact H0|constructor; [|constructor]]. apply (R_filled Hnn v0 Hp).
    - intros x x' Hx. apply Rb_ok. apply (R_period Hnn (inc := 57%Z)); auto; lia.
  Qed.
End R.

Section F.
  Variables n n' : nat.
  Hypothesis Hnn : (n <= n')%nat.
  Notation line := (line V).
  Notation Rl := (@Rl V n n').
  Notation Rls := (Forall2 Rl).

  Lemma Rb_inht (f f' : ht_in V -> res (list line)) ins ins' :
    Rls ins ins' -> (forall i i', Rin n n' i i' -> Rb Rls (f i) (f' i')) -> Rb Rls (inht ins f) (inht ins' f').
  Proof.
    intros H Hf. destruct H as [|a a' ? ? Ha [|b b' ? ? Hb [|]]]; try (intros ? ? HH; discriminate HH);
      apply Hf; simpl; auto.
  Qed.

  Lemma run_Rb x ins ins' : valid x -> Rls ins ins' -> Rb Rls (run x ins) (run x ins').
  Proof.
    intros Hv Hi.
    destruct x; try (apply Rb_of; apply (run_R Hnn); [exact Hv|intro HH; exact HH|exact Hi]);
      cbn [run]; (apply Rb_inht; [exact Hi|]; intros i i' Hin).
    - eapply Rb_bind; [exact (Rb_dcphase n n' Hnn i i' Hin)|]. intros a a' Ha. apply Rb_ok. auto.
    - eapply Rb_bind; [exact (Rb_sine n n' Hnn i i' Hin)|]. intros a a' [H1 H2]. apply Rb_ok. auto.
    - eapply Rb_bind; [exact (Rb_trendline n n' Hnn i i' Hin)|]. intros a a' Ha. apply Rb_ok. auto.
    - eapply Rb_bind; [exact (Rb_trendmode n n' Hnn i i' Hin)|]. intros a a' Ha. apply Rb_ok. auto.
  Qed.

  Lemma session_Rb steps env env' :
    Forall (fun s => valid (fst s)) steps -> Rls env env' -> Rb Rls (session env steps) (session env' steps).
  Proof.
    intro Hs. revert env env'. induction Hs as [|[x is] steps Hv Hs IH]; intros env env' He; cbn [session].
    - now apply Rb_ok.
    - eapply Rb_bind; [apply Rb_of, (pick_R (n:=n) (n':=n')), He|]. intros ins ins' Hi.
      eapply Rb_bind; [now apply run_Rb|]. intros o o' Ho. apply IH. now apply Forall2_app.
  Qed.
End F.

Lemma session_agree n n' (env env' : list (line V)) steps outs outs' :
  (n <= n')%nat ->
  Forall2 (fun x x' => (1 <= lmp x)%Z /\ length (lser x) = n /\ length (lser x') = n' /\
                       extends x x') env env' ->
  Forall (fun s => valid (fst s)) steps ->
  session env steps = Ok outs -> session env' steps = Ok outs' -> Forall2 extends outs outs'.
Proof.
  intros Hn HE Hs He He'.
  assert (HR : Forall2 (@Rl V n n') env env').
  { clear -HE. induction HE as [|x y xs ys (A & B & C & D & E)]; constructor; auto. repeat split; auto. }
  pose proof (session_Rb n n' Hn steps _ _ Hs HR _ _ He He') as H.
  clear -H. induction H as [|x y xs ys (A & B & C & D & F)]; constructor; auto. split; auto.
Qed.

(** ** A missing price *)
End Gen.
