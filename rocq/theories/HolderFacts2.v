(** Facts about the attributes of an indicator instance. *)
From Coq Require Import List String Ascii Bool Arith ZArith Lia DecimalString.
From Coq Require Decimal DecimalNat.
From Verif Require Import Series Py PyFacts LineFacts LinesGen LinesGenFacts Table Registry Holder HolderSpec HolderFacts.
Import ListNotations.
Set Implicit Arguments.
Local Open Scope string_scope.
Local Open Scope list_scope.
Local Open Scope nat_scope.

(** ** Decimal numerals *)
Definition digit (c : ascii) : bool := (48 <=? nat_of_ascii c) && (nat_of_ascii c <=? 57).
Fixpoint digits (s : string) : bool :=
  match s with EmptyString => true | String c s' => digit c && digits s' end.

Lemma uint_digits : forall d, digits (NilEmpty.string_of_uint d) = true.
Proof. induction d; cbn; auto. Qed.
Lemma dec_digits : forall n, digits (dec n) = true.
Proof. intros. apply uint_digits. Qed.
Lemma to_uint_not_nil : forall n, Nat.to_uint n <> Decimal.Nil.
Proof.
  intros n E. pose proof (f_equal Nat.of_uint E) as Q. rewrite DecimalNat.Unsigned.of_to in Q. cbn in Q. subst n. discriminate E.
Qed.
Lemma dec_nonempty : forall n, dec n <> EmptyString.
Proof.
  intros n. unfold dec. pose proof (to_uint_not_nil n) as H.
  destruct (Nat.to_uint n); cbn; congruence.
Qed.
Lemma dec_inj : forall m n, dec m = dec n -> m = n.
Proof.
  unfold dec. intros m n H. apply (f_equal NilEmpty.uint_of_string) in H.
  rewrite !NilEmpty.usu in H. inversion H as [H1].
  apply (f_equal Nat.of_uint) in H1. now rewrite !DecimalNat.Unsigned.of_to in H1.
Qed.
(** a numeral begins with a digit *)
Lemma dec_head : forall n, exists c s, dec n = String c s /\ digit c = true.
Proof.
  intros n. pose proof (dec_nonempty n). pose proof (dec_digits n) as D.
  destruct (dec n) as [|c s]; [congruence|]. cbn in D. apply andb_true_iff in D. exists c, s. tauto.
Qed.
Lemma append_inj : forall a x y : string, (a ++ x = a ++ y)%string -> x = y.
Proof. induction a; cbn; intros x y H; [assumption|]. inversion H. auto. Qed.

Ltac nodigit :=
  repeat match goal with
  | H : (?a ++ dec ?n)%string = _ |- _ => destruct (dec_head n) as (?c & ?s & ?E & ?D); rewrite E in H; clear E; cbn in H
  | H : _ = (?a ++ dec ?n)%string |- _ => destruct (dec_head n) as (?c & ?s & ?E & ?D); rewrite E in H; clear E; cbn in H
  end;
  match goal with H : String _ _ = String _ _ |- _ => inversion H; subst; try discriminate; auto
                | H : _ = _ |- _ => discriminate H end.

(** [strip p s]: what follows the prefix [p] in [s] *)
Fixpoint strip (p s : string) : option string :=
  match p with
  | EmptyString => Some s
  | String c p' => match s with String c' s' => if Ascii.eqb c c' then strip p' s' else None | EmptyString => None end
  end.
Lemma strip_app : forall p x, strip p (p ++ x)%string = Some x.
Proof. induction p; cbn; intros; [reflexivity|]. rewrite Ascii.eqb_refl. auto. Qed.
Definition nonempty (s : string) : bool := match s with EmptyString => false | _ => true end.
Definition numbered (s : string) : bool :=
  existsb (fun p => match strip p s with Some r => nonempty r && digits r | None => false end) prefixes.
Lemma numbered_dec : forall p n, In p prefixes -> numbered (p ++ dec n) = true.
Proof.
  intros p n H. apply existsb_exists. exists p. split; [assumption|]. rewrite strip_app, dec_digits, andb_true_r.
  pose proof (dec_nonempty n). destruct (dec n); [congruence|reflexivity].
Qed.

Lemma strip_some : forall p s r, strip p s = Some r -> s = (p ++ r)%string.
Proof.
  induction p as [|c p IH]; cbn; intros s r H; [congruence|].
  destruct s as [|c' s]; [discriminate|]. destruct (Ascii.eqb_spec c c'); [|discriminate].
  subst. now rewrite (IH _ _ H).
Qed.
(** different prefixes never give the same name *)
Lemma prefix_head : forall p q m n, In p prefixes -> In q prefixes -> (p ++ dec m)%string = (q ++ dec n)%string -> p = q /\ m = n.
Proof.
  intros p q m n Hp Hq H.
  assert (p = q) as ->.
  { destruct (dec_head m) as (c & s & E & D). destruct (dec_head n) as (c' & s' & E' & D').
    rewrite E, E' in H. clear E E'.
    unfold prefixes in Hp, Hq. cbn [In] in Hp, Hq.
    repeat match goal with H : _ \/ _ |- _ => destruct H as [<-|H] end; try contradiction; try reflexivity; exfalso;
      cbn in H; inversion H; subst; discriminate. }
  split; [reflexivity|]. apply append_inj in H. now apply dec_inj.
Qed.

(** ** Dictionaries *)
Lemma dget_dsets_miss : forall l (d : dict ival) x, ~ In x (map fst l) -> dget (dsets d l) x = dget d x.
Proof.
  intros l d x H. unfold dsets. rewrite dget_dupdate.
  assert (dget (rev l) x = None) as ->; [|reflexivity].
  apply dget_none. unfold dkeys. rewrite map_rev. now rewrite <- in_rev.
Qed.
Lemma dget_dsets_hit : forall l (d : dict ival) x v, In (x, v) l -> (forall w, In (x, w) l -> w = v) -> dget (dsets d l) x = Some v.
Proof.
  intros l d x v H U. unfold dsets. rewrite dget_dupdate.
  destruct (dget (rev l) x) as [w|] eqn:E.
  - apply dget_in in E. apply in_rev in E. now rewrite (U _ E).
  - apply dget_none in E. exfalso. apply E. unfold dkeys. rewrite map_rev, <- in_rev.
    apply in_map_iff. exists (x, v). auto.
Qed.

Lemma dget_filter_ne : forall (d : dict ival) s x,
  dget (filter (fun kv => negb (String.eqb (fst kv) s)) d) x = if String.eqb x s then None else dget d x.
Proof.
  induction d as [|[k v] d IH]; cbn; intros s x; [now destruct (String.eqb x s)|].
  destruct (String.eqb_spec k s) as [->|N]; cbn.
  - rewrite IH. destruct (String.eqb_spec x s) as [->|M]; [reflexivity|].
    destruct (String.eqb_spec s x); [congruence|reflexivity].
  - destruct (String.eqb_spec k x) as [->|M].
    + destruct (String.eqb_spec x s); [contradiction|reflexivity].
    + apply IH.
Qed.
Lemma ddel_get : forall d s d' x, ddel d s = Ok d' -> dget d' x = if String.eqb x s then None else dget d x.
Proof.
  intros d s d' x H. unfold ddel in H. destruct (dmem d s); [|discriminate]. inversion H; subst. apply dget_filter_ne.
Qed.
Lemma ddels_get : forall l d d' x, ddels d l = Ok d' -> dget d' x = if smem x l then None else dget d x.
Proof.
  induction l as [|s l IH]; cbn [ddels]; intros d d' x H; [inversion H; reflexivity|].
  destruct (ddel d s) as [d1|] eqn:E; [|discriminate H]. cbn [bind] in H.
  rewrite (IH _ _ x H), (ddel_get _ _ x E). cbn [smem existsb].
  change (existsb (String.eqb x) l) with (smem x l).
  destruct (smem x l); destruct (String.eqb x s); reflexivity.
Qed.
Lemma ddels_missing : forall l d s, In s l -> dget d s = None -> ddels d l = Raise AttributeError.
Proof.
  induction l as [|t l IH]; intros d s [] Hd; cbn [ddels].
  - subst t. unfold ddel, dmem. now rewrite Hd.
  - destruct (ddel d t) as [d1|e] eqn:E; cbn [bind].
    + apply (IH d1 s H). rewrite (ddel_get _ _ s E). now rewrite Hd; destruct (String.eqb s t).
    + unfold ddel in E. destruct (dmem d t); congruence.
Qed.
Lemma ddels_ok : forall l d, NoDup l -> (forall s, In s l -> dget d s <> None) -> exists d', ddels d l = Ok d'.
Proof.
  induction l as [|t l IH]; intros d N H; cbn [ddels]; [eauto|].
  inversion N; subst.
  destruct (ddel d t) as [d1|e] eqn:E; cbn [bind].
  - apply IH; [assumption|]. intros s Hs. rewrite (ddel_get _ _ s E).
    destruct (String.eqb_spec s t) as [->|]; [contradiction|]. apply H. now right.
  - exfalso. unfold ddel, dmem in E. specialize (H t (or_introl eq_refl)).
    destruct (dget d t); [discriminate|congruence].
Qed.

Lemma acts_leaves : forall body d d' s, acts d body = Ok d' -> leaves body s -> dget d' s = dget d s.
Proof.
  induction body as [|a body IH]; cbn [acts]; intros d d' s H L; [inversion H; reflexivity|].
  destruct (act_step d a) as [d1|] eqn:E; [|discriminate H]. cbn [bind] in H.
  rewrite (IH _ _ s H); [|intros b Hb; apply L; now right].
  specialize (L a (or_introl eq_refl)). destruct a as [x v|x]; cbn in E.
  - inversion E; subst. apply dget_dset_other. congruence.
  - rewrite (ddel_get _ _ s E). destruct (String.eqb_spec s x); [congruence|reflexivity].
Qed.
Lemma acts_keys : forall body d d' s, acts d body = Ok d' -> dget d' s <> None ->
  dget d s <> None \/ exists v, In (ASet s v) body.
Proof.
  induction body as [|a body IH]; cbn [acts]; intros d d' s H K; [inversion H; subst; auto|].
  destruct (act_step d a) as [d1|] eqn:E; [|discriminate H]. cbn [bind] in H.
  destruct (IH _ _ s H K) as [K1|[v V]]; [|right; exists v; now right].
  destruct a as [x v|x]; cbn in E.
  - inversion E; subst. destruct (string_dec s x) as [->|N].
    + right. exists v. now left.
    + left. now rewrite dget_dset_other in K1.
  - left. rewrite (ddel_get _ _ s E) in K1. destruct (String.eqb s x); congruence.
Qed.

(** ** The attributes before the body *)
Lemma fixed_not_numbered : forall s, In s fixed_names -> numbered s = false.
Proof. intros s H. cbn in H. repeat (destruct H as [<-|H]; [reflexivity|]). contradiction. Qed.

Lemma in_num_aliases : forall n x v,
  In (x, v) (flat_map (fun k => map (fun a => (a, IIn k)) (num_aliases k)) (seq 0 n)) <->
  exists k p, k < n /\ In p ["i"; "input"; "d"; "data"] /\ x = (p ++ dec k)%string /\ v = IIn k.
Proof.
  intros n x v. rewrite in_flat_map. split.
  - intros (k & Hk & H). apply in_seq in Hk. apply in_map_iff in H. destruct H as (a & E & Ha). inversion E; subst.
    unfold num_aliases in Ha. cbn [In] in Ha.
    destruct Ha as [<-|[<-|[<-|[<-|[]]]]]; eexists _, _; (split; [|split; [|split; reflexivity]]); cbn; auto; lia.
  - intros (k & p & Hk & Hp & -> & ->). exists k. split; [apply in_seq; lia|]. apply in_map_iff.
    exists (p ++ dec k)%string. split; [reflexivity|]. unfold num_aliases.
    cbn [In] in *. destruct Hp as [<-|[<-|[<-|[<-|[]]]]]; auto.
Qed.
Lemma in_name_aliases : forall (slots : list string) x v,
  In (x, v) (flat_map (fun p => map (fun a => (a, IStr (snd p))) (name_aliases (fst p)))
                      (combine (seq 0 (List.length slots)) slots)) <->
  exists k s p, nth_error slots k = Some s /\ In p ["i_"; "input_"; "d_"; "data_"] /\ x = (p ++ dec k)%string /\ v = IStr s.
Proof.
  intros slots x v. rewrite in_flat_map. split.
  - intros ([k s] & Hk & H). apply nth_combine in Hk. destruct Hk as (j & Hj & Hs).
    apply in_map_iff in H. destruct H as (a & E & Ha). inversion E; subst. cbn [fst snd] in *.
    assert (k = j) as ->.
    { assert (j < List.length slots) by (apply nth_error_Some; congruence).
      rewrite (nth_error_nth' _ 0) in Hj by (rewrite seq_length; lia). rewrite seq_nth in Hj by lia.
      inversion Hj. lia. }
    unfold name_aliases in Ha. cbn [In] in Ha.
    destruct Ha as [<-|[<-|[<-|[<-|[]]]]]; eexists _, _, _; (split; [eassumption|split; [|split; reflexivity]]); cbn; auto.
  - intros (k & s & p & Hk & Hp & -> & ->). exists (k, s). split.
    + apply nth_combine. exists k. split; [|assumption].
      assert (k < List.length slots) by (apply nth_error_Some; congruence).
      rewrite (nth_error_nth' _ 0) by (rewrite seq_length; lia). now rewrite seq_nth by lia.
    + apply in_map_iff. exists (p ++ dec k)%string. split; [reflexivity|]. unfold name_aliases.
      cbn [In fst] in *. destruct Hp as [<-|[<-|[<-|[<-|[]]]]]; auto.
Qed.

Lemma pre_num : forall p, In p ["i"; "input"; "d"; "data"] -> In p prefixes.
Proof. cbn. intuition. Qed.
Lemma pre_name : forall p, In p ["i_"; "input_"; "d_"; "data_"] -> In p prefixes.
Proof. cbn. intuition. Qed.
Lemma pre_disj : forall p, In p ["i"; "input"; "d"; "data"] -> In p ["i_"; "input_"; "d_"; "data_"] -> False.
Proof. cbn. intros p H H'. intuition congruence. Qed.

Lemma before_spec : forall slots mps d, attrs_before slots mps = Ok d ->
  (exists m, zmax_list mps = Ok m /\ dget d "_minperiods" = Some (IPers mps) /\ dget d "_minperiod" = Some (IPer m)) /\
  (dget d "outputs" = Some IOuts /\ dget d "o" = Some IOuts /\ dget d "lines" = Some IOuts /\ dget d "l" = Some IOuts /\
   dget d "inputs" = Some IIns /\ dget d "i" = Some IIns /\ dget d "datas" = Some IList /\ dget d "d" = Some IList /\
   dget d "data" = Some (IIn 0) /\ dget d "params" = Some IParams /\ dget d "p" = Some IParams) /\
  (forall k p, k < List.length slots -> In p ["i"; "input"; "d"; "data"] -> dget d (p ++ dec k) = Some (IIn k)) /\
  (forall k s p, nth_error slots k = Some s -> In p ["i_"; "input_"; "d_"; "data_"] -> dget d (p ++ dec k) = Some (IStr s)) /\
  (forall x, dget d x <> None -> In x fixed_names \/
     exists k p, k < List.length slots /\ In p prefixes /\ x = (p ++ dec k)%string).
Proof.
  intros slots mps d H. unfold attrs_before in H.
  destruct slots as [|s0 sl]; [discriminate|]. set (slots := s0 :: sl) in *.
  destruct (zmax_list mps) as [m|] eqn:Z; [|discriminate H]. cbn [bind] in H.
  match type of H with Ok (dsets (dsets (dsets ?d0 ?l1) ?l2) ?l3) = _ =>
    remember d0 as D0; remember l1 as L1; remember l2 as L2; remember l3 as L3 end.
  inversion H; subst d; clear H.
  assert (F : forall x, numbered x = false -> ~ In x (map fst L3) -> dget (dsets (dsets (dsets D0 L1) L2) L3) x = dget D0 x).
  { intros x Nx N3. rewrite (dget_dsets_miss _ _ _ N3). 
    rewrite dget_dsets_miss; [rewrite dget_dsets_miss; [reflexivity|]|].
    - intros Hx. apply in_map_iff in Hx. destruct Hx as ([y v] & E & Hx). cbn in E. subst y L1.
      apply in_num_aliases in Hx. destruct Hx as (k & p & _ & Hp & -> & _).
      rewrite numbered_dec in Nx by (now apply pre_num). discriminate.
    - intros Hx. apply in_map_iff in Hx. destruct Hx as ([y v] & E & Hx). cbn in E. subst y L2.
      apply in_name_aliases in Hx. destruct Hx as (k & s & p & _ & Hp & -> & _).
      rewrite numbered_dec in Nx by (now apply pre_name). discriminate. }
  assert (N3 : forall x, numbered x = true -> ~ In x (map fst L3)).
  { intros x Nx Hx. subst L3. cbn in Hx. repeat (destruct Hx as [<-|Hx]; [discriminate Nx|]). contradiction. }
  split; [|split; [|split; [|split]]].
  - exists m. split; [reflexivity|]. subst L3.
    split; (apply dget_dsets_hit; [cbn; auto|]); intros w; cbn; intuition congruence.
  - assert (I3 : forall x, In x ["params"; "p"] -> dget (dsets (dsets (dsets D0 L1) L2) L3) x = Some IParams).
    { intros x Hx. subst L3. apply dget_dsets_hit; cbn in *.
      - destruct Hx as [<-|[<-|[]]]; auto.
      - intros w. destruct Hx as [<-|[<-|[]]]; intuition congruence. }
    assert (I0 : forall x, In x ["outputs"; "o"; "lines"; "l"; "inputs"; "i"; "datas"; "d"; "data"] ->
                 dget (dsets (dsets (dsets D0 L1) L2) L3) x = dget D0 x).
    { intros x Hx. apply F.
      - apply fixed_not_numbered. cbn in *. intuition.
      - subst L3. cbn in *. intuition congruence. }
    subst D0. repeat split; try (rewrite I0 by (cbn; tauto); reflexivity); apply I3; cbn; tauto.
  - intros k p Hk Hp. pose proof (pre_num Hp) as Hp'.
    rewrite dget_dsets_miss by (apply N3; now apply numbered_dec).
    rewrite dget_dsets_miss.
    + subst L1. apply dget_dsets_hit.
      * apply in_num_aliases. exists k, p. auto.
      * intros w Hw. apply in_num_aliases in Hw. destruct Hw as (k' & p' & _ & Hq & E & ->).
        apply prefix_head in E; [|assumption|now apply pre_num]. now destruct E as [_ <-].
    + intros Hx. apply in_map_iff in Hx. destruct Hx as ([y v] & E & Hx). cbn in E. subst y L2.
      apply in_name_aliases in Hx. destruct Hx as (k' & s & q & _ & Hq & E & _).
      apply prefix_head in E; [|assumption|now apply pre_name]. destruct E as [-> _].
      exact (pre_disj Hp Hq).
  - intros k s p Hk Hp. pose proof (pre_name Hp) as Hp'.
    rewrite dget_dsets_miss by (apply N3; now apply numbered_dec).
    subst L2. apply dget_dsets_hit.
    + apply in_name_aliases. exists k, s, p. auto.
    + intros w Hw. apply in_name_aliases in Hw. destruct Hw as (k' & s' & p' & Hk' & Hq & E & ->).
      apply prefix_head in E; [|assumption|now apply pre_name]. destruct E as [_ <-]. congruence.
  - intros x Hx.
    destruct (in_dec string_dec x (map fst L3)) as [I3|I3].
    { left. subst L3. cbn in *. intuition. }
    rewrite (dget_dsets_miss _ _ _ I3) in Hx.
    destruct (in_dec string_dec x (map fst L2)) as [I2|I2].
    { right. apply in_map_iff in I2. destruct I2 as ([y v] & E & I2). cbn in E. subst y L2.
      apply in_name_aliases in I2. destruct I2 as (k & s & p & Hk & Hp & -> & _). exists k, p.
      split; [apply nth_error_Some; congruence|]. split; [now apply pre_name|reflexivity]. }
    rewrite (dget_dsets_miss _ _ _ I2) in Hx.
    destruct (in_dec string_dec x (map fst L1)) as [I1|I1].
    { right. apply in_map_iff in I1. destruct I1 as ([y v] & E & I1). cbn in E. subst y L1.
      apply in_num_aliases in I1. destruct I1 as (k & p & Hk & Hp & -> & _). exists k, p.
      split; [assumption|]. split; [now apply pre_num|reflexivity]. }
    rewrite (dget_dsets_miss _ _ _ I1) in Hx. left.
    destruct (dget D0 x) eqn:E; [|congruence]. apply dget_in in E. apply (in_map fst) in E.
    subst D0. cbn in *. intuition.
Qed.
