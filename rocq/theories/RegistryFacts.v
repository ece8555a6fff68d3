(** Facts about the registry. *)
From Coq Require Import List String Ascii Bool Arith Lia Permutation Sorted.
From Verif Require Import Series Py PyFacts LinesGen Table Registry.
Import ListNotations.
Set Implicit Arguments.
Local Open Scope string_scope.
Local Open Scope list_scope.
Local Open Scope nat_scope.

(** ** The order on names *)
Lemma nat_of_ascii_inj : forall a b, nat_of_ascii a = nat_of_ascii b -> a = b.
Proof. intros a b H. rewrite <- (ascii_nat_embedding a), <- (ascii_nat_embedding b). now rewrite H. Qed.
Lemma sleb_total : forall a b, sleb a b = true \/ sleb b a = true.
Proof.
  induction a as [|x a IH]; intros [|y b]; cbn [sleb]; auto.
  destruct (Nat.ltb_spec (nat_of_ascii x) (nat_of_ascii y)), (Nat.ltb_spec (nat_of_ascii y) (nat_of_ascii x)); auto; lia.
Qed.
Lemma sleb_antisym : forall a b, sleb a b = true -> sleb b a = true -> a = b.
Proof.
  induction a as [|x a IH]; intros [|y b]; cbn [sleb]; auto; try discriminate.
  destruct (Nat.ltb_spec (nat_of_ascii x) (nat_of_ascii y)), (Nat.ltb_spec (nat_of_ascii y) (nat_of_ascii x));
    try discriminate; try lia.
  intros H1 H2. rewrite (@nat_of_ascii_inj x y) by lia. f_equal. auto.
Qed.
Lemma sleb_trans : forall a b c, sleb a b = true -> sleb b c = true -> sleb a c = true.
Proof.
  induction a as [|x a IH]; intros [|y b] [|z c]; cbn [sleb]; auto; try discriminate.
  destruct (Nat.ltb_spec (nat_of_ascii x) (nat_of_ascii y)), (Nat.ltb_spec (nat_of_ascii y) (nat_of_ascii x));
  destruct (Nat.ltb_spec (nat_of_ascii y) (nat_of_ascii z)), (Nat.ltb_spec (nat_of_ascii z) (nat_of_ascii y));
  destruct (Nat.ltb_spec (nat_of_ascii x) (nat_of_ascii z)), (Nat.ltb_spec (nat_of_ascii z) (nat_of_ascii x));
    try discriminate; try lia; auto.
  apply IH.
Qed.

(** ascending, each name once *)
Definition slt (a b : string) : Prop := sleb a b = true /\ a <> b.

Lemma insert_perm : forall x l, Permutation (insert_s x l) (x :: l).
Proof.
  induction l as [|y l IH]; cbn; [apply Permutation_refl|].
  destruct (sleb x y); [apply Permutation_refl|].
  eapply perm_trans; [apply perm_skip, IH|apply perm_swap].
Qed.
Lemma sorted_perm : forall l, Permutation (sorted_s l) l.
Proof.
  induction l as [|x l IH]; cbn; [constructor|]. eapply perm_trans; [apply insert_perm|]. now apply perm_skip.
Qed.
Lemma insert_sorted : forall x l, ~ In x l -> StronglySorted slt l -> StronglySorted slt (insert_s x l).
Proof.
  induction l as [|y l IH]; intros Hn H; cbn.
  - constructor; constructor.
  - inversion H; subst. destruct (sleb x y) eqn:E.
    + constructor; [exact H|]. constructor.
      * split; [exact E|]. intros ->. apply Hn. now left.
      * rewrite Forall_forall in H3 |- *. intros z Hz. destruct (H3 z Hz) as [Hz1 Hz2]. split.
        -- eapply sleb_trans; eauto.
        -- intros ->. apply Hn. now right.
    + constructor.
      * apply IH; auto. intro Hi. apply Hn. now right.
      * assert (E' : sleb y x = true) by (destruct (sleb_total x y); congruence).
        rewrite Forall_forall in *. intros z Hz.
        apply (Permutation_in _ (insert_perm x l)) in Hz. destruct Hz as [<-|Hz]; [|auto].
        split; [exact E'|]. intros ->. apply Hn. now left.
Qed.
Lemma sorted_sorted : forall l, NoDup l -> StronglySorted slt (sorted_s l).
Proof.
  induction l as [|x l IH]; intro H; cbn; [constructor|]. inversion H; subst.
  apply insert_sorted; [|auto]. intro Hi. apply H2. apply (Permutation_in _ (sorted_perm l)) in Hi. exact Hi.
Qed.

(** ** Registrations *)
(** a class is listed if its module lies at least two levels below the package and its name is not private *)
Definition listed (op : reg_op) : Prop :=
  (exists a b rest, r_path op = "btalib" :: a :: b :: rest) /\ private (r_name op) = false.

Lemma register_spec : forall r op,
  (listed op /\ register r op =
     mkReg (dset (names_ind r) (r_name op) (r_cls op)) ((r_cls op, r_name op) :: ind_names r)
           (fold_left (fun g grp => grp_append g grp (r_cls op)) (r_groups op) (grp_ind r))) \/
  (~ listed op /\ register r op = r).
Proof.
  intros r op. unfold register.
  destruct (match r_path op with p :: _ => String.eqb p "btalib" | [] => false end && (2 <? List.length (r_path op))) eqn:E.
  - destruct (private (r_name op)) eqn:P; cbn.
    + right. split; [|reflexivity]. intros [_ H]. congruence.
    + left. split; [|reflexivity]. split; [|exact P].
      apply andb_true_iff in E. destruct E as [E1 E2].
      destruct (r_path op) as [|p [|a [|b rest]]]; cbn in E1, E2; try discriminate.
      apply String.eqb_eq in E1. subst. eauto.
  - right. split; [|reflexivity]. intros [[a [b [rest H]]] _]. rewrite H in E. cbn in E. discriminate.
Qed.

Lemma register_names : forall ops r, NoDup (dkeys (names_ind r)) ->
  let r' := fold_left register ops r in
  NoDup (dkeys (names_ind r')) /\
  forall n, In n (dkeys (names_ind r')) <->
    In n (dkeys (names_ind r)) \/ exists op, In op ops /\ listed op /\ r_name op = n.
Proof.
  induction ops as [|op ops IH]; intros r H; cbn.
  - split; [exact H|]. intro n. split; [tauto|]. intros [Hn|[op [[] _]]]. exact Hn.
  - destruct (register_spec r op) as [[Hl E]|[Hl E]]; rewrite E.
    + destruct (IH (mkReg (dset (names_ind r) (r_name op) (r_cls op)) ((r_cls op, r_name op) :: ind_names r)
           (fold_left (fun g grp => grp_append g grp (r_cls op)) (r_groups op) (grp_ind r)))) as [H1 H2].
      { cbn. now apply dset_nodup. }
      split; [exact H1|]. intro n. rewrite H2. cbn [names_ind]. rewrite in_dkeys_dset. split.
      * intros [[->|Hn]|[o [Ho Hx]]]; [right; exists op; auto|tauto|right; exists o; tauto].
      * intros [Hn|[o [[<-|Ho] [Hx1 Hx2]]]]; [tauto|left; left; auto|right; exists o; tauto].
    + destruct (IH r H) as [H1 H2]. split; [exact H1|]. intro n. rewrite H2. split.
      * intros [Hn|[o [Ho Hx]]]; [tauto|right; exists o; tauto].
      * intros [Hn|[o [[<-|Ho] [Hx1 Hx2]]]]; [tauto|contradiction|right; exists o; tauto].
Qed.
(** the class kept for a name is the one registered last *)
Lemma register_last : forall pre op post, listed op ->
  (forall o, In o post -> listed o -> r_name o <> r_name op) ->
  dget (names_ind (register_all (pre ++ op :: post))) (r_name op) = Some (r_cls op).
Proof.
  intros pre op post Hl Hp. unfold register_all. rewrite fold_left_app. cbn [fold_left].
  set (r := fold_left register pre reg0).
  destruct (register_spec r op) as [[_ E]|[H _]]; [|contradiction]. rewrite E. clear E.
  assert (G : forall post r1, (forall o, In o post -> listed o -> r_name o <> r_name op) ->
     dget (names_ind (fold_left register post r1)) (r_name op) = dget (names_ind r1) (r_name op)).
  { clear. induction post as [|o post IH]; intros r1 H; cbn; [reflexivity|].
    rewrite IH by (intros; apply H; auto; now right).
    destruct (register_spec r1 o) as [[Ho ->]|[_ ->]]; [|reflexivity]. cbn.
    apply dget_dset_other. intro Q. apply (H o); auto. now left. }
  rewrite G by exact Hp. cbn. apply dget_dset_same.
Qed.

Lemma registry_listing : forall ops,
  let r := register_all ops in
  StronglySorted slt (get_ind_names r) /\
  (forall n, In n (get_ind_names r) <-> exists op, In op ops /\ listed op /\ r_name op = n) /\
  List.length (get_indicators r) = List.length (get_ind_names r) /\
  (forall k n, nth_error (get_ind_names r) k = Some n ->
     exists pre op post, ops = pre ++ op :: post /\ listed op /\ r_name op = n /\
       (forall o, In o post -> listed o -> r_name o <> n) /\
       nth_error (get_indicators r) k = Some (Some (r_cls op))).
Proof.
  intros ops r.
  destruct (@register_names ops reg0 ltac:(constructor)) as [H1 H2]. fold (register_all ops) in H1, H2. fold r in H1, H2.
  assert (Hin : forall n, In n (get_ind_names r) <-> exists op, In op ops /\ listed op /\ r_name op = n).
  { intro n. unfold get_ind_names. split.
    - intro H. apply (Permutation_in _ (sorted_perm _)) in H. apply H2 in H. destruct H as [[]|H]. exact H.
    - intro H. apply (Permutation_in _ (Permutation_sym (sorted_perm _))). apply H2. now right. }
  split; [now apply sorted_sorted|]. split; [exact Hin|]. split; [apply map_length|].
  intros k n Hk.
  assert (Hn : exists op, In op ops /\ listed op /\ r_name op = n) by (apply Hin; eapply nth_error_In; eauto).
  assert (S : exists pre op post, ops = pre ++ op :: post /\ listed op /\ r_name op = n /\
       (forall o, In o post -> listed o -> r_name o <> n)).
  { clear - Hn. induction ops as [|o ops IH] using rev_ind; [destruct Hn as [op [[] _]]|].
    destruct (register_spec reg0 o) as [[Ho _]|[Ho _]].
    - destruct (string_dec (r_name o) n) as [E|E].
      + exists ops, o, []. split; [reflexivity|split; [exact Ho|split; [exact E|]]]. intros x [].
      + destruct IH as [pre [op [post [-> [A [B C]]]]]].
        { destruct Hn as [op [Hop Hx]]. apply in_app_or in Hop. destruct Hop as [Hop|[<-|[]]]; [eauto|]. destruct Hx. congruence. }
        exists pre, op, (post ++ [o]). rewrite <- app_assoc. split; [reflexivity|split; [exact A|split; [exact B|]]].
        intros x Hx Hlx. apply in_app_or in Hx. destruct Hx as [Hx|[<-|[]]]; auto.
    - destruct IH as [pre [op [post [-> [A [B C]]]]]].
      { destruct Hn as [op [Hop Hx]]. apply in_app_or in Hop. destruct Hop as [Hop|[<-|[]]]; [eauto|]. destruct Hx. contradiction. }
      exists pre, op, (post ++ [o]). rewrite <- app_assoc. split; [reflexivity|split; [exact A|split; [exact B|]]].
      intros x Hx Hlx. apply in_app_or in Hx. destruct Hx as [Hx|[<-|[]]]; auto. }
  destruct S as [pre [op [post [E [A [B C]]]]]]. exists pre, op, post. split; [exact E|split; [exact A|split; [exact B|split; [exact C|]]]].
  unfold get_indicators. rewrite nth_error_map, Hk. cbn. f_equal. subst n. unfold r. rewrite E.
  now apply register_last.
Qed.

(** ** The package *)
Definition collisions : list (string * string * string) :=
  [("WCLPrice", "wclprice", "medprice"); ("WeightedClosePrice", "wclprice", "medprice");
   ("WCLPRICE", "wclprice", "medprice"); ("weightedcloseprice", "wclprice", "medprice");
   ("TR", "truehigh", "truerange"); ("TrueRange", "truehigh", "truerange");
   ("trange", "truehigh", "truerange"); ("TRANGE", "truehigh", "truerange");
   ("TR", "truelow", "truerange"); ("TrueRange", "truelow", "truerange");
   ("trange", "truelow", "truerange"); ("TRANGE", "truelow", "truerange");
   ("SAR", "sar", "sarext"); ("psar", "sar", "sarext"); ("ParabolicStopAndReverse", "sar", "sarext")].

Definition is_class_b (v : option nsval) (c : string) : bool :=
  match v with Some (NClass x) => String.eqb x c | _ => false end.
Lemma is_class_spec : forall v c, is_class_b v c = true -> v = Some (NClass c).
Proof. intros [[m|x]|] c H; try discriminate. cbn in H. apply String.eqb_eq in H. now subst. Qed.
Definition triple_eqb (a b : string * string * string) : bool :=
  let '(a1, a2, a3) := a in let '(b1, b2, b3) := b in String.eqb a1 b1 && String.eqb a2 b2 && String.eqb a3 b3.
Lemma triple_spec : forall a b, triple_eqb a b = true -> a = b.
Proof.
  intros [[a1 a2] a3] [[b1 b2] b3] H. cbn in H. apply andb_true_iff in H. destruct H as [H H3].
  apply andb_true_iff in H. destruct H as [H1 H2]. apply String.eqb_eq in H1, H2, H3. now subst.
Qed.

Lemma alias_check : forallb (fun e => forallb (fun a =>
    is_class_b (dget public_ns a) (e_name e) ||
    existsb (fun t => let '(x, y, z) := t in String.eqb x a && String.eqb y (e_name e) && is_class_b (dget public_ns a) z
                      && negb (String.eqb z y)) collisions) (e_alias e)) table = true.
Proof. vm_compute. reflexivity. Qed.
Lemma aliases_exact : forall e a, In e table -> In a (e_alias e) ->
  dget public_ns a = Some (NClass (e_name e)) \/
  exists other, In (a, e_name e, other) collisions /\ other <> e_name e /\ dget public_ns a = Some (NClass other).
Proof.
  intros e a He Ha. assert (C := alias_check). rewrite forallb_forall in C. specialize (C e He). cbn beta in C.
  rewrite forallb_forall in C. specialize (C a Ha). apply orb_true_iff in C. destruct C as [C|C].
  - left. now apply is_class_spec.
  - right. apply existsb_exists in C. destruct C as [[[x y] z] [Hin C]].
    apply andb_true_iff in C. destruct C as [C C4]. apply andb_true_iff in C. destruct C as [C C3].
    apply andb_true_iff in C. destruct C as [C1 C2]. apply String.eqb_eq in C1, C2. subst. exists z. split; [exact Hin|].
    split; [|now apply is_class_spec]. intros ->. rewrite String.eqb_refl in C4. discriminate.
Qed.
Lemma collision_check : forallb (fun t => let '(a, c, o) := t in
    existsb (fun e => String.eqb (e_name e) c && smem a (e_alias e)) table && is_class_b (dget public_ns a) o
    && negb (String.eqb c o)) collisions = true.
Proof. vm_compute. reflexivity. Qed.
Lemma collisions_real : forall a c o, In (a, c, o) collisions ->
  c <> o /\ dget public_ns a = Some (NClass o) /\ exists e, In e table /\ e_name e = c /\ In a (e_alias e).
Proof.
  intros a c o H. assert (C := collision_check). rewrite forallb_forall in C. specialize (C _ H). cbn beta iota in C.
  apply andb_true_iff in C. destruct C as [C C3]. apply andb_true_iff in C. destruct C as [C1 C2].
  split; [intros ->; rewrite String.eqb_refl in C3; discriminate|]. split; [now apply is_class_spec|].
  apply existsb_exists in C1. destruct C1 as [e [He C1]]. apply andb_true_iff in C1. destruct C1 as [C1 C4].
  apply String.eqb_eq in C1. apply smem_spec in C4. eauto.
Qed.
Lemma names_check : forallb (fun e => private (e_name e) || is_class_b (dget public_ns (e_name e)) (e_name e)) table = true.
Proof. vm_compute. reflexivity. Qed.
Lemma class_names_public : forall e, In e table -> private (e_name e) = false ->
  dget public_ns (e_name e) = Some (NClass (e_name e)).
Proof.
  intros e He Hp. assert (C := names_check). rewrite forallb_forall in C. specialize (C e He). cbn beta in C.
  rewrite Hp in C. now apply is_class_spec.
Qed.

(** groups *)
Lemma group_check : forallb (fun e => private (e_name e) || smem (e_name e) ["cmo"; "smacc"; "mom"] ||
   match group_of e with [] => false | _ => true end) table = true.
Proof. vm_compute. reflexivity. Qed.
Lemma no_group_check : forallb (fun e => negb (smem (e_name e) ["cmo"; "smacc"; "mom"]) ||
   match group_of e with [] => true | _ => false end) table = true.
Proof. vm_compute. reflexivity. Qed.
Lemma grouped : forall e, In e table -> private (e_name e) = false ->
  (group_of e = [] <-> In (e_name e) ["cmo"; "smacc"; "mom"]).
Proof.
  intros e He Hp. assert (C := group_check). assert (D := no_group_check).
  rewrite forallb_forall in C, D. specialize (C e He). specialize (D e He). cbn beta in C, D.
  rewrite Hp in C. cbn [orb] in C. rewrite <- smem_spec.
  destruct (smem (e_name e) ["cmo"; "smacc"; "mom"]); cbn in C, D; destruct (group_of e); split; congruence.
Qed.

(** lines of the package's classes *)
Definition target_eqb (t : target) (s : string) : bool := match t with Slot x => String.eqb x s | _ => false end.
Definition lines_good (r : res lclass) : bool :=
  match r with
  | Ok c => forallb (fun m => target_eqb (resolve c (snd m)) (fst m)) (lmaps c)
  | Raise _ => false
  end.
Lemma lines_check : forallb (fun e => lines_good (inputs_of e) && lines_good (outputs_of e)) table = true.
Proof. vm_compute. reflexivity. Qed.
Lemma lines_good_spec : forall r, lines_good r = true ->
  exists c, r = Ok c /\ forall new old, In (new, old) (lmaps c) -> resolve c old = Slot new.
Proof.
  intros [c|e] H; [|discriminate]. exists c. split; [reflexivity|]. intros new old Hm.
  cbn in H. rewrite forallb_forall in H. specialize (H _ Hm). cbn in H.
  destruct (resolve c old) as [s|s|]; try discriminate. cbn in H. apply String.eqb_eq in H. now subst.
Qed.
Lemma package_lines : forall e, In e table ->
  (exists c, inputs_of e = Ok c /\ forall new old, In (new, old) (lmaps c) -> resolve c old = Slot new) /\
  (exists c, outputs_of e = Ok c /\ forall new old, In (new, old) (lmaps c) -> resolve c old = Slot new).
Proof.
  intros e He. assert (C := lines_check). rewrite forallb_forall in C. specialize (C e He). cbn beta in C.
  apply andb_true_iff in C. destruct C as [C1 C2]. split; now apply lines_good_spec.
Qed.

(** ** Groups of the registry *)
(** the classes listed under a group name *)
Definition in_group (r : registry) (g : string) (c : nat) : Prop :=
  exists l, dget (grp_ind r) g = Some l /\ In c l.
Lemma grp_append_in : forall gi g0 c0 g c,
  (exists l, dget (grp_append gi g0 c0) g = Some l /\ In c l) <->
  (exists l, dget gi g = Some l /\ In c l) \/ (g = g0 /\ c = c0).
Proof.
  intros gi g0 c0 g c. unfold grp_append. destruct (string_dec g g0) as [->|Hd].
  - rewrite dget_dset_same. split.
    + intros [l [E Hin]]. injection E as <-. apply in_app_or in Hin. destruct Hin as [Hin|[<-|[]]]; [|auto].
      left. destruct (dget gi g0); [eauto|destruct Hin].
    + intros [[l [E Hin]]|[_ ->]].
      * rewrite E. eexists. split; [reflexivity|]. apply in_or_app. auto.
      * eexists. split; [reflexivity|]. apply in_or_app. right. now left.
  - rewrite dget_dset_other by congruence. split; [auto|]. intros [H|[? _]]; [auto|contradiction].
Qed.
Lemma grp_append_all : forall gs gi c0 g c,
  (exists l, dget (fold_left (fun d grp => grp_append d grp c0) gs gi) g = Some l /\ In c l) <->
  (exists l, dget gi g = Some l /\ In c l) \/ (In g gs /\ c = c0).
Proof.
  induction gs as [|g0 gs IH]; intros gi c0 g c; cbn [fold_left].
  - split; [auto|]. intros [H|[[] _]]. exact H.
  - rewrite IH, grp_append_in. cbn [In]. intuition.
Qed.
Lemma register_groups : forall ops r g c,
  in_group (fold_left register ops r) g c <->
  in_group r g c \/ exists op, In op ops /\ listed op /\ r_cls op = c /\ In g (r_groups op).
Proof.
  induction ops as [|op ops IH]; intros r g c; cbn [fold_left].
  - split; [auto|]. intros [H|[op [[] _]]]. exact H.
  - rewrite IH. destruct (register_spec r op) as [[Hl ->]|[Hl ->]].
    + unfold in_group. cbn [grp_ind]. rewrite grp_append_all. split.
      * intros [[H|[H1 H2]]|[o [Ho H]]]; [auto|right; exists op|right; exists o]; intuition.
      * intros [H|[o [[<-|Ho] [H1 [H2 H3]]]]]; [auto|left; right; auto|right; exists o; auto].
    + split.
      * intros [H|[o [Ho H]]]; [auto|right; exists o; intuition].
      * intros [H|[o [[<-|Ho] [H1 H2]]]]; [auto|contradiction|right; exists o; auto].
Qed.
Lemma registry_groups : forall ops g c,
  in_group (register_all ops) g c <-> exists op, In op ops /\ listed op /\ r_cls op = c /\ In g (r_groups op).
Proof.
  intros ops g c. unfold register_all. rewrite register_groups. split; [|auto].
  intros [[l [H _]]|H]; [discriminate|exact H].
Qed.
Lemma number_in : forall (A : Type) (l : list A) m i x, In (i, x) (number m l) <-> m <= i /\ nth_error l (i - m) = Some x.
Proof.
  induction l as [|y l IH]; intros m i x; cbn [number In].
  - split; [intros []|]. intros [_ H]. destruct (i - m); discriminate.
  - rewrite IH. split.
    + intros [E|[H1 H2]]; [injection E as <- <-; rewrite Nat.sub_diag; auto|].
      split; [lia|]. replace (i - m) with (S (i - S m)) by lia. exact H2.
    + intros [H1 H2]. destruct (Nat.eq_dec m i) as [->|Hd].
      * left. rewrite Nat.sub_diag in H2. cbn in H2. congruence.
      * right. split; [lia|]. replace (i - m) with (S (i - S m)) in H2 by lia. exact H2.
Qed.
Lemma package_groups : forall i e, nth_error table i = Some e -> private (e_name e) = false ->
  ((exists g, in_group (register_all package_ops) g i) <-> ~ In (e_name e) ["cmo"; "smacc"; "mom"]).
Proof.
  intros i e Hi Hp. rewrite <- (@grouped e (nth_error_In _ _ Hi) Hp).
  assert (Hop : forall op, In op package_ops -> r_cls op = i -> r_groups op = group_of e).
  { intros op Hin Hc. unfold package_ops in Hin. apply in_map_iff in Hin. destruct Hin as [[j x] [<- Hj]].
    cbn [r_cls fst] in Hc. subst j. apply number_in in Hj. destruct Hj as [_ Hj]. rewrite Nat.sub_0_r in Hj.
    cbn [r_groups snd]. congruence. }
  split.
  - intros [g Hg] E. apply registry_groups in Hg. destruct Hg as [op [H1 [_ [H2 H3]]]].
    rewrite (Hop op H1 H2), E in H3. destruct H3.
  - intro H. destruct (group_of e) as [|g gs] eqn:E; [congruence|]. exists g. apply registry_groups.
    exists (mkRegOp ["btalib"; "indicators"; e_module e] (e_name e) i (group_of e)).
    split; [|split; [|split]].
    + unfold package_ops. apply in_map_iff. exists (i, e). split; [reflexivity|]. apply number_in.
      rewrite Nat.sub_0_r. split; [lia|exact Hi].
    + split; [cbn; eauto|exact Hp].
    + reflexivity.
    + cbn [r_groups]. rewrite E. now left.
Qed.
