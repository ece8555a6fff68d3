(** Listings of the registry: the order of names, the listings by group. *)
From Coq Require Import List String Ascii Bool Arith Lia Sorted Permutation.
From Verif Require Import Series Py PyFacts LinesGen Table Registry RegistryFacts.
Import ListNotations.
Set Implicit Arguments.
Local Open Scope string_scope.
Local Open Scope list_scope.
Local Open Scope nat_scope.

(** ** Specification *)

(** the order of Python strings: after a common start [p], [a] has ended or has the smaller code point *)
Definition before (a b : string) : Prop :=
  exists p, (exists y t, a = p /\ b = (p ++ String y t)%string) \/
            (exists x y s t, a = (p ++ String x s)%string /\ b = (p ++ String y t)%string /\
                             nat_of_ascii x < nat_of_ascii y).

(** the listed class statements that declare the group [g], in order *)
Definition in_listing (g : string) (op : reg_op) : bool :=
  match r_path op with p :: _ :: _ :: _ => String.eqb p "btalib" | _ => false end
  && negb (private (r_name op)) && existsb (String.eqb g) (r_groups op).

(** ** Facts *)
Lemma before_iff : forall a b, before a b <-> slt a b.
Proof.
  unfold before, slt. split.
  - intros [p H]. revert a b H. induction p as [|c p IH]; intros a b H.
    + destruct H as [[y [t [-> ->]]]|[x [y [s [t [-> [-> H]]]]]]]; cbn [append sleb].
      * split; [reflexivity|discriminate].
      * assert (Q : nat_of_ascii x <? nat_of_ascii y = true) by now apply Nat.ltb_lt.
        rewrite Q. split; [reflexivity|]. intro E. injection E as -> _. lia.
    + assert (G : exists a' b', a = String c a' /\ b = String c b' /\
        ((exists y t, a' = p /\ b' = (p ++ String y t)%string) \/
         (exists x y s t, a' = (p ++ String x s)%string /\ b' = (p ++ String y t)%string /\
                             nat_of_ascii x < nat_of_ascii y))).
      { destruct H as [[y [t [-> ->]]]|[x [y [s [t [-> [-> H]]]]]]]; cbn; do 2 eexists;
          (split; [reflexivity|split; [reflexivity|]]); [left|right]; eauto 10. }
      destruct G as [a' [b' [-> [-> G]]]]. destruct (IH a' b' G) as [A B]. cbn [sleb].
      rewrite Nat.ltb_irrefl. split; [exact A|]. intro E. injection E as ->. now apply B.
  - revert b. induction a as [|x a IH]; intros [|y b] [H N]; cbn [sleb] in H.
    + now elim N.
    + exists "". left. exists y, b. split; reflexivity.
    + discriminate.
    + destruct (Nat.ltb_spec (nat_of_ascii x) (nat_of_ascii y)) as [L|L].
      * exists "". right. exists x, y, a, b. repeat split. exact L.
      * destruct (Nat.ltb_spec (nat_of_ascii y) (nat_of_ascii x)) as [L'|L']; [discriminate|].
        assert (x = y) by (apply nat_of_ascii_inj; lia). subst y.
        destruct (IH b) as [p G]; [split; [exact H|congruence]|]. exists (String x p).
        destruct G as [[y [t [-> ->]]]|[u [y [s [t [-> [-> G]]]]]]]; cbn; [left|right]; eauto 10.
Qed.

Lemma sorted_before : forall l, StronglySorted slt l -> StronglySorted before l.
Proof.
  induction 1 as [|a l H IH F]; constructor; [exact IH|]. rewrite Forall_forall in *. intros x Hx.
  apply before_iff. auto.
Qed.
Lemma registry_order : forall ops, StronglySorted before (get_ind_names (register_all ops)).
Proof. intro ops. apply sorted_before. apply (registry_listing ops). Qed.

Lemma by_name : forall r k n c, nth_error (get_ind_by_name r) k = Some (n, c) <->
  nth_error (get_ind_names r) k = Some n /\ nth_error (get_indicators r) k = Some c.
Proof.
  intros r k n c. unfold get_ind_by_name, get_indicators. rewrite !nth_error_map.
  destruct (nth_error (get_ind_names r) k) as [x|]; cbn.
  - split; [intro E; injection E as -> <-; auto|]. intros [E1 E2]. injection E1 as ->. injection E2 as <-. reflexivity.
  - split; [discriminate|intros [? _]; discriminate].
Qed.

Definition weakly (a b : string) : Prop := a = b \/ before a b.
Lemma weakly_sleb : forall a b, weakly a b <-> sleb a b = true.
Proof.
  intros a b. unfold weakly. rewrite before_iff. unfold slt. destruct (string_dec a b) as [->|N].
  - split; [|auto]. intros _. destruct (sleb_total b b); auto.
  - tauto.
Qed.
Lemma insert_weakly : forall x l, StronglySorted weakly l -> StronglySorted weakly (insert_s x l).
Proof.
  induction l as [|y l IH]; intro H; cbn; [repeat constructor|].
  apply StronglySorted_inv in H as Q. destruct Q as [H1 H2]. rewrite Forall_forall in H2.
  destruct (sleb x y) eqn:E.
  - constructor; [exact H|]. constructor; [now apply weakly_sleb|]. rewrite Forall_forall. intros z Hz.
    apply weakly_sleb. eapply sleb_trans; [exact E|]. apply weakly_sleb. auto.
  - constructor; [auto|]. rewrite Forall_forall. intros z Hz.
    apply (Permutation_in _ (insert_perm x l)) in Hz. destruct Hz as [<-|Hz]; [|auto].
    apply weakly_sleb. destruct (sleb_total x y); congruence.
Qed.
Lemma sorted_weakly : forall l, StronglySorted weakly (sorted_s l).
Proof. induction l as [|x l IH]; cbn; [constructor|]. now apply insert_weakly. Qed.

Lemma in_listing_spec : forall g op, in_listing g op = true <-> listed op /\ In g (r_groups op).
Proof.
  intros g op. unfold in_listing, listed. rewrite !andb_true_iff, negb_true_iff, existsb_exists. split.
  - intros [[A B] [x [C D]]]. apply String.eqb_eq in D. subst x. split; [|exact C]. split; [|exact B].
    destruct (r_path op) as [|p [|a [|b r]]]; try discriminate. apply String.eqb_eq in A. subst. eauto.
  - intros [[[a [b [r H]]] B] C]. rewrite H. split; [split; [reflexivity|exact B]|]. exists g. split; [exact C|].
    apply String.eqb_refl.
Qed.

Lemma append_get : forall gs gi c g, NoDup gs ->
  dget (fold_left (fun d grp => grp_append d grp c) gs gi) g =
  if in_dec string_dec g gs then Some (match dget gi g with Some l => l | None => [] end ++ [c]) else dget gi g.
Proof.
  induction gs as [|h gs IH]; intros gi c g H; cbn [fold_left]; [reflexivity|].
  inversion H as [|h' gs' N H']; subst. rewrite IH by exact H'. unfold grp_append.
  destruct (in_dec string_dec g (h :: gs)) as [Q|Q].
  - destruct (string_dec g h) as [->|D].
    + destruct (in_dec string_dec h gs); [contradiction|]. now rewrite dget_dset_same.
    + destruct (in_dec string_dec g gs) as [Q'|Q']; [|destruct Q; [congruence|contradiction]].
      now rewrite dget_dset_other by congruence.
  - destruct (in_dec string_dec g gs) as [Q'|Q']; [exfalso; apply Q; now right|].
    rewrite dget_dset_other; [reflexivity|]. intros ->. apply Q. now left.
Qed.
Lemma append_nodup : forall gs gi c, NoDup (dkeys gi) ->
  NoDup (dkeys (fold_left (fun d grp => grp_append d grp c) gs gi)).
Proof.
  induction gs as [|h gs IH]; intros gi c H; cbn [fold_left]; [exact H|]. apply IH. now apply dset_nodup.
Qed.
Lemma groups_nodup_from : forall ops r, NoDup (dkeys (grp_ind r)) -> NoDup (dkeys (grp_ind (fold_left register ops r))).
Proof.
  induction ops as [|op ops IH]; intros r H; cbn [fold_left]; [exact H|]. apply IH.
  destruct (register_spec r op) as [[_ ->]|[_ ->]]; [|exact H]. cbn. now apply append_nodup.
Qed.
Lemma groups_nodup : forall ops, NoDup (get_groups (register_all ops)).
Proof. intro ops. apply groups_nodup_from. constructor. Qed.

Definition dflt (o : option (list nat)) : list nat := match o with Some l => l | None => [] end.
Lemma by_group_from : forall ops r g, (forall op, In op ops -> NoDup (r_groups op)) ->
  dflt (dget (grp_ind (fold_left register ops r)) g) =
  dflt (dget (grp_ind r) g) ++ map r_cls (filter (in_listing g) ops).
Proof.
  induction ops as [|op ops IH]; intros r g H; cbn [fold_left].
  - cbn. now rewrite app_nil_r.
  - rewrite IH by (intros; apply H; now right). cbn [filter].
    destruct (in_listing g op) eqn:E.
    + apply in_listing_spec in E as [L G]. destruct (register_spec r op) as [[_ ->]|[Q _]]; [|contradiction].
      cbn [grp_ind map]. rewrite append_get by (apply H; now left).
      destruct (in_dec string_dec g (r_groups op)); [|contradiction]. cbn [dflt]. now rewrite <- app_assoc.
    + destruct (register_spec r op) as [[L ->]|[_ ->]]; [|reflexivity]. cbn [grp_ind].
      rewrite append_get by (apply H; now left).
      destruct (in_dec string_dec g (r_groups op)) as [Q|Q]; [|reflexivity].
      exfalso. assert (in_listing g op = true) by now apply in_listing_spec. congruence.
Qed.
Lemma group_nonempty : forall ops g, In g (get_groups (register_all ops)) <->
  exists op, In op ops /\ listed op /\ In g (r_groups op).
Proof.
  intros ops g. unfold get_groups. split.
  - intro H. destruct (dget (grp_ind (register_all ops)) g) as [l|] eqn:E; [|now apply dget_none in E].
    assert (G : forall ops r, (forall l, dget (grp_ind r) g = Some l -> l <> []) ->
              forall l, dget (grp_ind (fold_left register ops r)) g = Some l -> l <> []).
    { clear. induction ops as [|op ops IH]; intros r H l E; cbn [fold_left] in E; [eauto|].
      eapply IH; [|exact E]. destruct (register_spec r op) as [[_ ->]|[_ ->]]; [|exact H].
      cbn. generalize (grp_ind r), H. clear. induction (r_groups op) as [|h gs IH]; intros gi H; cbn [fold_left]; [exact H|].
      apply IH. intros l E. unfold grp_append in E. destruct (string_dec g h) as [->|D].
      - rewrite dget_dset_same in E. injection E as <-. destruct (match dget gi h with Some l => l | None => [] end); discriminate.
      - rewrite dget_dset_other in E by congruence. eauto. }
    assert (l <> []) by (eapply (G ops reg0); [discriminate|exact E]).
    destruct l as [|c l]; [congruence|].
    destruct (proj1 (registry_groups ops g c)) as [op [A [B [_ C]]]]; [exists (c :: l); split; [exact E|now left]|eauto].
  - intros [op [A [B C]]]. destruct (proj2 (registry_groups ops g (r_cls op))) as [l [E _]]; [eauto|].
    destruct (in_dec string_dec g (dkeys (grp_ind (register_all ops)))) as [Q|Q]; [exact Q|].
    apply dget_none in Q. congruence.
Qed.
Lemma registry_by_group : forall ops, (forall op, In op ops -> NoDup (r_groups op)) ->
  NoDup (dkeys (get_ind_by_group (register_all ops))) /\
  (forall g, In g (dkeys (get_ind_by_group (register_all ops))) <-> filter (in_listing g) ops <> []) /\
  forall g l, In (g, l) (get_ind_by_group (register_all ops)) -> l = map r_cls (filter (in_listing g) ops).
Proof.
  intros ops H. split; [apply groups_nodup|]. split.
  - intro g. split.
    + intros Hg E. apply group_nonempty in Hg as [op [A B]]. apply in_listing_spec in B.
      assert (Q : In op (filter (in_listing g) ops)) by (apply filter_In; auto). rewrite E in Q. destruct Q.
    + intro N. apply group_nonempty. destruct (filter (in_listing g) ops) as [|op l] eqn:E; [congruence|].
      assert (Q : In op (filter (in_listing g) ops)) by (rewrite E; now left).
      apply filter_In in Q as [A B]. apply in_listing_spec in B. eauto.
  - intros g l E. apply (dget_nodup) in E; [|apply groups_nodup].
    assert (Q := by_group_from ops reg0 g H). fold (register_all ops) in Q. unfold get_ind_by_group in E.
    rewrite E in Q. exact Q.
Qed.

Lemma ind_names_keep : forall ops r, NoDup (map r_cls ops) ->
  (forall op c n, In op ops -> In (c, n) (ind_names r) -> c <> r_cls op) ->
  forall op, In op ops -> listed op -> class_name (fold_left register ops r) (r_cls op) = Ok (r_name op).
Proof.
  assert (K : forall ops r c, (forall op, In op ops -> r_cls op <> c) -> class_name (fold_left register ops r) c = class_name r c).
  { induction ops as [|op ops IH]; intros r c H; cbn [fold_left]; [reflexivity|].
    rewrite IH by (intros; apply H; now right).
    destruct (register_spec r op) as [[_ ->]|[_ ->]]; [|reflexivity]. unfold class_name. cbn [ind_names find fst].
    destruct (Nat.eqb_spec (r_cls op) c) as [E|E]; [|reflexivity]. exfalso. apply (H op); [now left|exact E]. }
  induction ops as [|o ops IH]; intros r N H op Hi L; [destruct Hi|]. cbn [map] in N.
  inversion N as [|x xs N1 N2]; subst. cbn [fold_left]. destruct Hi as [->|Hi].
  - rewrite K by (intros op' Q E; apply N1; rewrite <- E; now apply in_map).
    destruct (register_spec r op) as [[_ ->]|[Q _]]; [|contradiction]. unfold class_name. cbn [ind_names find fst].
    now rewrite Nat.eqb_refl.
  - apply IH; auto. intros op' c n Q1 Q2. destruct (register_spec r o) as [[_ E]|[_ E]]; rewrite E in Q2.
    + cbn in Q2. destruct Q2 as [Q2|Q2].
      * injection Q2 as <- _. intro E'. apply N1. rewrite E'. now apply in_map.
      * eapply H; eauto. now right.
    + eapply H; eauto. now right.
Qed.

Lemma class_names_map : forall r l, (forall op, In op l -> class_name r (r_cls op) = Ok (r_name op)) ->
  class_names r (map r_cls l) = Ok (map r_name l).
Proof.
  induction l as [|op l IH]; intro H; cbn [map class_names]; [reflexivity|].
  rewrite H by now left. cbn [bind]. rewrite IH by (intros; apply H; now right). reflexivity.
Qed.

Lemma registry_names_by_group : forall ops, NoDup (map r_cls ops) ->
  (forall op, In op ops -> NoDup (r_groups op)) ->
  exists d, get_ind_names_by_group (register_all ops) = Ok d /\
    dkeys d = get_groups (register_all ops) /\
    forall g l, In (g, l) d -> StronglySorted weakly l /\ Permutation l (map r_name (filter (in_listing g) ops)).
Proof.
  intros ops N H. unfold get_ind_names_by_group, get_groups.
  destruct (registry_by_group ops H) as [_ [_ G]]. unfold get_ind_by_group in G.
  assert (K : forall op, In op ops -> listed op -> class_name (register_all ops) (r_cls op) = Ok (r_name op)).
  { intros op. apply ind_names_keep; auto. }
  revert G.
  generalize (grp_ind (register_all ops)). intro gi. induction gi as [|[g l] gi IH]; intro G.
  - exists []. split; [reflexivity|]. split; [reflexivity|]. intros g l [].
  - destruct IH as [d [E [E1 E2]]]; [intros; apply G; now right|].
    cbn [names_by]. rewrite (G g l (or_introl eq_refl)).
    rewrite class_names_map.
    + cbn [bind]. rewrite E. cbn [bind]. eexists. split; [reflexivity|]. split; [cbn; f_equal; exact E1|].
      intros g' l' [Q|Q]; [|auto]. injection Q as <- <-. split; [apply sorted_weakly|apply sorted_perm].
    + intros op Q. apply filter_In in Q as [A B]. apply in_listing_spec in B. now apply K.
Qed.

(** ** Inputs and outputs of the package *)
(** the names a class ends up with: its own declaration, else those of its base class with the extension *)
Fixpoint expected (decl : entry -> list ldef) (ext : entry -> list string) (root : list string)
         (ch : list entry) : list string :=
  match ch with
  | [] => root
  | e :: ch' => match flat_map (fun d => match d with LName s => [s] | LPair s _ => [s] | LDict m => map fst m end) (decl e) with
                | [] => expected decl ext root ch' ++ ext e
                | ns => ns
                end
  end.
Definition extension (e : entry) : list string :=
  match e_inext e with ExtStr s => [s] | ExtTuple l => l | ExtList l => l end.
(** the classes from [e] up to the class below Indicator *)
Inductive ancestry : string -> list entry -> Prop :=
| anc_root : ancestry "Indicator" []
| anc_class : forall e l, In e table -> ancestry (e_base e) l -> ancestry (e_name e) (e :: l).

Definition names_are (r : res lclass) (ns : list string) : bool :=
  match r with Ok c => if list_eq_dec string_dec (lnames c) ns then true else false | Raise _ => false end.
Lemma package_names_check : forallb (fun e =>
   names_are (inputs_of e) (expected e_inputs extension ["close"] (chain depth_bound (e_name e))) &&
   names_are (outputs_of e) (expected e_outputs (fun _ => []) [] (chain depth_bound (e_name e)))) table = true.
Proof. vm_compute. reflexivity. Qed.
Lemma names_are_spec : forall r ns, names_are r ns = true -> exists c, r = Ok c /\ lnames c = ns.
Proof.
  intros [c|x] ns H; cbn in H; [|discriminate]. destruct (list_eq_dec string_dec (lnames c) ns) as [E|]; [|discriminate]. eauto.
Qed.

Lemma names_unique : NoDup (map e_name table).
Proof.
  assert (H : NoDup (map e_name table) <-> List.length (nodup string_dec (map e_name table)) = List.length table).
  { split.
    - intro N. rewrite nodup_fixed_point by exact N. apply map_length.
    - intro E. apply (NoDup_incl_NoDup (l:=nodup string_dec (map e_name table)));
        [apply NoDup_nodup|rewrite map_length, E; lia|intros x Hx; eapply nodup_In; eauto]. }
  apply H. vm_compute. reflexivity.
Qed.
Lemma find_class_in : forall e, In e table -> find_class (e_name e) = Some e.
Proof.
  intros e H. unfold find_class. assert (N := names_unique). revert N H. generalize table.
  induction l as [|x l IH]; intros N H; [destruct H|]. cbn [find map] in *. inversion N as [|y ys N1 N2]; subst.
  destruct (String.eqb_spec (e_name x) (e_name e)) as [E|E].
  - destruct H as [->|H]; [reflexivity|]. exfalso. apply N1. rewrite E. now apply in_map.
  - destruct H as [->|H]; [congruence|]. auto.
Qed.
Lemma chain_unfold : forall f n, chain (S f) n =
  match find_class n with None => [] | Some e => e :: chain f (e_base e) end.
Proof. reflexivity. Qed.
Lemma indicator_none : find_class "Indicator" = None.
Proof. vm_compute. reflexivity. Qed.
Lemma ancestry_chain : forall n l, ancestry n l -> forall f, List.length l < f -> chain f n = l.
Proof.
  induction 1 as [|e l He H IH]; intros f Hf.
  - destruct f; [reflexivity|]. rewrite chain_unfold, indicator_none. reflexivity.
  - cbn [List.length] in Hf. destruct f as [|f]; [lia|]. rewrite chain_unfold, (find_class_in He). f_equal. apply IH. lia.
Qed.
Definition base_of (e : entry) : option entry := find_class (e_base e).
Lemma depth_check : forallb (fun e => List.length (chain depth_bound (e_name e)) <? depth_bound) table = true.
Proof. vm_compute. reflexivity. Qed.
Lemma longer : forall f n l, ancestry n l -> f <= List.length l -> List.length (chain f n) = f.
Proof.
  induction f as [|f IH]; intros n l H L; [reflexivity|].
  destruct H as [|e l He H]; cbn [List.length] in L; [lia|].
  rewrite chain_unfold, (find_class_in He). cbn [List.length]. f_equal. apply (IH _ l); [exact H|lia].
Qed.
Lemma ancestry_bound : forall e l, In e table -> ancestry (e_name e) l -> List.length l < depth_bound.
Proof.
  intros e l He H. destruct (Nat.lt_ge_cases (List.length l) depth_bound) as [Q|Q]; [exact Q|].
  apply (longer H) in Q. assert (C := depth_check). rewrite forallb_forall in C. specialize (C e He).
  apply Nat.ltb_lt in C. lia.
Qed.
Lemma package_names : forall e l, In e table -> ancestry (e_name e) l ->
  (exists c, inputs_of e = Ok c /\ lnames c = expected e_inputs extension ["close"] l) /\
  (exists c, outputs_of e = Ok c /\ lnames c = expected e_outputs (fun _ => []) [] l).
Proof.
  intros e l He H. rewrite <- (ancestry_chain H (ancestry_bound He H)).
  assert (C := package_names_check). rewrite forallb_forall in C. specialize (C e He). cbn beta in C.
  apply andb_true_iff in C. destruct C as [C1 C2]. split; now apply names_are_spec.
Qed.
(** every class has one *)
Lemma rooted_check : forallb (fun e => match rev (chain depth_bound (e_name e)) with
   | x :: _ => String.eqb (e_base x) "Indicator" | [] => false end) table = true.
Proof. vm_compute. reflexivity. Qed.
Lemma chain_ancestry : forall f n, match rev (chain f n) with x :: _ => e_base x = "Indicator" | [] => n = "Indicator" end ->
  ancestry n (chain f n).
Proof.
  induction f as [|f IH]; intros n H; [cbn in *; subst; constructor|].
  rewrite chain_unfold in *. destruct (find_class n) as [e|] eqn:E; [|cbn in H; subst; constructor].
  unfold find_class in E. apply find_some in E as [E1 E2]. apply String.eqb_eq in E2. subst n.
  constructor; [exact E1|]. apply IH. cbn [rev] in H.
  destruct (rev (chain f (e_base e))) as [|x q]; cbn in H; [exact H|exact H].
Qed.
Lemma package_ancestry : forall e, In e table -> exists l, ancestry (e_name e) l.
Proof.
  intros e He. exists (chain depth_bound (e_name e)). apply chain_ancestry.
  assert (C := rooted_check). rewrite forallb_forall in C. specialize (C e He). cbn beta in C.
  destruct (rev (chain depth_bound (e_name e))); [discriminate|]. now apply String.eqb_eq.
Qed.
