(** Lemmas about lines with an index. *)
From Coq Require Import ZArith List Bool Lia Sorted.
From Verif Require Import Num Series Line LineFacts Indexed.
Import ListNotations.
Set Implicit Arguments.
Local Open Scope Z_scope.

Lemma same_labels_iff {A B} (a : list (Z * A)) (b : list (Z * B)) : same_labels a b = true <-> labels a = labels b.
Proof. unfold same_labels. destruct (list_eq_dec _ _ _); split; congruence. Qed.

Lemma labels_slice {A} (s : list (Z * A)) i : labels (slice_from s i) = slice_from (labels s) i.
Proof. unfold slice_from, labels. rewrite map_length. now rewrite skipn_map. Qed.
Lemma vals_slice {A B} (f : A -> B) (s : list A) i : map f (slice_from s i) = slice_from (map f s) i.
Proof. unfold slice_from. rewrite map_length. now rewrite skipn_map. Qed.

Lemma labels_combine {A} (t : list Z) (s : list A) : length t = length s -> labels (combine t s) = t.
Proof.
  revert s. induction t as [|x t IH]; intros [|y s] H; try discriminate; auto. cbn.
  unfold labels in IH. rewrite IH by (injection H; auto). reflexivity.
Qed.
Lemma vals_combine {A} (t : list Z) (s : list A) : length t = length s -> map snd (combine t s) = s.
Proof.
  revert s. induction t as [|x t IH]; intros [|y s] H; try discriminate; auto. cbn.
  rewrite IH by (injection H; auto). reflexivity.
Qed.
Lemma map2_combine {A B C} (f : A -> B -> C) l m : map (fun p => f (fst p) (snd p)) (combine l m) = map2 f l m.
Proof. revert m. induction l as [|x l IH]; intros [|y m]; cbn; auto. now rewrite IH. Qed.

Lemma slice_length {A} (s : list A) i : length (slice_from s i) = (length s - slice_lo (length s) i)%nat.
Proof. unfold slice_from. apply skipn_length. Qed.
Lemma slice_lo_le n i : (slice_lo n i <= n)%nat.
Proof. unfold slice_lo. destruct (i <? 0) eqn:E; [apply Z.ltb_lt in E; lia|lia]. Qed.
Lemma set_from_length {A} (s r : list A) i : length r = (length s - slice_lo (length s) i)%nat ->
  length (set_from s i r) = length s.
Proof.
  intro H. unfold set_from. rewrite app_length, firstn_length, H. pose proof (slice_lo_le (length s) i). lia.
Qed.

Section Generic.
  Context {A B : Type}.
  (** ** The union of the labels *)
  Lemma insert_in t l u : In u (insert_label t l) <-> u = t \/ In u l.
  Proof.
    induction l as [|a l IH]; cbn; [intuition|].
    destruct (t <? a); [cbn; intuition|]. destruct (t =? a) eqn:E.
    - apply Z.eqb_eq in E. subst. cbn. intuition.
    - cbn. rewrite IH. intuition.
  Qed.
  Lemma insert_sorted t l : StronglySorted Z.lt l -> StronglySorted Z.lt (insert_label t l).
  Proof.
    induction 1 as [|a l Hs IH Ha]; cbn; [repeat constructor|].
    destruct (t <? a) eqn:E.
    - apply Z.ltb_lt in E. constructor; [constructor; auto|]. constructor; auto.
      eapply Forall_impl; [|exact Ha]. cbn. lia.
    - apply Z.ltb_ge in E. destruct (t =? a) eqn:E2.
      + constructor; auto.
      + apply Z.eqb_neq in E2. constructor; auto. apply Forall_forall. intros u Hu. apply insert_in in Hu.
        rewrite Forall_forall in Ha. destruct Hu as [->|Hu]; [lia|]. now apply Ha.
  Qed.
  Lemma union_in a b u : In u (union_labels a b) <-> In u a \/ In u b.
  Proof.
    unfold union_labels. rewrite <- in_app_iff. induction (a ++ b) as [|t l IH]; cbn; [intuition|].
    rewrite insert_in, IH. intuition.
  Qed.
  Lemma union_sorted a b : StronglySorted Z.lt (union_labels a b).
  Proof. unfold union_labels. induction (a ++ b); cbn; [constructor|]. now apply insert_sorted. Qed.
  Lemma sorted_nodup l : StronglySorted Z.lt l -> NoDup l.
  Proof.
    induction 1 as [|a l Hs IH Ha]; constructor; auto. intro H. rewrite Forall_forall in Ha.
    specialize (Ha a H). lia.
  Qed.
  Lemma sorted_unique l : forall m, StronglySorted Z.lt l -> StronglySorted Z.lt m ->
    (forall u, In u l <-> In u m) -> l = m.
  Proof.
    induction l as [|a l IH]; intros [|b m] Hl Hm H; auto.
    - exfalso. apply (proj2 (H b)). now left.
    - exfalso. apply (proj1 (H a)). now left.
    - inversion_clear Hl as [|? ? Hl' Ha]. inversion_clear Hm as [|? ? Hm' Hb].
      rewrite Forall_forall in Ha, Hb.
      assert (a = b).
      { destruct (proj1 (H a) (or_introl eq_refl)) as [->|Hi]; auto.
        destruct (proj2 (H b) (or_introl eq_refl)) as [->|Hj]; auto.
        specialize (Ha b Hj). specialize (Hb a Hi). lia. }
      subst b. f_equal. apply IH; auto. intro u. split; intro Hu.
      + destruct (proj1 (H u) (or_intror Hu)) as [<-|]; auto. specialize (Ha a Hu). lia.
      + destruct (proj2 (H u) (or_intror Hu)) as [<-|]; auto. specialize (Hb a Hu). lia.
  Qed.
  Lemma union_sub a b : StronglySorted Z.lt a -> incl b a -> union_labels a b = a.
  Proof.
    intros Ha Hb. apply sorted_unique; auto; [apply union_sorted|]. intro u. rewrite union_in. intuition.
  Qed.

  Lemma under_one (d : A) t v (s : list (Z * A)) : NoDup (labels s) -> In (t, v) s -> under d t s = [v].
  Proof.
    intros Hn Hi. unfold under. enough (E : map snd (filter (fun p => fst p =? t) s) = [v]) by now rewrite E.
    induction s as [|[u w] s IH]; [easy|]. cbn in Hn. inversion_clear Hn as [|? ? Hu Hs].
    cbn [filter fst]. destruct Hi as [[= -> ->]|Hi].
    - rewrite Z.eqb_refl. cbn. f_equal.
      assert (E : filter (fun p : Z * A => fst p =? t) s = []).
      { clear - Hu. induction s as [|[u w] s IH]; auto. cbn in *. destruct (u =? t) eqn:E.
        - apply Z.eqb_eq in E. intuition.
        - apply IH. intuition. }
      now rewrite E.
    - destruct (u =? t) eqn:E.
      + apply Z.eqb_eq in E. subst. exfalso. apply Hu. apply in_map_iff. now exists (t, v).
      + now apply IH.
  Qed.
  Lemma under_none (d : A) t (s : list (Z * A)) : ~ In t (labels s) -> under d t s = [d].
  Proof.
    intro H. unfold under.
    assert (E : filter (fun p : Z * A => fst p =? t) s = []).
    { induction s as [|[u w] s IH]; auto. cbn in *. destruct (u =? t) eqn:E.
      - apply Z.eqb_eq in E. intuition.
      - apply IH. intuition. }
    now rewrite E.
  Qed.
  Lemma under_length (d : A) t (s : list (Z * A)) : (1 <= length (under d t s))%nat.
  Proof. unfold under. destruct (map snd _); cbn; lia. Qed.

  (** the value that stands under a label, the missing value if none *)
  Definition at_label (d : A) (t : Z) (s : list (Z * A)) : A :=
    match under d t s with v :: _ => v | [] => d end.

  Lemma outer_sub (d : A) (a b : list (Z * A)) :
    StronglySorted Z.lt (labels a) -> NoDup (labels b) -> incl (labels b) (labels a) ->
    outer d a b = map (fun p => (snd p, at_label d (fst p) b)) a.
  Proof.
    intros Ha Hb Hi. pose proof (sorted_nodup Ha) as Na. unfold outer. destruct (same_labels a b) eqn:E.
    - apply same_labels_iff in E. clear Ha Hi.
      assert (G : forall pre, NoDup (labels (pre ++ b)) ->
                combine (map snd a) (map snd b) = map (fun p => (snd p, at_label d (fst p) (pre ++ b))) a).
      { clear Hb. revert b E. induction a as [|[t v] a IH]; intros [|[u w] b] E pre Hp; try discriminate; auto.
        cbn in E. injection E as -> E. cbn [map combine fst snd]. f_equal.
        - f_equal. unfold at_label. rewrite under_one with (v := w); auto. apply in_or_app. right. now left.
        - cbn in Na. inversion_clear Na. rewrite (IH H0 b E (pre ++ [(u, w)])); rewrite <- app_assoc; auto. }
      exact (G [] Hb).
    - destruct b as [|p b'] eqn:Eb.
      { destruct a; [discriminate|]. apply map_ext. intros q. unfold at_label. cbn. reflexivity. }
      destruct a as [|q a'] eqn:Ea.
      { exfalso. apply (Hi (fst p)). now left. }
      rewrite <- Ea, <- Eb in *. rewrite union_sub by auto. clear E.
      assert (G : forall l, incl l a ->
        flat_map (fun t => list_prod (under d t a) (under d t b)) (labels l) =
        map (fun p => (snd p, at_label d (fst p) b)) l).
      { induction l as [|[t v] l IH]; intro Hl; auto. cbn [labels map flat_map fst snd].
        change (map fst l) with (labels l). rewrite IH by (intros z Hz; apply Hl; now right).
        rewrite (@under_one d t v a Na) by (apply Hl; now left).
        assert (exists w, under d t b = [w]) as [w Hw].
        { destruct (in_dec Z.eq_dec t (labels b)) as [Hin|Hout].
          - unfold labels in Hin. apply in_map_iff in Hin. destruct Hin as ([t' w] & E & Hin). cbn in E. subst t'.
            exists w. now apply under_one.
          - exists d. now apply under_none. }
        unfold at_label. rewrite Hw. reflexivity. }
      apply G. intros z Hz. exact Hz.
  Qed.

  Lemma slice_nat {X} (s : list X) m : slice_from s (Z.of_nat m) = skipn m s.
  Proof.
    unfold slice_from, slice_lo. destruct (Z.of_nat m <? 0) eqn:E; [apply Z.ltb_lt in E; lia|].
    rewrite Nat2Z.id. destruct (le_lt_dec m (length s)).
    - now rewrite Nat.min_l.
    - rewrite Nat.min_r by lia. rewrite !skipn_all2 by lia. reflexivity.
  Qed.
  Lemma sorted_skipn m l : StronglySorted Z.lt l -> StronglySorted Z.lt (skipn m l).
  Proof.
    revert l. induction m as [|m IH]; intros l H; [exact H|]. destruct l; [exact H|].
    change (skipn (S m) (z :: l)) with (skipn m l). apply IH. now inversion H.
  Qed.
  Lemma nodup_skipn {X} m (l : list X) : NoDup l -> NoDup (skipn m l).
  Proof.
    revert l. induction m as [|m IH]; intros l H; [exact H|]. destruct l; [exact H|].
    change (skipn (S m) (x :: l)) with (skipn m l). apply IH. now inversion H.
  Qed.
  Lemma nth_error_combine {X Y} (l : list X) (m : list Y) i a b :
    nth_error l i = Some a -> nth_error m i = Some b -> nth_error (combine l m) i = Some (a, b).
  Proof.
    revert m i. induction l as [|x l IH]; intros [|y m] [|i]; cbn; try discriminate; auto. congruence.
  Qed.

  Lemma outer_long (d : A) (a b : list (Z * A)) t : NoDup (labels a) -> In t (labels b) -> ~ In t (labels a) ->
    (length a < length (outer d a b))%nat.
  Proof.
    intros Na Hb Ha.
    unfold outer. destruct (same_labels a b) eqn:E.
    { apply same_labels_iff in E. rewrite E in Ha. contradiction. }
    destruct b as [|p b']; [easy|]. destruct a as [|q a']; [cbn; lia|].
    remember (q :: a') as a eqn:Ea. remember (p :: b') as b eqn:Eb. clear Ea Eb E.
    assert (H1 : (length (labels a) < length (union_labels (labels a) (labels b)))%nat).
    { apply Nat.lt_le_trans with (length (t :: labels a)); [cbn; lia|].
      apply NoDup_incl_length; [constructor; auto|]. intros u [<-|Hu]; apply union_in; auto. }
    unfold labels in H1 at 1. rewrite map_length in H1. eapply Nat.lt_le_trans; [exact H1|].
    generalize (union_labels (labels a) (labels b)) as U. induction U as [|u U IH]; cbn [flat_map]; [cbn; lia|].
    rewrite app_length, prod_length. cbn [length].
    pose proof (under_length d u a). pose proof (under_length d u b). nia.
  Qed.


  (** ** One index: the model by position *)
  Lemma aligned_same (d : A) (fill : B) f mpx mpy x y : labels x = labels y ->
    let mp := Z.max mpx mpy in let mi := mp - 1 in
    exists s, aligned d fill f mpx mpy x y = Ok (if mp =? 0 then mpx else mp, s) /\ labels s = labels x /\
      map snd s = set_from (repeat fill (length (map snd x))) mi (map2 f (slice_from (map snd x) mi) (slice_from (map snd y) mi)).
  Proof.
    intros H mp mi. unfold aligned. cbv zeta. fold mp. fold mi.
    assert (HL : length x = length y).
    { rewrite <- (map_length fst x), <- (map_length fst y). unfold labels in H. now rewrite H. }
    assert (E : same_labels (slice_from x mi) (slice_from y mi) = true).
    { apply same_labels_iff. rewrite !labels_slice. now rewrite H. }
    unfold outer. rewrite E, map2_combine, !vals_slice.
    assert (HR : length (map2 f (slice_from (map snd x) mi) (slice_from (map snd y) mi)) = (length x - slice_lo (length x) mi)%nat).
    { rewrite map2_length, !slice_length, !map_length, HL. lia. }
    rewrite slice_length, HR, Nat.eqb_refl.
    assert (HS : length (set_from (repeat fill (length x)) mi (map2 f (slice_from (map snd x) mi) (slice_from (map snd y) mi))) = length x).
    { rewrite set_from_length; rewrite repeat_length; auto. }
    eexists. split; [reflexivity|]. split.
    - apply labels_combine. unfold labels. now rewrite map_length, HS.
    - rewrite vals_combine; [now rewrite map_length|]. unfold labels. now rewrite map_length, HS.
  Qed.

  Lemma aligned_by_label (d : A) (fill : B) f mpx mpy x y m :
    Z.max mpx mpy = Z.of_nat (S m) ->
    StronglySorted Z.lt (labels x) -> NoDup (labels y) ->
    incl (skipn m (labels y)) (skipn m (labels x)) ->
    exists s, aligned d fill f mpx mpy x y = Ok (Z.max mpx mpy, s) /\ labels s = labels x /\
      forall i t v, nth_error x i = Some (t, v) ->
        ((i < m)%nat -> nth_error s i = Some (t, fill)) /\
        ((m <= i)%nat ->
          (forall j w, (m <= j)%nat -> nth_error y j = Some (t, w) -> nth_error s i = Some (t, f v w)) /\
          (~ In t (skipn m (labels y)) -> nth_error s i = Some (t, f v d))).
  Proof.
    intros Hm Hx Hy Hi. unfold aligned. cbv zeta. rewrite Hm.
    replace (Z.of_nat (S m) - 1) with (Z.of_nat m) by lia. rewrite !slice_nat.
    rewrite (@outer_sub d (skipn m x) (skipn m y)).
    2:{ unfold labels. rewrite <- skipn_map. now apply sorted_skipn. }
    2:{ unfold labels. rewrite <- skipn_map. now apply nodup_skipn. }
    2:{ unfold labels. rewrite <- !skipn_map. exact Hi. }
    rewrite map_map, map_length, Nat.eqb_refl. cbn [fst snd].
    destruct (Z.of_nat (S m) =? 0) eqn:E; [apply Z.eqb_eq in E; lia|].
    set (r := map (fun p => f (snd p) (at_label d (fst p) (skipn m y))) (skipn m x)).
    assert (Hlo : slice_lo (length x) (Z.of_nat m) = Nat.min m (length x)).
    { unfold slice_lo. destruct (Z.of_nat m <? 0) eqn:E2; [apply Z.ltb_lt in E2; lia|]. now rewrite Nat2Z.id. }
    assert (HS : length (set_from (repeat fill (length x)) (Z.of_nat m) r) = length x).
    { rewrite set_from_length; rewrite repeat_length; auto.
      unfold r. rewrite map_length, skipn_length, Hlo. lia. }
    eexists. split; [reflexivity|]. split.
    { apply labels_combine. unfold labels. now rewrite map_length, HS. }
    intros i t v Ht.
    assert (Hil : (i < length x)%nat) by (apply nth_error_Some; congruence).
    assert (Hl : nth_error (labels x) i = Some t).
    { unfold labels. rewrite nth_error_map, Ht. reflexivity. }
    unfold set_from. rewrite repeat_length, Hlo. split.
    - intro Him. apply nth_error_combine; auto. rewrite nth_error_app1.
      + rewrite nth_error_firstn by lia. apply nth_error_repeat. lia.
      + rewrite firstn_length, repeat_length. lia.
    - intro Hmi.
      assert (G : nth_error (combine (labels x) (firstn (Nat.min m (length x)) (repeat fill (length x)) ++ r)) i =
                  Some (t, f v (at_label d t (skipn m y)))).
      { apply nth_error_combine; auto. rewrite nth_error_app2; rewrite firstn_length, repeat_length; [|lia].
        replace (i - Nat.min (Nat.min m (length x)) (length x))%nat with (i - m)%nat by lia.
        unfold r. rewrite nth_error_map, nth_error_skipn. replace (m + (i - m))%nat with i by lia.
        rewrite Ht. reflexivity. }
      split.
      + intros j w Hj Hw. rewrite G. do 2 f_equal. unfold at_label.
        rewrite under_one with (v := w); auto.
        * unfold labels. rewrite <- skipn_map. now apply nodup_skipn.
        * apply nth_error_In with (j - m)%nat. rewrite nth_error_skipn. now replace (m + (j - m))%nat with j by lia.
      + intro Hn. rewrite G. do 2 f_equal. unfold at_label. rewrite under_none; [reflexivity|].
        unfold labels. rewrite <- skipn_map. exact Hn.
  Qed.

  Lemma aligned_extra (d : A) (fill : B) f mpx mpy x y m t :
    Z.max mpx mpy = Z.of_nat (S m) -> x <> [] ->
    NoDup (labels x) ->
    In t (skipn m (labels y)) -> ~ In t (skipn m (labels x)) ->
    aligned d fill f mpx mpy x y = Raise ValueError.
  Proof.
    intros Hm Hne Hx Hty Htx. unfold aligned. cbv zeta. rewrite Hm.
    replace (Z.of_nat (S m) - 1) with (Z.of_nat m) by lia. rewrite !slice_nat, map_length.
    assert (Hlt : (length (skipn m x) < length (outer d (skipn m x) (skipn m y)))%nat).
    { assert (Lx : labels (skipn m x) = skipn m (labels x)) by (unfold labels; now rewrite skipn_map).
      assert (Ly : labels (skipn m y) = skipn m (labels y)) by (unfold labels; now rewrite skipn_map).
      rewrite <- Lx in Htx. rewrite <- Ly in Hty.
      assert (Nx : NoDup (labels (skipn m x))) by (rewrite Lx; now apply nodup_skipn).
      now apply outer_long with t. }
    destruct (Nat.eqb_spec (length (outer d (skipn m x) (skipn m y))) (length (skipn m x))) as [E|_]; [lia|].
    destruct x; [congruence|]. reflexivity.
  Qed.
End Generic.

Lemma known_labels s : labels (known s) = labels s.
Proof. unfold labels, known. now rewrite map_map. Qed.
Lemma known_vals s : map snd (known s) = map Some (map snd s).
Proof. unfold known. now rewrite !map_map. Qed.
Lemma known_nth s i t v : nth_error s i = Some (t, v) -> nth_error (known s) i = Some (t, Some v).
Proof. intro H. unfold known. now rewrite nth_error_map, H. Qed.
Lemma map2_some {C} (f : option bool -> option bool -> C) a b : map2 f (map Some a) (map Some b) = map2 (fun u v => f (Some u) (Some v)) a b.
Proof. revert b. induction a as [|x a IH]; intros [|y b]; cbn; auto. now rewrite IH. Qed.

Section Facts.
  Context {V : Type} {N : Num V}.
  Implicit Types x y : iline V.

  Lemma ibinop_same op x y : labels (iser x) = labels (iser y) ->
    exists z, ibinop op x y = Ok z /\ labels (iser z) = labels (iser x) /\
      by_position z = binop op (by_position x) (by_position y).
  Proof.
    intro H. unfold ibinop. destruct (@aligned_same V V vnan vnan op (imp x) (imp y) _ _ H) as (s & -> & L & E).
    eexists. split; [reflexivity|]. split; [exact L|]. unfold by_position, binop, clone, bars, nans. cbn [imp iser lmp lser fst snd]. now rewrite E.
  Qed.
  Lemma icmp_method_same op x y : labels (iser x) = labels (iser y) ->
    exists z, icmp_method op x y = Ok z /\ labels (ibser z) = labels (iser x) /\
      bby_position z = cmpop op (by_position x) (by_position y).
  Proof.
    intro H. unfold icmp_method. destruct (@aligned_same V bool vnan true op (imp x) (imp y) _ _ H) as (s & -> & L & E).
    eexists. split; [reflexivity|]. split; [exact L|]. unfold bby_position, by_position, cmpop, bclone, bars.
    cbn [ibmp ibser imp iser lmp lser fst snd]. now rewrite E.
  Qed.
  Lemma icmpop_same op x y : labels (iser x) = labels (iser y) ->
    exists z, icmpop op x y = Ok z /\ labels (ibser z) = labels (iser x) /\
      bby_position z = cmpop op (by_position x) (by_position y).
  Proof.
    intro H. unfold icmpop. cbv zeta. set (mi := Z.max (imp x) (imp y) - 1).
    assert (HL : length (iser x) = length (iser y)).
    { rewrite <- (map_length fst (iser x)), <- (map_length fst (iser y)). unfold labels in H. now rewrite H. }
    assert (E : same_labels (slice_from (iser x) mi) (slice_from (iser y) mi) = true).
    { apply same_labels_iff. rewrite !labels_slice. now rewrite H. }
    rewrite E, !vals_slice.
    assert (HS : length (set_from (repeat true (length (iser x))) mi
                   (map2 op (slice_from (map snd (iser x)) mi) (slice_from (map snd (iser y)) mi))) = length (iser x)).
    { rewrite set_from_length; rewrite repeat_length; auto.
      rewrite map2_length, !slice_length, !map_length, HL. lia. }
    eexists. split; [reflexivity|]. cbn [ibser ibmp]. split.
    - apply labels_combine. unfold labels. now rewrite map_length, HS.
    - unfold bby_position, by_position, cmpop, bclone. cbn [ibser ibmp iser imp lmp lser]. rewrite vals_combine.
      + unfold bars. cbn [lser]. rewrite map_length. reflexivity.
      + unfold labels. now rewrite map_length, HS.
  Qed.

  Lemma icmpop_raises op x y :
    let mi := Z.max (imp x) (imp y) - 1 in
    slice_from (labels (iser x)) mi <> slice_from (labels (iser y)) mi ->
    icmpop op x y = Raise ValueError.
  Proof.
    cbv zeta. intro H. unfold icmpop. cbv zeta.
    destruct (same_labels _ _) eqn:E; auto. apply same_labels_iff in E. rewrite !labels_slice in E. contradiction.
  Qed.


  Lemma ibinop_by_label op x y m :
    Z.max (imp x) (imp y) = Z.of_nat (S m) ->
    StronglySorted Z.lt (labels (iser x)) -> NoDup (labels (iser y)) ->
    incl (skipn m (labels (iser y))) (skipn m (labels (iser x))) ->
    exists z, ibinop op x y = Ok z /\ labels (iser z) = labels (iser x) /\ imp z = Z.max (imp x) (imp y) /\
      forall i t v, nth_error (iser x) i = Some (t, v) ->
        ((i < m)%nat -> nth_error (iser z) i = Some (t, vnan)) /\
        ((m <= i)%nat ->
          (forall j w, (m <= j)%nat -> nth_error (iser y) j = Some (t, w) -> nth_error (iser z) i = Some (t, op v w)) /\
          (~ In t (skipn m (labels (iser y))) -> nth_error (iser z) i = Some (t, op v vnan))).
  Proof.
    intros Hm Hx Hy Hi. unfold ibinop.
    destruct (@aligned_by_label V V vnan vnan op (imp x) (imp y) (iser x) (iser y) m Hm Hx Hy Hi) as (s & -> & L & G).
    eexists. split; [reflexivity|]. auto.
  Qed.
  Lemma icmp_method_by_label op x y m :
    Z.max (imp x) (imp y) = Z.of_nat (S m) ->
    StronglySorted Z.lt (labels (iser x)) -> NoDup (labels (iser y)) ->
    incl (skipn m (labels (iser y))) (skipn m (labels (iser x))) ->
    exists z, icmp_method op x y = Ok z /\ labels (ibser z) = labels (iser x) /\ ibmp z = Z.max (imp x) (imp y) /\
      forall i t v, nth_error (iser x) i = Some (t, v) -> (m <= i)%nat ->
          (forall j w, (m <= j)%nat -> nth_error (iser y) j = Some (t, w) -> nth_error (ibser z) i = Some (t, op v w)) /\
          (~ In t (skipn m (labels (iser y))) -> nth_error (ibser z) i = Some (t, op v vnan)).
  Proof.
    intros Hm Hx Hy Hi. unfold icmp_method.
    destruct (@aligned_by_label V bool vnan true op (imp x) (imp y) (iser x) (iser y) m Hm Hx Hy Hi) as (s & -> & L & G).
    eexists. split; [reflexivity|]. split; [exact L|]. split; [reflexivity|]. intros i t v E. exact (proj2 (G i t v E)).
  Qed.

  Lemma ibinop_extra op x y m t :
    Z.max (imp x) (imp y) = Z.of_nat (S m) -> iser x <> [] ->
    NoDup (labels (iser x)) ->
    In t (skipn m (labels (iser y))) -> ~ In t (skipn m (labels (iser x))) ->
    ibinop op x y = Raise ValueError.
  Proof. intros Hm Hn Hx H1 H2. unfold ibinop. now rewrite (@aligned_extra V V vnan vnan op _ _ _ _ m t Hm Hn Hx H1 H2). Qed.
  Lemma icmp_method_extra op x y m t :
    Z.max (imp x) (imp y) = Z.of_nat (S m) -> iser x <> [] ->
    NoDup (labels (iser x)) ->
    In t (skipn m (labels (iser y))) -> ~ In t (skipn m (labels (iser x))) ->
    icmp_method op x y = Raise ValueError.
  Proof. intros Hm Hn Hx H1 H2. unfold icmp_method. now rewrite (@aligned_extra V bool vnan true op _ _ _ _ m t Hm Hn Hx H1 H2). Qed.
End Facts.

Lemma ilogic_same op (x y : ibline) : labels (ibser x) = labels (ibser y) ->
  exists z, ilogic op x y = Ok z /\ labels (ibser z) = labels (ibser x) /\ bby_position z = bbinop op (bby_position x) (bby_position y).
Proof.
  intro H. unfold ilogic. rewrite <- (known_labels (ibser x)), <- (known_labels (ibser y)) in H.
  destruct (@aligned_same (option bool) bool None true (logic op) (ibmp x) (ibmp y) _ _ H) as (s & -> & L & E).
  eexists. split; [reflexivity|]. rewrite known_labels in L. split; [exact L|]. unfold bby_position, bbinop, bclone.
  cbn [ibmp ibser bmp bser fst snd]. rewrite E, !known_vals, map_length, <- !vals_slice, map2_some. reflexivity.
Qed.
Lemma ilogic_by_label op (x y : ibline) m :
  Z.max (ibmp x) (ibmp y) = Z.of_nat (S m) ->
  StronglySorted Z.lt (labels (ibser x)) -> NoDup (labels (ibser y)) ->
  incl (skipn m (labels (ibser y))) (skipn m (labels (ibser x))) ->
  exists z, ilogic op x y = Ok z /\ labels (ibser z) = labels (ibser x) /\ ibmp z = Z.max (ibmp x) (ibmp y) /\
    forall i t v, nth_error (ibser x) i = Some (t, v) -> (m <= i)%nat ->
      (forall j w, (m <= j)%nat -> nth_error (ibser y) j = Some (t, w) -> nth_error (ibser z) i = Some (t, op v w)) /\
      (~ In t (skipn m (labels (ibser y))) -> nth_error (ibser z) i = Some (t, op v false)).
Proof.
  intros Hm Hx Hy Hi. unfold ilogic. rewrite <- (known_labels (ibser x)), <- ?(known_labels (ibser y)) in *.
  destruct (@aligned_by_label (option bool) bool None true (logic op) (ibmp x) (ibmp y) _ _ m Hm Hx Hy Hi) as (s & -> & L & G).
  eexists. split; [reflexivity|]. split; [exact L|]. split; [reflexivity|]. intros i t v E Hmi.
  destruct (proj2 (G i t (Some v) (known_nth _ _ E)) Hmi) as [G1 G2]. split; [|exact G2].
  intros j w Hj Ew. exact (G1 j (Some w) Hj (known_nth _ _ Ew)).
Qed.
Lemma ilogic_extra op (x y : ibline) m t :
  Z.max (ibmp x) (ibmp y) = Z.of_nat (S m) -> ibser x <> [] ->
  NoDup (labels (ibser x)) ->
  In t (skipn m (labels (ibser y))) -> ~ In t (skipn m (labels (ibser x))) ->
  ilogic op x y = Raise ValueError.
Proof.
  intros Hm Hn Hx H1 H2. unfold ilogic. rewrite <- (known_labels (ibser x)), <- ?(known_labels (ibser y)) in *.
  rewrite (@aligned_extra (option bool) bool None true (logic op) _ _ _ _ m t Hm); auto.
  destruct (ibser x); [congruence|discriminate].
Qed.

Lemma indexed_same (V : Type) (N : Num V) (x y : iline V) :
    labels (iser x) = labels (iser y) ->
    (forall op, exists z, ibinop op x y = Ok z /\ labels (iser z) = labels (iser x) /\
       by_position z = binop op (by_position x) (by_position y)) /\
    (forall op, exists z, icmpop op x y = Ok z /\ icmp_method op x y = Ok z /\ labels (ibser z) = labels (iser x) /\
       bby_position z = cmpop op (by_position x) (by_position y)).
Proof.
  intro H. split; intro op; [now apply ibinop_same|].
  destruct (icmpop_same op x y H) as (z & E & L & P). exists z. split; [exact E|]. split; [|auto].
  destruct (icmp_method_same op x y H) as (z' & E' & L' & P'). rewrite E'. f_equal.
  rewrite <- P' in P. destruct z as [mz sz], z' as [mz' sz']. unfold bby_position in P. cbn [ibmp ibser] in *. injection P as <- P. f_equal.
  rewrite <- L in L'. clear - P L'. unfold labels in L'. revert sz' P L'.
  induction sz as [|[t v] s IH]; intros [|[t' v'] s'] P L; try discriminate; auto. cbn in P, L. injection P as -> P. injection L as -> L.
  now rewrite (IH s' P L).
Qed.
