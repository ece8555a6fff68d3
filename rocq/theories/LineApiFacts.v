(** Proofs about LineApi.v. *)
From Coq Require Import ZArith List Bool Reals Lra Lia Permutation Sorted.
From Verif Require Import Num Series Line Spec RSpec LineFacts OpFacts RFacts CausalFacts LineApi LineApiSpec StrictFacts.
Import ListNotations.
Set Implicit Arguments.

Section G.
  Context {V : Type} {N : Num V}.

  Lemma delivered_length {A} (f : nat -> A) k n : length (delivered f k n) = n - k.
  Proof. unfold delivered. now rewrite map_length, seq_length. Qed.

  (** *** reductions *)
  Lemma mpseries_feeds (a : line V) n k f : feeds a n k f -> mpseries a = delivered f k n.
  Proof.
    intros H. unfold mpseries. rewrite (feeds_mp H), mp_idx. now apply feeds_slice with (k := k).
  Qed.
  Lemma reduce_feeds {A} (F : list V -> A) a n k f :
    feeds a n k f -> reduce F a = F (delivered f k n).
  Proof. intros H. unfold reduce. f_equal. exact (mpseries_feeds H). Qed.
  Lemma breduce_feeds {A} (F : list bool -> A) a n k f :
    bfeeds a n k f -> breduce F a = F (delivered f k n).
  Proof.
    intros H. unfold breduce. f_equal. rewrite (bfeeds_mp H), mp_idx. now apply bfeeds_slice with (k := k).
  Qed.
  Lemma reduce2_feeds {A} (F : list V -> list V -> A) a b n ka kb f g :
    feeds a n ka f -> feeds b n kb g ->
    reduce2 F a b = F (delivered f (Nat.max ka kb) n) (delivered g (Nat.max ka kb) n).
  Proof.
    intros H1 H2. unfold reduce2. rewrite (feeds_mp H1), (feeds_mp H2), max2.
    f_equal; [apply feeds_slice with (k := ka)|apply feeds_slice with (k := kb)]; auto; lia.
  Qed.

  Lemma in_delivered {A} (f : nat -> A) k n v :
    In v (delivered f k n) <-> exists i, k <= i < n /\ v = f i.
  Proof.
    unfold delivered. rewrite in_map_iff. split.
    - intros (i & E & I). apply in_seq in I. exists i. split; [lia|now symmetry].
    - intros (i & I & E). exists i. split; [now symmetry|]. apply in_seq. lia.
  Qed.

  Lemma line_all_iff b n k g :
    bfeeds b n k g -> (line_all b = true <-> forall i, k <= i < n -> g i = true).
  Proof.
    intros H. unfold line_all. rewrite (breduce_feeds _ H). unfold ser_all. rewrite forallb_forall. split.
    - intros A i I. apply A. apply in_delivered. now exists i.
    - intros A x I. apply in_delivered in I. destruct I as (i & I & ->). now apply A.
  Qed.
  Lemma line_any_iff b n k g :
    bfeeds b n k g -> (line_any b = true <-> exists i, k <= i < n /\ g i = true).
  Proof.
    intros H. unfold line_any. rewrite (breduce_feeds _ H). unfold ser_any. rewrite existsb_exists. split.
    - intros (x & I & E). apply in_delivered in I. destruct I as (i & I & ->). now exists i.
    - intros (i & I & E). exists (g i). split; [|exact E]. apply in_delivered. now exists i.
  Qed.
  Lemma filter_map {A B} (p : B -> bool) (f : A -> B) l : filter p (map f l) = map f (filter (fun x => p (f x)) l).
  Proof. induction l as [|x l IH]; cbn; [reflexivity|]. destruct (p (f x)); cbn; now rewrite IH. Qed.
  Lemma line_count_feeds a n k f :
    feeds a n k f -> line_count a = number_of (fun i => negb (visnan (f i))) k n.
  Proof.
    intros H. unfold line_count. rewrite (reduce_feeds _ H). unfold ser_count, notnan, delivered, number_of.
    now rewrite filter_map, map_length.
  Qed.

  (** *** standard operations of any length *)
  Lemma nth_delivers (n k : nat) (r : list V) :
    k <= n -> length r = n - k ->
    delivers (mkLine (Z.of_nat (S k)) (set_from (nans n) (Z.of_nat k) r)) n k (fun i => nth (i - k) r vnan).
  Proof.
    intros Hk Hl.
    assert (E : set_from (nans n) (Z.of_nat k) r = placed n k (map (fun i => nth (i - k) r vnan) (seq k (n - k)))).
    { unfold placed. f_equal. apply nth_error_ext.
      - now rewrite map_length, seq_length.
      - intros i Hi. rewrite nth_error_map_seq by lia.
        replace (k + i - k) with i by lia. now apply nth_error_nth'. }
    rewrite E. apply delivers_mk; [lia|]. intros; lia.
  Qed.

  Lemma std_any_ok F (a : line V) n k f r :
    feeds a n k f -> k < n -> F (delivered f k n) = Ok r -> length r = n - k ->
    exists y, std_any F a = Ok y /\ delivers y n k (fun i => nth (i - k) r vnan).
  Proof.
    intros H Hk E L. unfold std_any. fold (mpseries a). rewrite (mpseries_feeds H), E. cbn [bind].
    unfold bars. rewrite (feeds_len H), (feeds_mp H), mp_idx.
    rewrite put_fits by (try assumption; lia). cbn [bind]. rewrite clone_S.
    eexists. split; [reflexivity|]. apply nth_delivers; [lia|exact L].
  Qed.
  Lemma std_any_bad F (a : line V) n k f r :
    feeds a n k f -> k < n -> F (delivered f k n) = Ok r -> length r <> n - k ->
    std_any F a = Raise ValueError.
  Proof.
    intros H Hk E L. unfold std_any. fold (mpseries a). rewrite (mpseries_feeds H), E. cbn [bind].
    unfold bars. rewrite (feeds_len H), (feeds_mp H), mp_idx. unfold put.
    destruct (Nat.eqb_spec n 0); [lia|].
    replace (Z.of_nat k <? 0)%Z with false by (symmetry; apply Z.ltb_ge; lia).
    replace (Z.of_nat n - Z.of_nat k =? Z.of_nat (length r))%Z with false; [reflexivity|].
    symmetry. apply Z.eqb_neq. lia.
  Qed.
  Lemma std_any_raise F (a : line V) n k f x :
    feeds a n k f -> F (delivered f k n) = Raise x -> std_any F a = Raise x.
  Proof.
    intros H E. unfold std_any. fold (mpseries a). now rewrite (mpseries_feeds H), E.
  Qed.

  (** the whole operand comes back *)
  Lemma std_any_id F (a : line V) n k f :
    feeds a n k f -> k < n -> F (delivered f k n) = Ok (delivered f k n) ->
    exists y, std_any F a = Ok y /\ delivers y n k f.
  Proof.
    intros H Hk E. destruct (@std_any_ok F a n k f _ H Hk E (delivered_length f k n)) as (y & Y & D).
    exists y. split; [exact Y|]. revert D. apply delivers_ext. intros i Hi.
    apply nth_error_nth. unfold delivered. rewrite nth_error_map_seq by lia. f_equal. f_equal. lia.
  Qed.

  Lemma line_head_ok (a : line V) n k f m :
    feeds a n k f -> k < n -> n - k <= m -> exists y, line_head (Z.of_nat m) a = Ok y /\ delivers y n k f.
  Proof.
    intros H Hk Hm. apply std_any_id; [exact H|exact Hk|]. unfold ser_head. rewrite slice_lo_nat. f_equal.
    apply firstn_all2. rewrite delivered_length. lia.
  Qed.
  Lemma line_head_bad (a : line V) n k f m :
    feeds a n k f -> m < n - k -> line_head (Z.of_nat m) a = Raise ValueError.
  Proof.
    intros H Hm. eapply std_any_bad; [exact H|lia|reflexivity|].
    unfold ser_head. rewrite slice_lo_nat, firstn_length, delivered_length. lia.
  Qed.
  Lemma line_tail_ok (a : line V) n k f m :
    feeds a n k f -> k < n -> n - k <= m -> exists y, line_tail (Z.of_nat m) a = Ok y /\ delivers y n k f.
  Proof.
    intros H Hk Hm. apply std_any_id; [exact H|exact Hk|]. unfold ser_tail.
    destruct (Z.eqb_spec (Z.of_nat m) 0); [lia|]. f_equal. unfold slice_from, slice_lo.
    replace (- Z.of_nat m <? 0)%Z with true by (symmetry; apply Z.ltb_lt; lia).
    rewrite delivered_length. replace (Z.to_nat (Z.of_nat (n - k) + - Z.of_nat m)) with 0 by lia. reflexivity.
  Qed.
  Lemma line_tail_bad (a : line V) n k f m :
    feeds a n k f -> m < n - k -> line_tail (Z.of_nat m) a = Raise ValueError.
  Proof.
    intros H Hm. eapply std_any_bad; [exact H|lia|reflexivity|].
    unfold ser_tail. destruct (Z.eqb_spec (Z.of_nat m) 0); [cbn; lia|]. unfold slice_from, slice_lo.
    replace (- Z.of_nat m <? 0)%Z with true by (symmetry; apply Z.ltb_lt; lia).
    rewrite skipn_length, delivered_length. lia.
  Qed.

  Lemma filter_all {A} (p : A -> bool) l : (forall x, In x l -> p x = true) -> filter p l = l.
  Proof.
    induction l as [|x l IH]; intros H; cbn; [reflexivity|].
    rewrite (H x (or_introl eq_refl)), IH; [reflexivity|]. intros y Hy. apply H. now right.
  Qed.
  Lemma filter_le {A} (p : A -> bool) l : length (filter p l) <= length l.
  Proof. induction l as [|x l IH]; cbn; [lia|]. destruct (p x); cbn; lia. Qed.
  Lemma filter_lt {A} (p : A -> bool) l x : In x l -> p x = false -> length (filter p l) < length l.
  Proof.
    induction l as [|y l IH]; intros I E; [destruct I|]. cbn. destruct I as [->|I].
    - rewrite E. generalize (filter_le p l). lia.
    - specialize (IH I E). destruct (p y); cbn; lia.
  Qed.

  Lemma line_dropna_ok (a : line V) n k f :
    feeds a n k f -> k < n -> (forall i, k <= i < n -> visnan (f i) = false) ->
    exists y, line_dropna a = Ok y /\ delivers y n k f.
  Proof.
    intros H Hk Hf. apply std_any_id; [exact H|exact Hk|]. unfold ser_dropna, notnan. f_equal. apply filter_all.
    intros v Hv. apply in_delivered in Hv. destruct Hv as (i & I & ->). now rewrite Hf.
  Qed.
  Lemma line_dropna_bad (a : line V) n k f i :
    feeds a n k f -> k <= i < n -> visnan (f i) = true -> line_dropna a = Raise ValueError.
  Proof.
    intros H Hi Hf. eapply std_any_bad; [exact H|lia|reflexivity|].
    assert (L : length (ser_dropna (delivered f k n)) < length (delivered f k n)).
    { unfold ser_dropna, notnan. apply filter_lt with (x := f i); [apply in_delivered; now exists i|now rewrite Hf]. }
    rewrite delivered_length in L. lia.
  Qed.

  Lemma dedup_le seen (s : list V) : length (dedup_from seen s) <= length s.
  Proof.
    revert seen. induction s as [|x s IH]; intros seen; cbn; [lia|].
    destruct (existsb (same x) seen); cbn; [specialize (IH seen)|specialize (IH (x :: seen))]; lia.
  Qed.
  Lemma dedup_id seen (s : list V) :
    (forall i x, nth_error s i = Some x -> existsb (same x) seen = false) ->
    (forall i j x y, i < j -> nth_error s i = Some x -> nth_error s j = Some y -> same y x = false) ->
    dedup_from seen s = s.
  Proof.
    revert seen. induction s as [|x s IH]; intros seen H1 H2; cbn; [reflexivity|].
    rewrite (H1 0 x eq_refl). f_equal. apply IH.
    - intros i y E. cbn. rewrite (H2 0 (S i) x y); [|lia|reflexivity|exact E]. exact (H1 (S i) y E).
    - intros i j y z Hij E1 E2. exact (H2 (S i) (S j) y z (proj1 (Nat.succ_lt_mono i j) Hij) E1 E2).
  Qed.
  Lemma dedup_seen seen (s : list V) i x :
    nth_error s i = Some x -> existsb (same x) seen = true -> length (dedup_from seen s) < length s.
  Proof.
    revert seen i. induction s as [|y s IH]; intros seen i E1 E2; [destruct i; discriminate E1|].
    cbn. destruct (existsb (same y) seen) eqn:Ey.
    - generalize (dedup_le seen s). lia.
    - destruct i as [|i]; [inversion E1; subst; congruence|].
      cbn. apply -> Nat.succ_lt_mono. apply IH with (i := i); [exact E1|]. cbn. now rewrite E2, orb_true_r.
  Qed.
  Lemma dedup_short seen (s : list V) i j x y :
    i < j -> nth_error s i = Some x -> nth_error s j = Some y -> same y x = true ->
    length (dedup_from seen s) < length s.
  Proof.
    revert seen i j. induction s as [|z s IH]; intros seen i j Hij E1 E2 E; [destruct i; discriminate E1|].
    destruct j as [|j]; [lia|]. cbn. destruct (existsb (same z) seen) eqn:Ez; [generalize (dedup_le seen s); lia|].
    cbn. apply -> Nat.succ_lt_mono. destruct i as [|i].
    - cbn in E1. inversion E1; subst. apply dedup_seen with (i := j) (x := y); [exact E2|]. cbn. now rewrite E.
    - apply IH with (i := i) (j := j); [lia|exact E1|exact E2|exact E].
  Qed.
  Lemma line_dedup_ok (a : line V) n k f :
    feeds a n k f -> k < n -> (forall i j, k <= i < j -> j < n -> same (f j) (f i) = false) ->
    exists y, line_drop_duplicates a = Ok y /\ delivers y n k f.
  Proof.
    intros H Hk Hf. apply std_any_id; [exact H|exact Hk|]. unfold ser_drop_duplicates. f_equal. apply dedup_id.
    - reflexivity.
    - intros i j x y Hij E1 E2. unfold delivered in E1, E2.
      assert (j < n - k).
      { rewrite <- (seq_length (n - k) k), <- (map_length f). apply nth_error_Some. congruence. }
      rewrite nth_error_map_seq in E1 by lia. rewrite nth_error_map_seq in E2 by lia.
      inversion E1; inversion E2; subst. apply Hf; lia.
  Qed.
  Lemma line_dedup_bad (a : line V) n k f i j :
    feeds a n k f -> k <= i < j -> j < n -> same (f j) (f i) = true ->
    line_drop_duplicates a = Raise ValueError.
  Proof.
    intros H Hi Hj E. eapply std_any_bad; [exact H|lia|reflexivity|].
    assert (L : length (ser_drop_duplicates (delivered f k n)) < length (delivered f k n)).
    { unfold ser_drop_duplicates, delivered.
      apply dedup_short with (i := i - k) (j := j - k) (x := f i) (y := f j); [lia| | |exact E];
        rewrite nth_error_map_seq by lia; f_equal; f_equal; lia. }
    rewrite delivered_length in L. lia.
  Qed.
  Lemma line_append_bad (a b : line V) n ka kb f g :
    feeds a n ka f -> feeds b n kb g -> Nat.max ka kb < n -> line_append a b = Raise ValueError.
  Proof.
    intros H1 H2 Hk. unfold line_append, std_any2. rewrite (feeds_mp H1), (feeds_mp H2), max2.
    rewrite (@feeds_slice _ _ _ _ _ (Nat.max ka kb) H1), (@feeds_slice _ _ _ _ _ (Nat.max ka kb) H2) by lia.
    cbn [bind]. unfold bars. rewrite (feeds_len H1). unfold put.
    destruct (Nat.eqb_spec n 0); [lia|].
    replace (Z.of_nat (Nat.max ka kb) <? 0)%Z with false by (symmetry; apply Z.ltb_ge; lia).
    rewrite app_length, !map_length, !seq_length.
    match goal with |- context[(?x =? ?y)%Z] => replace (x =? y)%Z with false by (symmetry; apply Z.eqb_neq; lia) end.
    reflexivity.
  Qed.

  (** *** expanding windows *)
  Lemma ser_expanding_seq minp G (f : nat -> V) k m :
    ser_expanding minp G (map f (seq k m)) =
    map (fun i => let w := notnan (map prep (since f k i)) in
                  if Nat.ltb (length w) (Nat.max minp 1) then vnan else G w) (seq k m).
  Proof.
    unfold ser_expanding. rewrite map_length, seq_length. apply nth_error_ext.
    - now rewrite !map_length, !seq_length.
    - intros i Hi. rewrite map_length, seq_length in Hi. rewrite !nth_error_map_seq by lia. cbn [Nat.add].
      unfold since. replace (S (k + i) - k) with (S i) by lia.
      rewrite firstn_map, firstn_seq. replace (Nat.min (S i) m) with (S i) by lia. reflexivity.
  Qed.
  (** the value of an expanding window over the bars since the first of the operand *)
  Definition exp_val (minp : nat) (G : list V -> V) (f : nat -> V) (k i : nat) : V :=
    let w := notnan (map prep (since f k i)) in if Nat.ltb (length w) (Nat.max minp 1) then vnan else G w.

  Lemma since_length {A} (f : nat -> A) k i : length (since f k i) = S i - k.
  Proof. unfold since. now rewrite map_length, seq_length. Qed.
  Lemma notnan_le (l : list V) : length (notnan l) <= length l.
  Proof. apply filter_le. Qed.

  Lemma expanding_kw m pos G (a : line V) n k f :
    1 <= m -> feeds a n k f ->
    exists y, expanding (Some m) pos G a = Ok y /\ delivers y n (k + m - 1) (exp_val m G f k).
  Proof.
    intros Hm H. unfold expanding, mf_call, mf_plain. cbn [option_map mf_pval mf_mp mf_pearly mf_alphap mf_minidx mf_trailer mf_line snd bind].
    rewrite (feeds_mp H), mp_idx, (@feeds_slice _ _ _ _ _ k H) by lia.
    rewrite ser_expanding_seq. unfold bars. rewrite (feeds_len H).
    replace (Z.max (Z.of_nat (S k) + (Z.of_nat m - 0 - 1)) 1) with (Z.of_nat (S (k + m - 1))) by lia.
    rewrite clone_S. eexists. split; [reflexivity|].
    apply (@delivers_mk V N n k (k + m - 1) (exp_val m G f k)); [lia|].
    intros i Hi Hn. unfold exp_val. cbv zeta.
    assert (length (notnan (map prep (since f k i))) < m).
    { eapply Nat.le_lt_trans; [apply notnan_le|]. rewrite map_length, since_length. lia. }
    destruct (Nat.ltb_spec (length (notnan (map prep (since f k i)))) (Nat.max m 1)); [reflexivity|lia].
  Qed.
  Lemma expanding_pos pos G (a : line V) n k f :
    feeds a n k f ->
    exists y, expanding None pos G a = Ok y /\ delivers y n k (exp_val pos G f k).
  Proof.
    intros H. unfold expanding, mf_call, mf_plain. cbn [option_map mf_pval mf_mp mf_pearly mf_alphap mf_minidx mf_trailer mf_line snd bind].
    rewrite (feeds_mp H), mp_idx, (@feeds_slice _ _ _ _ _ k H) by lia.
    rewrite ser_expanding_seq. unfold bars. rewrite (feeds_len H), clone_S. eexists. split; [reflexivity|].
    apply (@delivers_mk V N n k k (exp_val pos G f k)); [lia|]. intros; lia.
  Qed.

  (** *** _setval and _period *)
  Lemma set_slice_nth (l : list V) i j v m :
    (0 <= i)%Z -> (0 <= j)%Z -> m < length l ->
    nth_error (set_slice l i j v) m =
    if ((i <=? Z.of_nat m) && (Z.of_nat m <? j))%Z then Some v else nth_error l m.
  Proof.
    intros Hi Hj Hm. rewrite <- (Z2Nat.id i), <- (Z2Nat.id j) by assumption.
    set (a := Z.to_nat i). set (b := Z.to_nat j).
    destruct (Nat.le_gt_cases a b) as [Hab|Hab].
    - rewrite nth_error_set_slice by exact Hab.
      destruct (Nat.ltb_spec m (length l)); [|lia].
      destruct (Nat.leb_spec a m), (Z.leb_spec (Z.of_nat a) (Z.of_nat m)); try lia; cbn [andb]; [|reflexivity].
      destruct (Nat.ltb_spec m b), (Z.ltb_spec (Z.of_nat m) (Z.of_nat b)); try lia; reflexivity.
    - unfold set_slice. rewrite !slice_lo_nat.
      replace (Nat.min b (length l) - Nat.min a (length l)) with 0 by lia.
      replace (Nat.max (Nat.min a (length l)) (Nat.min b (length l))) with (Nat.min a (length l)) by lia.
      cbn [repeat app]. rewrite firstn_skipn.
      destruct (Z.leb_spec (Z.of_nat a) (Z.of_nat m)), (Z.ltb_spec (Z.of_nat m) (Z.of_nat b)); try lia; reflexivity.
  Qed.
  Lemma set_slice_len (l : list V) i j v : length (set_slice l i j v) = length l.
  Proof.
    unfold set_slice. rewrite !app_length, firstn_length, repeat_length, skipn_length.
    assert (forall z, slice_lo (length l) z <= length l).
    { intros z. unfold slice_lo. destruct (z <? 0)%Z eqn:E; [apply Z.ltb_lt in E; lia|lia]. }
    generalize (H i), (H j). lia.
  Qed.
  Lemma set_slice_back (l : list V) i (c : nat) v m :
    (0 <= i)%Z -> 1 <= c <= length l -> m < length l ->
    nth_error (set_slice l i (- Z.of_nat c) v) m =
    if ((i <=? Z.of_nat m) && (Z.of_nat m <? Z.of_nat (length l) - Z.of_nat c))%Z then Some v else nth_error l m.
  Proof.
    intros Hi Hc Hm.
    assert (E : set_slice l i (- Z.of_nat c) v = set_slice l i (Z.of_nat (length l) - Z.of_nat c) v).
    { unfold set_slice. replace (slice_lo (length l) (- Z.of_nat c)) with (slice_lo (length l) (Z.of_nat (length l) - Z.of_nat c)); [reflexivity|].
      unfold slice_lo.
      destruct (Z.ltb_spec (Z.of_nat (length l) - Z.of_nat c) 0), (Z.ltb_spec (- Z.of_nat c) 0); try lia. }
    rewrite E. apply set_slice_nth; lia.
  Qed.

  (** _setval(i0, c, val): exactly max(c, 1) bars, counted from the minimum period *)
  Lemma setval_exact (a : line V) k i0 (c : nat) v :
    lmp a = Z.of_nat (S k) -> (0 <= Z.of_nat k + i0)%Z -> (i0 <> 0 \/ c <> 0%nat)%Z ->
    lmp (setval_ a i0 (Z.of_nat c) v) = lmp a /\
    length (lser (setval_ a i0 (Z.of_nat c) v)) = length (lser a) /\
    forall m, m < length (lser a) ->
      nth_error (lser (setval_ a i0 (Z.of_nat c) v)) m =
      if ((Z.of_nat k + i0 <=? Z.of_nat m) && (Z.of_nat m <? Z.of_nat k + i0 + Z.of_nat (Nat.max c 1)))%Z
      then Some v else nth_error (lser a) m.
  Proof.
    intros M H0 Hz. unfold setval_. rewrite M.
    replace ((i0 =? 0) && (Z.of_nat c =? 0))%Z with false.
    2:{ symmetry. apply andb_false_iff. destruct Hz; [left|right]; apply Z.eqb_neq; lia. }
    replace (0 <=? Z.of_nat c)%Z with true by (symmetry; apply Z.leb_le; lia).
    replace (if (Z.of_nat c =? 0)%Z then 1%Z else Z.of_nat c) with (Z.of_nat (Nat.max c 1))
      by (destruct (Z.eqb_spec (Z.of_nat c) 0); lia).
    cbn [lmp lser]. split; [reflexivity|]. split; [apply set_slice_len|]. intros m Hm.
    rewrite set_slice_nth by lia. replace (Z.of_nat (S k) - 1 + i0)%Z with (Z.of_nat k + i0)%Z by lia. reflexivity.
  Qed.
  (** _setval(i0, -c, val): up to c bars before the end *)
  Lemma setval_back (a : line V) k i0 (c : nat) v :
    lmp a = Z.of_nat (S k) -> (0 <= Z.of_nat k + i0)%Z -> 1 <= c <= length (lser a) ->
    lmp (setval_ a i0 (- Z.of_nat c) v) = lmp a /\
    length (lser (setval_ a i0 (- Z.of_nat c) v)) = length (lser a) /\
    forall m, m < length (lser a) ->
      nth_error (lser (setval_ a i0 (- Z.of_nat c) v)) m =
      if ((Z.of_nat k + i0 <=? Z.of_nat m) && (m <? length (lser a) - c)%nat)%Z
      then Some v else nth_error (lser a) m.
  Proof.
    intros M H0 Hc. unfold setval_. rewrite M.
    replace ((i0 =? 0) && (- Z.of_nat c =? 0))%Z with false.
    2:{ symmetry. apply andb_false_iff. right. apply Z.eqb_neq; lia. }
    replace (0 <=? - Z.of_nat c)%Z with false by (symmetry; apply Z.leb_gt; lia).
    cbn [lmp lser]. split; [reflexivity|]. split; [apply set_slice_len|]. intros m Hm.
    rewrite set_slice_back by lia. replace (Z.of_nat (S k) - 1 + i0)%Z with (Z.of_nat k + i0)%Z by lia.
    replace (Z.of_nat m <? Z.of_nat (length (lser a)) - Z.of_nat c)%Z with (m <? length (lser a) - c)%nat; [reflexivity|].
    destruct (Nat.ltb_spec m (length (lser a) - c)), (Z.ltb_spec (Z.of_nat m) (Z.of_nat (length (lser a)) - Z.of_nat c)); lia.
  Qed.
  Lemma setval_default (a : line V) k v :
    lmp a = Z.of_nat (S k) -> setval_ a 0 0 v = a.
  Proof.
    intros M. unfold setval_. cbn [Z.eqb andb]. destruct a as [mp s]. cbn [lmp] in M. subst mp. cbn [lmp lser]. f_equal.
    rewrite mp_idx. apply nth_error_ext; [apply set_slice_len|]. intros m Hm. rewrite set_slice_len in Hm.
    rewrite set_slice_nth by lia.
    destruct (Z.leb_spec (Z.of_nat k) (Z.of_nat m)); cbn [andb]; [|reflexivity].
    destruct (Z.ltb_spec (Z.of_nat m) 0); [lia|reflexivity].
  Qed.

  Lemma period_exact (a : line V) k p (rolling : bool) v :
    let inc := (p - (if rolling then 1 else 0))%Z in
    lmp a = Z.of_nat (S k) -> (0 <= Z.of_nat k + inc)%Z ->
    lmp (period_ a p rolling (Some v)) = (lmp a + inc)%Z /\
    length (lser (period_ a p rolling (Some v))) = length (lser a) /\
    forall m, m < length (lser a) ->
      nth_error (lser (period_ a p rolling (Some v))) m =
      if ((Z.of_nat k + Z.min inc 0 <=? Z.of_nat m) && (Z.of_nat m <? Z.of_nat k + Z.max inc 0))%Z
      then Some v else nth_error (lser a) m.
  Proof.
    intros inc M H0. unfold period_. fold inc. rewrite M.
    destruct (Z.eqb_spec inc 0) as [E|E].
    - rewrite E. split; [lia|]. split; [reflexivity|]. intros m Hm.
      destruct (Z.leb_spec (Z.of_nat k + Z.min 0 0) (Z.of_nat m)); cbn [andb]; [|reflexivity].
      destruct (Z.ltb_spec (Z.of_nat m) (Z.of_nat k + Z.max 0 0)); [lia|reflexivity].
    - cbn [lmp lser]. split; [reflexivity|].
      replace (Z.of_nat (S k) - 1)%Z with (Z.of_nat k) by lia.
      destruct (Z.ltb_spec (Z.of_nat k + inc) (Z.of_nat k)) as [Hl|Hl].
      + split; [apply set_slice_len|]. intros m Hm. rewrite set_slice_nth by lia.
        replace (Z.min inc 0) with inc by lia. replace (Z.max inc 0) with 0%Z by lia. now rewrite Z.add_0_r.
      + split; [apply set_slice_len|]. intros m Hm. rewrite set_slice_nth by lia.
        replace (Z.max inc 0) with inc by lia. replace (Z.min inc 0) with 0%Z by lia. now rewrite Z.add_0_r.
  Qed.

  (** *** calls and slices *)
  Lemma line_slice_feeds (a : line V) n k f i j :
    feeds a n k f -> i <= j <= n ->
    forall s, (forall m, i + k <= m < j -> s (m - i) = f m) ->
    feeds (line_slice a (Z.of_nat i) (Z.of_nat j)) (j - i) k s.
  Proof.
    intros H Hij s Hs. split; [exact (feeds_mp H)|]. unfold line_slice. cbn [lser]. rewrite slice_nat. split.
    - rewrite firstn_length, skipn_length, (feeds_len H). lia.
    - intros m Hm. rewrite nth_error_firstn by lia. rewrite nth_error_skipn.
      destruct H as (_ & _ & H). rewrite H by lia. f_equal. rewrite <- Hs by lia. f_equal. lia.
  Qed.
  Lemma line_slice_reduce {A} (F : list V -> A) (a : line V) n k f i j :
    feeds a n k f -> i <= j <= n ->
    reduce F (line_slice a (Z.of_nat i) (Z.of_nat j)) = F (delivered f (i + k) j).
  Proof.
    intros H Hij. rewrite (reduce_feeds F (line_slice_feeds H Hij (fun m => f (i + m)) ltac:(intros; cbv beta; f_equal; lia))).
    f_equal. unfold delivered. apply nth_error_ext.
    - rewrite !map_length, !seq_length. lia.
    - intros m Hm. rewrite map_length, seq_length in Hm. rewrite !nth_error_map_seq by lia. f_equal. f_equal. lia.
  Qed.
  Lemma line_call_back (a : line V) n k f p val :
    feeds a n k f -> 1 <= p -> delivers (line_call (Some (- Z.of_nat p)%Z) val a) n (k + p) (fun i => f (i - p)).
  Proof.
    intros H Hp. unfold line_call. destruct (Z.eqb_spec (- Z.of_nat p)%Z 0); [lia|].
    pose proof (at_ago_delivers H Hp) as D. unfold at_ago in D.
    destruct (Z.eqb_spec (- Z.of_nat p)%Z 0); [lia|exact D].
  Qed.
  (** *** lines that start before the first bar *)
  Lemma skipn_back {A} (s : list A) d : 1 <= d <= length s -> slice_from s (- Z.of_nat d)%Z = skipn (length s - d) s.
  Proof.
    intros H. unfold slice_from, slice_lo. destruct (Z.ltb_spec (- Z.of_nat d)%Z 0) as [L|L]; f_equal; lia.
  Qed.
  Lemma std_any_ahead F (a : line V) d r :
    1 <= d <= bars a -> lmp a = (1 - Z.of_nat d)%Z -> F (skipn (bars a - d) (lser a)) = Ok r ->
    std_any F a = if Nat.eqb (length r) d then Ok (mkLine (lmp a) (nans (bars a - d) ++ r)) else Raise ValueError.
  Proof.
    intros Hd M E. unfold std_any. rewrite M. replace (1 - Z.of_nat d - 1)%Z with (- Z.of_nat d)%Z by lia.
    unfold bars in *. rewrite skipn_back by lia. rewrite E. cbn [bind]. unfold put.
    destruct (Nat.eqb_spec (length (lser a)) 0); [lia|].
    destruct (Z.ltb_spec (- Z.of_nat d)%Z 0); [|lia].
    replace (Z.of_nat (length (lser a)) - (Z.of_nat (length (lser a)) + - Z.of_nat d))%Z with (Z.of_nat d) by lia.
    destruct (Z.eqb_spec (Z.of_nat d) (Z.of_nat (length r))), (Nat.eqb_spec (length r) d); try lia; [|reflexivity].
    cbn [bind]. unfold clone, set_from, nans. rewrite repeat_length. f_equal.
    f_equal; [destruct (Z.eqb_spec (1 - Z.of_nat d)%Z 0); lia|]. f_equal.
    replace (slice_lo (length (lser a)) (- Z.of_nat d)%Z) with (length (lser a) - d).
    2:{ unfold slice_lo. destruct (Z.ltb_spec (- Z.of_nat d)%Z 0); lia. }
    apply nth_error_ext; rewrite firstn_length, !repeat_length; [lia|]. intros m Hm.
    rewrite nth_error_firstn by lia. rewrite !nth_error_repeat by lia. reflexivity.
  Qed.
  Lemma std_any_far F (a : line V) d r :
    1 <= bars a < d -> lmp a = (1 - Z.of_nat d)%Z -> F (lser a) = Ok r -> length r = bars a ->
    std_any F a = Raise ValueError.
  Proof.
    intros Hd M E L. unfold std_any. rewrite M. replace (1 - Z.of_nat d - 1)%Z with (- Z.of_nat d)%Z by lia.
    unfold bars in *.
    replace (slice_from (lser a) (- Z.of_nat d)) with (lser a).
    2:{ unfold slice_from, slice_lo. destruct (Z.ltb_spec (- Z.of_nat d)%Z 0); [|lia].
        now replace (Z.to_nat (Z.of_nat (length (lser a)) + - Z.of_nat d)%Z) with 0 by lia. }
    rewrite E. cbn [bind].
    unfold put. destruct (Nat.eqb_spec (length (lser a)) 0); [lia|].
    destruct (Z.ltb_spec (- Z.of_nat d)%Z 0); [|lia].
    destruct (Z.eqb_spec (Z.of_nat (length (lser a)) - (Z.of_nat (length (lser a)) + - Z.of_nat d))%Z (Z.of_nat (length r))); [lia|].
    reflexivity.
  Qed.
  Lemma line_call_fill (a : line V) n k f v :
    feeds a n k f -> feeds (line_call (Some 0%Z) (Some v) a) n k (fun _ => v) /\
    (forall i, i < n -> nth_error (lser (line_call (Some 0%Z) (Some v) a)) i = Some v) /\
    (forall val, feeds (line_call None val a) n k f) /\ feeds (line_call (Some 0%Z) None a) n k f.
  Proof.
    intros H. assert (Q : forall i, i < n -> nth_error (lser (line_call (Some 0%Z) (Some v) a)) i = Some v).
    { intros i Hi. cbn. unfold bars. rewrite (feeds_len H). now apply nth_error_repeat. }
    split.
    - split; [exact (feeds_mp H)|]. split; [cbn; unfold bars; rewrite repeat_length; apply (feeds_len H)|].
      intros i Hi. apply Q. lia.
    - split; [exact Q|]. destruct a as [mp s]. split; [intros val|]; exact H.
  Qed.
End G.
