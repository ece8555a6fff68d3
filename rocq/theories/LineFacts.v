(** Facts about slices, pandas primitives and line operations, for every [Num V]. *)
From Coq Require Import ZArith List Bool Lia Arith.
From Verif Require Import Num Series Line Spec.
Import ListNotations.
Set Implicit Arguments.

(** ** Lists *)

Lemma nth_error_ext {A} (l m : list A) :
  length l = length m ->
  (forall i, i < length l -> nth_error l i = nth_error m i) -> l = m.
Proof.
  revert m; induction l as [|a l IH]; intros [|b m] Hl H; simpl in *; try discriminate; auto.
  pose proof (H 0 ltac:(lia)) as H0; simpl in H0. injection H0 as <-.
  f_equal. apply IH; [lia|]. intros i Hi. apply (H (S i)). lia.
Qed.

Lemma nth_error_seq_ok j n i : i < n -> nth_error (seq j n) i = Some (j + i).
Proof.
  revert j i; induction n as [|n IH]; intros j i Hi; [lia|].
  destruct i as [|i]; simpl; [f_equal; lia|].
  rewrite IH by lia. f_equal; lia.
Qed.

Lemma nth_error_map_seq {A} (f : nat -> A) j n i :
  i < n -> nth_error (map f (seq j n)) i = Some (f (j + i)).
Proof. intro Hi. rewrite nth_error_map, nth_error_seq_ok by lia. reflexivity. Qed.

Lemma nth_error_skipn {A} (l : list A) k i : nth_error (skipn k l) i = nth_error l (k + i).
Proof.
  revert l; induction k as [|k IH]; intros l; simpl; auto.
  destruct l as [|a l]; simpl; [now destruct i|apply IH].
Qed.

Lemma nth_error_firstn {A} (l : list A) k i : i < k -> nth_error (firstn k l) i = nth_error l i.
Proof.
  revert l i; induction k as [|k IH]; intros l i Hi; [lia|].
  destruct l as [|a l]; simpl; [now destruct i|].
  destruct i as [|i]; simpl; auto. apply IH; lia.
Qed.

Lemma nth_error_repeat_ok {A} (a : A) n i : i < n -> nth_error (repeat a n) i = Some a.
Proof.
  revert i; induction n as [|n IH]; intros [|i] Hi; simpl; auto; try lia. apply IH; lia.
Qed.

Lemma map_ext_seq {A} (f g : nat -> A) j n :
  (forall i, j <= i < j + n -> f i = g i) -> map f (seq j n) = map g (seq j n).
Proof.
  intro H. apply map_ext_in. intros i Hi. apply in_seq in Hi. apply H; lia.
Qed.

Lemma map2_length {A B C} (f : A -> B -> C) l m :
  length (map2 f l m) = Nat.min (length l) (length m).
Proof.
  revert m; induction l as [|a l IH]; intros [|b m]; simpl; auto.
Qed.

Lemma map2_map_seq {A B C} (op : A -> B -> C) (f : nat -> A) (g : nat -> B) j n :
  map2 op (map f (seq j n)) (map g (seq j n)) = map (fun i => op (f i) (g i)) (seq j n).
Proof. revert j; induction n as [|n IH]; intro j; simpl; auto. now rewrite IH. Qed.

Lemma skipn_seq k j n : skipn k (seq j n) = seq (j + k) (n - k).
Proof.
  revert j n; induction k as [|k IH]; intros j n; simpl.
  - now rewrite Nat.add_0_r, Nat.sub_0_r.
  - destruct n as [|n]; simpl; auto. rewrite IH. f_equal; lia.
Qed.

Lemma firstn_seq k j n : firstn k (seq j n) = seq j (Nat.min k n).
Proof.
  revert j n; induction k as [|k IH]; intros j n; simpl; auto.
  destruct n as [|n]; simpl; auto. now rewrite IH.
Qed.

Lemma seq_split_at j n k : k <= n -> seq j n = seq j k ++ seq (j + k) (n - k).
Proof. intro H. rewrite <- seq_app. f_equal; lia. Qed.

Arguments seq_split_at : clear implicits.

(** ** Slices *)

Lemma slice_lo_nat n k : slice_lo n (Z.of_nat k) = Nat.min k n.
Proof.
  unfold slice_lo. destruct (Z.ltb_spec (Z.of_nat k) 0); [lia|]. now rewrite Nat2Z.id.
Qed.

Lemma slice_from_nat {A} (l : list A) k : slice_from l (Z.of_nat k) = skipn k l.
Proof.
  unfold slice_from. rewrite slice_lo_nat.
  destruct (Nat.le_gt_cases k (length l)).
  - now rewrite Nat.min_l by lia.
  - rewrite Nat.min_r by lia. rewrite !skipn_all2; auto; lia.
Qed.

Lemma slice_nat {A} (l : list A) i j :
  slice l (Z.of_nat i) (Z.of_nat j) = firstn (j - i) (skipn i l).
Proof.
  unfold slice. rewrite !slice_lo_nat.
  destruct (Nat.le_gt_cases i (length l)) as [Hi|Hi].
  - rewrite (Nat.min_l i) by lia.
    destruct (Nat.le_gt_cases j (length l)) as [Hj|Hj].
    + now rewrite (Nat.min_l j) by lia.
    + rewrite (Nat.min_r j) by lia.
      rewrite !firstn_all2; auto; rewrite skipn_length; lia.
  - rewrite (Nat.min_r i) by lia. rewrite !skipn_all2 by lia. now rewrite !firstn_nil.
Qed.

Lemma set_from_nat {A} (a : A) n k r :
  k <= n -> set_from (repeat a n) (Z.of_nat k) r = repeat a k ++ r.
Proof.
  intro H. unfold set_from. rewrite repeat_length, slice_lo_nat, Nat.min_l by lia. f_equal.
  replace n with (k + (n - k)) by lia. rewrite repeat_app, firstn_app, repeat_length, Nat.sub_diag.
  rewrite firstn_O, app_nil_r. rewrite firstn_all2; auto. rewrite repeat_length; lia.
Qed.

Lemma set_from_nat_over {A} (a : A) n k :
  n <= k -> set_from (repeat a n) (Z.of_nat k) [] = repeat a n.
Proof.
  intro H. unfold set_from. rewrite repeat_length, slice_lo_nat, Nat.min_r by lia.
  rewrite app_nil_r, firstn_all2; auto. rewrite repeat_length; lia.
Qed.

Lemma set_slice_nat {A} (l : list A) i j v :
  i <= j -> j <= length l ->
  set_slice l (Z.of_nat i) (Z.of_nat j) v = firstn i l ++ repeat v (j - i) ++ skipn j l.
Proof.
  intros Hij Hj. unfold set_slice. rewrite !slice_lo_nat.
  rewrite (Nat.min_l i), (Nat.min_l j) by lia. now rewrite Nat.max_r by lia.
Qed.

Lemma nth_error_set_slice {A} (l : list A) i j v m :
  i <= j ->
  nth_error (set_slice l (Z.of_nat i) (Z.of_nat j) v) m =
  if (m <? length l) then (if (i <=? m) && (m <? j) then Some v else nth_error l m) else None.
Proof.
  intros Hij. unfold set_slice. rewrite !slice_lo_nat.
  set (a := Nat.min i (length l)). set (b := Nat.min j (length l)).
  assert (Hab : a <= b) by lia. rewrite Nat.max_r by lia.
  assert (Ha : a <= length l) by lia.
  destruct (Nat.ltb_spec m (length l)) as [Hm|Hm].
  - destruct (Nat.leb_spec i m); destruct (Nat.ltb_spec m j); simpl.
    + rewrite nth_error_app2 by (rewrite firstn_length; lia).
      rewrite firstn_length, Nat.min_l by lia.
      rewrite nth_error_app1 by (rewrite repeat_length; lia).
      apply nth_error_repeat_ok; lia.
    + rewrite nth_error_app2 by (rewrite firstn_length; lia).
      rewrite firstn_length, Nat.min_l by lia.
      rewrite nth_error_app2 by (rewrite repeat_length; lia).
      rewrite repeat_length, nth_error_skipn. f_equal; lia.
    + rewrite nth_error_app1 by (rewrite firstn_length; lia).
      apply nth_error_firstn; lia.
    + rewrite nth_error_app1 by (rewrite firstn_length; lia).
      apply nth_error_firstn; lia.
  - apply nth_error_None. rewrite !app_length, firstn_length, repeat_length, skipn_length. lia.
Qed.

Lemma set_slice_length {A} (l : list A) i j v :
  (slice_lo (length l) i <= slice_lo (length l) j)%nat ->
  length (set_slice l i j v) = length l.
Proof.
  intro H. unfold set_slice. rewrite !app_length, firstn_length, repeat_length, skipn_length.
  rewrite Nat.max_r by lia.
  assert (slice_lo (length l) j <= length l).
  { unfold slice_lo. destruct (Z.ltb_spec j 0); lia. }
  lia.
Qed.

Lemma getitem_nat {A} (l : list A) k a :
  nth_error l k = Some a -> getitem l (Z.of_nat k) = Ok a.
Proof.
  intro H. unfold getitem.
  destruct (Z.ltb_spec (Z.of_nat k) 0); [lia|].
  destruct (Z.ltb_spec (Z.of_nat k) 0); [lia|].
  now rewrite Nat2Z.id, H.
Qed.

Lemma getitem_nat_None {A} (l : list A) k :
  length l <= k -> getitem l (Z.of_nat k) = Raise IndexError.
Proof.
  intro H. unfold getitem.
  destruct (Z.ltb_spec (Z.of_nat k) 0); [lia|].
  destruct (Z.ltb_spec (Z.of_nat k) 0); [lia|].
  rewrite Nat2Z.id. now rewrite (proj2 (nth_error_None l k)).
Qed.

Section Facts.
  Context {V : Type} {N : Num V}.
  Implicit Types (l a b : line V) (f g : nat -> V).

  (** ** feeds / delivers *)

  Lemma delivers_feeds l n k f : delivers l n k f -> feeds l n k f.
  Proof. now intros [H _]. Qed.

  Lemma feeds_ext l n k f g :
    (forall i, k <= i < n -> f i = g i) -> feeds l n k f -> feeds l n k g.
  Proof.
    intros H (H1 & H2 & H3). repeat split; auto. intros i Hi. rewrite <- H by lia. auto.
  Qed.

  Lemma delivers_ext l n k f g :
    (forall i, k <= i < n -> f i = g i) -> delivers l n k f -> delivers l n k g.
  Proof. intros H [H1 H2]. split; auto. eapply feeds_ext; eauto. Qed.

  Lemma feeds_len l n k f : feeds l n k f -> length (lser l) = n.
  Proof. now intros (_ & H & _). Qed.

  Lemma feeds_mp l n k f : feeds l n k f -> lmp l = Z.of_nat (S k).
  Proof. now intros (H & _). Qed.

  Lemma feeds_skipn l n k f m :
    feeds l n k f -> k <= m -> skipn m (lser l) = map f (seq m (n - m)).
  Proof.
    intros (_ & Hl & H) Hm. apply nth_error_ext.
    - now rewrite skipn_length, map_length, seq_length, Hl.
    - intros i Hi. rewrite skipn_length, Hl in Hi.
      rewrite nth_error_skipn, nth_error_map_seq by lia. apply H; lia.
  Qed.

  Lemma feeds_slice l n k f m :
    feeds l n k f -> k <= m -> slice_from (lser l) (Z.of_nat m) = map f (seq m (n - m)).
  Proof. intros. rewrite slice_from_nat. eapply feeds_skipn; eauto. Qed.

  Lemma mp_idx k : (Z.of_nat (S k) - 1 = Z.of_nat k)%Z.
  Proof. lia. Qed.

  (** the raw input lines *)
  Lemma raw_feeds (s : list V) d : feeds (raw s) (length s) 0 (fun i => nth i s d).
  Proof.
    repeat split; auto. intros i Hi. simpl. apply nth_error_nth'; lia.
  Qed.

  Lemma clone_S l s k : clone l s (Z.of_nat (S k)) = mkLine (Z.of_nat (S k)) s.
  Proof. unfold clone. destruct (Z.eqb_spec (Z.of_nat (S k)) 0); auto; lia. Qed.

  (** shape of every result: NaN up to [k0], then [map g (seq k0 ..)] *)
  Definition placed (n k : nat) (r : list V) : list V :=
    set_from (nans n) (Z.of_nat k) r.

  Lemma placed_spec n k g :
    placed n k (map g (seq k (n - k))) =
    map (fun i => if i <? k then vnan else g i) (seq 0 n).
  Proof.
    unfold placed, nans.
    destruct (Nat.le_gt_cases k n) as [H|H].
    - rewrite set_from_nat by lia.
      rewrite (seq_split_at 0 n k) by lia. rewrite map_app. f_equal.
      + apply nth_error_ext.
        * now rewrite repeat_length, map_length, seq_length.
        * intros i Hi. rewrite repeat_length in Hi.
          rewrite nth_error_repeat_ok, nth_error_map_seq by lia.
          destruct (Nat.ltb_spec (0 + i) k); auto; lia.
      + apply map_ext_seq. intros i Hi. destruct (Nat.ltb_spec i k); auto; lia.
    - replace (n - k) with 0 by lia. simpl. rewrite set_from_nat_over by lia.
      apply nth_error_ext.
      + now rewrite repeat_length, map_length, seq_length.
      + intros i Hi. rewrite repeat_length in Hi.
        rewrite nth_error_repeat_ok, nth_error_map_seq by lia.
        destruct (Nat.ltb_spec (0 + i) k); auto; lia.
  Qed.

  (** a line built from placed values delivers *)
  Lemma delivers_mk n k0 k g :
    k0 <= k ->
    (forall i, k0 <= i < k -> i < n -> g i = vnan) ->
    delivers (mkLine (Z.of_nat (S k)) (placed n k0 (map g (seq k0 (n - k0))))) n k g.
  Proof.
    intros Hk Hg. rewrite placed_spec. repeat split; simpl.
    - now rewrite map_length, seq_length.
    - intros i Hi. rewrite nth_error_map_seq by lia. simpl.
      destruct (Nat.ltb_spec i k0); auto; lia.
    - intros i Hik Hin. rewrite nth_error_map_seq by lia. simpl.
      destruct (Nat.ltb_spec i k0); auto. rewrite Hg; auto; lia.
  Qed.

  (** ** Line operations *)

  Lemma binop_delivers op a b n ka kb f g :
    feeds a n ka f -> feeds b n kb g ->
    delivers (binop op a b) n (Nat.max ka kb) (fun i => op (f i) (g i)).
  Proof.
    intros Ha Hb. unfold binop, bars.
    rewrite (feeds_mp Ha), (feeds_mp Hb), (feeds_len Ha).
    replace (Z.max (Z.of_nat (S ka)) (Z.of_nat (S kb))) with (Z.of_nat (S (Nat.max ka kb))) by lia.
    rewrite mp_idx, clone_S.
    rewrite (feeds_slice Ha), (feeds_slice Hb) by lia.
    rewrite map2_map_seq. apply delivers_mk; auto. intros; lia.
  Qed.

  Lemma binop_s_delivers op a c n k f :
    feeds a n k f -> delivers (binop_s op a c) n k (fun i => op (f i) c).
  Proof.
    intros Ha. unfold binop_s, bars.
    rewrite (feeds_mp Ha), (feeds_len Ha).
    replace (Z.max (Z.of_nat (S k)) 1) with (Z.of_nat (S k)) by lia.
    rewrite mp_idx, clone_S, (feeds_slice Ha), map_map by lia.
    apply delivers_mk; auto. intros; lia.
  Qed.

  Lemma rbinop_s_delivers op a c n k f :
    feeds a n k f -> delivers (rbinop_s op c a) n k (fun i => op c (f i)).
  Proof.
    intros Ha. unfold rbinop_s, bars.
    rewrite (feeds_mp Ha), (feeds_len Ha).
    replace (Z.max (Z.of_nat (S k)) 1) with (Z.of_nat (S k)) by lia.
    rewrite mp_idx, clone_S, (feeds_slice Ha), map_map by lia.
    apply delivers_mk; auto. intros; lia.
  Qed.

  Lemma stdop_delivers F a n k f g :
    feeds a n k f ->
    F (map f (seq k (n - k))) = map g (seq k (n - k)) ->
    delivers (stdop F a) n k g.
  Proof.
    intros Ha HF. unfold stdop, bars.
    rewrite (feeds_mp Ha), (feeds_len Ha).
    rewrite mp_idx, clone_S, (feeds_slice Ha), HF by lia.
    apply delivers_mk; auto. intros; lia.
  Qed.

  Lemma mapop_delivers h a n k f :
    feeds a n k f -> delivers (mapop h a) n k (fun i => h (f i)).
  Proof.
    intros Ha. unfold mapop. eapply stdop_delivers; eauto. now rewrite map_map.
  Qed.

  Lemma stdop2_delivers F a b n ka kb f g h :
    feeds a n ka f -> feeds b n kb g ->
    (let k := Nat.max ka kb in
     F (map f (seq k (n - k))) (map g (seq k (n - k))) = map h (seq k (n - k))) ->
    delivers (stdop2 F a b) n (Nat.max ka kb) h.
  Proof.
    intros Ha Hb HF. unfold stdop2, bars.
    rewrite (feeds_mp Ha), (feeds_mp Hb), (feeds_len Ha).
    replace (Z.max (Z.of_nat (S ka)) (Z.of_nat (S kb))) with (Z.of_nat (S (Nat.max ka kb))) by lia.
    rewrite mp_idx, clone_S.
    rewrite (feeds_slice Ha), (feeds_slice Hb) by lia.
    cbv zeta in HF. rewrite HF. apply delivers_mk; auto. intros; lia.
  Qed.

  (** shift by p >= 0 *)
  Lemma ser_shift_seq f j m p :
    ser_shift (map f (seq j m)) (Z.of_nat p) =
    map (fun i => if i <? j + p then vnan else f (i - p)) (seq j m).
  Proof.
    unfold ser_shift. destruct (Z.ltb_spec (Z.of_nat p) 0); [lia|].
    rewrite Nat2Z.id, map_length, seq_length.
    destruct (Nat.le_gt_cases p m) as [Hp|Hp].
    - rewrite Nat.min_l by lia.
      rewrite (seq_split_at j m p) at 2 by lia. rewrite map_app. f_equal.
      + apply nth_error_ext; [now rewrite repeat_length, map_length, seq_length|].
        intros i Hi. rewrite repeat_length in Hi.
        rewrite nth_error_repeat_ok, nth_error_map_seq by lia.
        destruct (Nat.ltb_spec (j + i) (j + p)); auto; lia.
      + rewrite firstn_map, firstn_seq. rewrite Nat.min_l by lia.
        apply nth_error_ext; [now rewrite !map_length, !seq_length|].
        intros i Hi. rewrite map_length, seq_length in Hi.
        rewrite !nth_error_map_seq by lia.
        destruct (Nat.ltb_spec (j + p + i) (j + p)); [lia|]. do 2 f_equal; lia.
    - rewrite Nat.min_r by lia. replace (m - p) with 0 by lia. simpl. rewrite app_nil_r.
      apply nth_error_ext; [now rewrite repeat_length, map_length, seq_length|].
      intros i Hi. rewrite repeat_length in Hi.
      rewrite nth_error_repeat_ok, nth_error_map_seq by lia.
      destruct (Nat.ltb_spec (j + i) (j + p)); auto; lia.
  Qed.

  Lemma kwop_p_delivers F a n k p f g :
    feeds a n k f ->
    F (map f (seq k (n - k))) (Z.of_nat p) = map g (seq k (n - k)) ->
    (forall i, k <= i < k + p -> i < n -> g i = vnan) ->
    delivers (kwop_p F a (Z.of_nat p)) n (k + p) g.
  Proof.
    intros Ha HF Hg. unfold kwop_p, bars.
    rewrite (feeds_mp Ha), (feeds_len Ha).
    rewrite mp_idx, clone_S, (feeds_slice Ha), HF by lia. cbn [lmp lser].
    replace (Z.of_nat (S k) + Z.of_nat p)%Z with (Z.of_nat (S (k + p))) by lia.
    apply delivers_mk; auto. lia.
  Qed.

  Lemma shift_delivers a n k p f :
    feeds a n k f -> delivers (shift a (Z.of_nat p)) n (k + p) (fun i => f (i - p)).
  Proof.
    intros Ha. unfold shift.
    eapply delivers_ext; [|eapply kwop_p_delivers; [eassumption|apply ser_shift_seq|]].
    - intros i Hi. cbv beta. destruct (Nat.ltb_spec i (k + p)); [lia|reflexivity].
    - intros i Hi _. cbv beta. destruct (Nat.ltb_spec i (k + p)); [reflexivity|lia].
  Qed.

  Lemma at_ago_zero a n k f :
    feeds a n k f -> delivers (at_ago a (- Z.of_nat 0)) n k (fun _ => vnan).
  Proof.
    intros [H1 [H2 _]]. assert (E : forall i, i < n -> nth_error (repeat (vnan : V) n) i = Some vnan).
    { intros i Hi. now apply nth_error_repeat_ok. }
    unfold at_ago. cbn [Z.of_nat Z.opp Z.eqb]. unfold filled, bars. rewrite H2.
    split; [split; [exact H1|split; [apply repeat_length|]]|]; cbn [lser]; intros i Hi; apply E; lia.
  Qed.

  Lemma at_ago_delivers a n k p f :
    feeds a n k f -> 1 <= p ->
    delivers (at_ago a (- Z.of_nat p)) n (k + p) (fun i => f (i - p)).
  Proof.
    intros Ha Hp. unfold at_ago. destruct (Z.eqb_spec (- Z.of_nat p) 0); [lia|].
    replace (- - Z.of_nat p)%Z with (Z.of_nat p) by lia. now apply shift_delivers.
  Qed.

  (** [nan_r op]: the operation yields NaN when its second operand is NaN *)
  Definition nan_r (op : V -> V -> V) : Prop := forall x, op x vnan = vnan.

  Lemma diff_delivers a n k p f :
    nan_r vsub ->
    feeds a n k f -> delivers (diff a (Z.of_nat p)) n (k + p) (fun i => vsub (f i) (f (i - p))).
  Proof.
    intros Hn Ha. unfold diff.
    eapply delivers_ext; [|eapply kwop_p_delivers; [eassumption| |]].
    2:{ unfold ser_diff. rewrite ser_shift_seq. apply map2_map_seq. }
    - intros i Hi. simpl. destruct (Nat.ltb_spec i (k + p)); auto; lia.
    - intros i Hi _. simpl. destruct (Nat.ltb_spec i (k + p)); [apply Hn|lia].
  Qed.

  (** ** rolling *)

  Lemma window_seq f j m i w :
    i < m -> S i >= w -> window (map f (seq j m)) i w = map f (seq (S (j + i) - w) w).
  Proof.
    intros Hi Hw. unfold window. rewrite skipn_map, skipn_seq, firstn_map, firstn_seq.
    rewrite Nat.min_l by lia. do 2 f_equal. lia.
  Qed.

  Lemma ser_rolling_seq G f j m w :
    ser_rolling w G (map f (seq j m)) =
    map (fun i => if S i <? j + w then vnan else guard_win G (win f i w)) (seq j m).
  Proof.
    unfold ser_rolling. rewrite map_length, seq_length.
    apply nth_error_ext; [now rewrite !map_length, !seq_length|].
    intros i Hi. rewrite map_length, seq_length in Hi.
    rewrite !nth_error_map_seq by lia. f_equal. simpl.
    destruct (Nat.ltb_spec (S i) w); destruct (Nat.ltb_spec (S (j + i)) (j + w)); auto; try lia.
    unfold win. now rewrite window_seq by lia.
  Qed.

  Lemma rolling_delivers w G a n k f :
    1 <= w -> feeds a n k f ->
    delivers (rolling w G a) n (k + w - 1) (fun i => guard_win G (win f i w)).
  Proof.
    intros Hw Ha. unfold rolling, bars.
    rewrite (feeds_mp Ha), (feeds_len Ha).
    replace (Z.max (Z.of_nat (S k) + (Z.of_nat w - 0 - 1)) 1)
      with (Z.of_nat (S (k + w - 1))) by lia.
    rewrite mp_idx, clone_S, (feeds_slice Ha), ser_rolling_seq by lia.
    eapply delivers_ext; [|apply delivers_mk].
    - intros i Hi. simpl. destruct (Nat.ltb_spec (S i) (k + w)); auto; lia.
    - lia.
    - intros i Hi _. simpl. destruct (Nat.ltb_spec (S i) (k + w)); auto; lia.
  Qed.
End Facts.
