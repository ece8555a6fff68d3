(** Dropping old history: the operators whose value at a bar depends only on a bounded number of
    earlier bars commute with the removal of the first bars. *)
From Coq Require Import ZArith List Bool Lia Arith.
From Verif Require Import Num Series Line Spec LineFacts ScanFacts Expr CausalFacts WarmFacts
  IndMA IndBasic.
Import ListNotations.
Set Implicit Arguments.
Arguments skipn : simpl never.
Arguments firstn : simpl never.

(** a function on series that, past its first [w] results, sees nothing of what was dropped *)
Definition local {A B} (w : nat) (F : list A -> list B) : Prop :=
  (forall l, length (F l) = length l) /\
  (forall k l, skipn w (F (skipn k l)) = skipn (k + w) (F l)).

Lemma skipn_plc {B} (d : B) n m r j :
  length r = n - m -> m <= j -> skipn j (plc d n m r) = skipn (j - m) r.
Proof.
  intros Hr Hj. rewrite plc_form, skipn_app, repeat_length, skipn_all2 by (rewrite repeat_length; lia).
  cbn [app]. destruct (Nat.le_gt_cases m n).
  - now rewrite Nat.min_l by lia.
  - assert (r = []) by (apply length_zero_iff_nil; lia). subst r. now rewrite !skipn_nil.
Qed.

Lemma skipn_more {A} a b (l : list A) : skipn a (skipn b l) = skipn (b + a) l.
Proof.
  revert l; induction b as [|b IH]; intro l; [now rewrite skipn_O|].
  destruct l; cbn [Nat.add]; rewrite ?skipn_nil, ?skipn_cons; auto.
Qed.

Lemma skipn_weak {A} (s s' : list A) k m m' :
  skipn m s' = skipn (k + m) s -> m <= m' -> skipn m' s' = skipn (k + m') s.
Proof.
  intros H Hm. replace m' with (m + (m' - m)) by lia.
  rewrite <- skipn_more, H, skipn_more. f_equal. lia.
Qed.

Lemma local_weak {A B} w w' (F : list A -> list B) : local w F -> w <= w' -> local w' F.
Proof. intros [H1 H2] Hw. split; auto. intros k l. now apply skipn_weak with w. Qed.

Lemma skipn_map2 {A B C} (f : A -> B -> C) k l m :
  skipn k (map2 f l m) = map2 f (skipn k l) (skipn k m).
Proof.
  revert l m; induction k as [|k IH]; intros l m; [now rewrite !skipn_O|].
  destruct l as [|a l], m as [|b m]; cbn [map2]; rewrite ?skipn_nil, ?skipn_cons; auto.
  destruct (skipn k l); auto.
Qed.

Lemma local_map {A B} (f : A -> B) : local 0 (map f).
Proof.
  split; [intro; apply map_length|]. intros k l. now rewrite Nat.add_0_r, skipn_O, skipn_map.
Qed.
Lemma local_id {A} : local 0 (fun l : list A => l).
Proof. split; auto. intros k l. now rewrite Nat.add_0_r. Qed.
Lemma local_map2 {A B C D} w (op : B -> C -> D) (F : list A -> list B) (G : list A -> list C) :
  local w F -> local w G -> local w (fun l => map2 op (F l) (G l)).
Proof.
  intros [F1 F2] [G1 G2]. split; [intro l; rewrite map2_length, F1, G1; lia|].
  intros k l. now rewrite !skipn_map2, F2, G2.
Qed.

Section Facts.
  Context {V : Type} {N : Num V}.

  Lemma local_shift p : local p (fun s : list V => ser_shift s (Z.of_nat p)).
  Proof.
    split; [intro l; apply ser_shift_length|]. intros k l.
    assert (E : forall j u, p <= j -> skipn j (ser_shift u (Z.of_nat p)) =
                              skipn (j - p) (firstn (length u - p) u : list V)).
    { intros j u Hj. unfold ser_shift. destruct (Z.ltb_spec (Z.of_nat p) 0); [lia|]. rewrite Nat2Z.id.
      rewrite skipn_app, repeat_length, skipn_all2 by (rewrite repeat_length; lia). cbn [app].
      destruct (Nat.le_gt_cases p (length u)).
      - now rewrite Nat.min_l by lia.
      - replace (length u - p) with 0 by lia. now rewrite firstn_O, !skipn_nil. }
    rewrite !E by lia. rewrite Nat.sub_diag, skipn_O, Nat.add_sub, skipn_length, firstn_skipn_comm.
    destruct (Nat.le_gt_cases (k + p) (length l)).
    - f_equal. f_equal. lia.
    - rewrite !skipn_all2; auto; rewrite firstn_length; lia.
  Qed.
  Lemma local_diff p : local p (fun s : list V => ser_diff s (Z.of_nat p)).
  Proof.
    unfold ser_diff. apply local_map2; [|apply local_shift].
    apply local_weak with 0; [apply local_id|lia].
  Qed.

  Lemma window_skipn {A} (l : list A) k i w :
    w <= S i -> window (skipn k l) i w = window l (k + i) w.
  Proof. intro H. unfold window. rewrite skipn_more. do 2 f_equal. lia. Qed.

  Lemma skipn_map_seq {A} (f g : nat -> A) j w m :
    (forall i, w <= i -> i < m - j -> g i = f (j + i)) ->
    skipn w (map g (seq 0 (m - j))) = skipn (j + w) (map f (seq 0 m)).
  Proof.
    intro H. rewrite !skipn_map.
    assert (E : forall a n, skipn a (seq 0 n) = seq a (n - a)).
    { clear. intros a n. destruct (Nat.le_gt_cases a n).
      - replace n with (a + (n - a)) at 1 by lia. rewrite seq_app, skipn_app, seq_length, Nat.sub_diag.
        rewrite skipn_all2 by (rewrite seq_length; lia). reflexivity.
      - rewrite skipn_all2 by (rewrite seq_length; lia). now replace (n - a) with 0 by lia. }
    rewrite !E. replace (m - (j + w)) with (m - j - w) by lia.
    apply nth_error_ext; [now rewrite !map_length, !seq_length|].
    intros i Hi. rewrite map_length, seq_length in Hi.
    assert (P : forall (h : nat -> A) a c, i < c -> nth_error (map h (seq a c)) i = Some (h (a + i))).
    { intros h a c Hc. rewrite nth_error_map.
      rewrite (nth_error_nth' _ 0) by (rewrite seq_length; lia). now rewrite seq_nth by lia. }
    rewrite !P by lia. f_equal. replace (j + w + i) with (j + (w + i)) by lia. apply H; lia.
  Qed.

  Lemma local_rolling w (G : list V -> V) : local w (ser_rolling (S w) G).
  Proof.
    unfold ser_rolling. split; [intro l; now rewrite map_length, seq_length|]. intros j l.
    rewrite skipn_length. apply skipn_map_seq.
    intros i Hi Hl. destruct (Nat.ltb_spec (S i) (S w)); [lia|].
    destruct (Nat.ltb_spec (S (j + i)) (S w)); [lia|]. now rewrite window_skipn by lia.
  Qed.

  (** ** The relation: the second line is what the same computation gives after dropping [k] bars *)
  Variables k n : nat.

  Definition Ds {A} (m : Z) (s s' : list A) : Prop :=
    length s = k + n /\ length s' = n /\
    skipn (Z.to_nat (m - 1)) s' = skipn (k + Z.to_nat (m - 1)) s.
  Definition Dl (l l' : line V) : Prop :=
    (1 <= lmp l)%Z /\ lmp l' = lmp l /\ Ds (lmp l) (lser l) (lser l').
  Definition BDl (l l' : bline) : Prop :=
    (1 <= bmp l)%Z /\ bmp l' = bmp l /\ Ds (bmp l) (bser l) (bser l').

  Lemma Ds_weak {A} m m' (s s' : list A) : Ds m s s' -> (m <= m')%Z -> Ds m' s s'.
  Proof.
    intros (H1 & H2 & H3) Hm. repeat split; auto. eapply skipn_weak; eauto. lia.
  Qed.

  Lemma Ds_unary_at {A B} (F : list A -> list B) (d : B) m inc w s s' :
    Ds m s s' -> (1 <= m)%Z -> (forall l, length (F l) = length l) ->
    (let u := skipn (Z.to_nat (m - 1)) s in skipn w (F (skipn k u)) = skipn (k + w) (F u)) ->
    (Z.of_nat w <= inc)%Z ->
    Ds (m + inc) (plc d (k + n) (Z.to_nat (m - 1)) (F (skipn (Z.to_nat (m - 1)) s)))
                 (plc d n (Z.to_nat (m - 1)) (F (skipn (Z.to_nat (m - 1)) s'))).
  Proof.
    intros (H1 & H2 & H3) Hm F1 F2 Hw. cbv zeta in F2. set (i := Z.to_nat (m - 1)) in *.
    apply Ds_weak with (m + Z.of_nat w)%Z; [|lia].
    assert (L : length (F (skipn i s)) = k + n - i) by (rewrite F1, skipn_length; lia).
    assert (L' : length (F (skipn i s')) = n - i) by (rewrite F1, skipn_length; lia).
    repeat split; try (apply plc_length; assumption).
    replace (Z.to_nat (m + Z.of_nat w - 1)) with (i + w) by lia.
    rewrite !skipn_plc by (auto; lia). rewrite H3.
    replace (i + w - i) with w by lia. replace (k + (i + w) - i) with (k + w) by lia.
    rewrite <- F2, skipn_more. do 3 f_equal. lia.
  Qed.
  Lemma Ds_unary {A B} (F : list A -> list B) (d : B) m inc w s s' :
    Ds m s s' -> (1 <= m)%Z -> local w F -> (Z.of_nat w <= inc)%Z ->
    Ds (m + inc) (plc d (k + n) (Z.to_nat (m - 1)) (F (skipn (Z.to_nat (m - 1)) s)))
                 (plc d n (Z.to_nat (m - 1)) (F (skipn (Z.to_nat (m - 1)) s'))).
  Proof. intros H1 H2 [F1 F2] H3. eapply Ds_unary_at; eauto. Qed.

  Lemma Ds_binary {A B C} (op : A -> B -> C) (d : C) m ma mb s s' u u' :
    Ds ma s s' -> Ds mb u u' -> (ma <= m)%Z -> (mb <= m)%Z ->
    Ds m (plc d (k + n) (Z.to_nat (m - 1)) (map2 op (skipn (Z.to_nat (m - 1)) s) (skipn (Z.to_nat (m - 1)) u)))
         (plc d n (Z.to_nat (m - 1)) (map2 op (skipn (Z.to_nat (m - 1)) s') (skipn (Z.to_nat (m - 1)) u'))).
  Proof.
    intros HA HB Ha Hb. apply Ds_weak with (m' := m) in HA; auto. apply Ds_weak with (m' := m) in HB; auto.
    destruct HA as (A1 & A2 & A3), HB as (B1 & B2 & B3). set (i := Z.to_nat (m - 1)) in *.
    repeat split.
    - apply plc_length. rewrite map2_length, !skipn_length. lia.
    - apply plc_length. rewrite map2_length, !skipn_length. lia.
    - fold i. rewrite !skipn_plc by (rewrite ?map2_length, ?skipn_length; lia).
      rewrite A3, B3, Nat.sub_diag, skipn_O. replace (k + i - i) with k by lia.
      rewrite skipn_map2, !skipn_more. do 2 f_equal; lia.
  Qed.

  Lemma slice_to {A} (s : list A) m : (1 <= m)%Z -> slice_from s (m - 1) = skipn (Z.to_nat (m - 1)) s.
  Proof.
    intro H. destruct (@mi_nat m H) as [i Hi]. rewrite Hi, slice_from_nat. now rewrite Nat2Z.id.
  Qed.
  Lemma set_to {A} (d : A) l m r : (1 <= m)%Z ->
    set_from (repeat d l) (m - 1) r = plc d l (Z.to_nat (m - 1)) r.
  Proof.
    intro H. destruct (@mi_nat m H) as [i Hi]. unfold plc. now rewrite Hi, Nat2Z.id.
  Qed.

  Lemma D_unary (F : list V -> list V) l l' w (inc : Z) :
    Dl l l' -> local w F -> (Z.of_nat w <= inc)%Z ->
    Dl (mkLine (lmp l + inc) (set_from (nans (bars l)) (lmp l - 1) (F (slice_from (lser l) (lmp l - 1)))))
       (mkLine (lmp l + inc) (set_from (nans (bars l')) (lmp l - 1) (F (slice_from (lser l') (lmp l - 1))))).
  Proof.
    intros (H1 & H2 & H3) HF Hw. unfold bars, nans. pose proof H3 as (L & L' & _). rewrite L, L'.
    rewrite !slice_to, !set_to by lia. split; [|split]; cbn [lmp lser]; try lia; auto.
    eapply Ds_unary; eauto.
  Qed.

  Lemma D_stdop F l l' : Dl l l' -> local 0 F -> Dl (stdop F l) (stdop F l').
  Proof.
    intros H HF. pose proof H as (H1 & H2 & H3). unfold stdop.
    rewrite H2, !clone_pos by lia.
    pose proof (@D_unary F l l' 0 0 H HF ltac:(lia)) as HR.
    now rewrite Z.add_0_r in HR.
  Qed.
  Lemma D_mapop f l l' : Dl l l' -> Dl (mapop f l) (mapop f l').
  Proof. intro H. apply D_stdop; auto. apply local_map. Qed.

  Lemma D_kwop_p F l l' p :
    Dl l l' -> local p (fun s => F s (Z.of_nat p)) ->
    Dl (kwop_p F l (Z.of_nat p)) (kwop_p F l' (Z.of_nat p)).
  Proof.
    intros H HF. pose proof H as (H1 & H2 & H3). unfold kwop_p.
    rewrite H2, !clone_pos by lia. cbn [lmp lser].
    apply (@D_unary (fun s => F s (Z.of_nat p)) l l' p); auto. lia.
  Qed.
  Lemma D_shift p l l' : Dl l l' -> Dl (shift l (Z.of_nat p)) (shift l' (Z.of_nat p)).
  Proof. intro H. apply D_kwop_p; auto. apply local_shift. Qed.
  Lemma D_diff p l l' : Dl l l' -> Dl (diff l (Z.of_nat p)) (diff l' (Z.of_nat p)).
  Proof. intro H. apply D_kwop_p; auto. apply local_diff. Qed.

  Lemma D_rolling w G l l' : 1 <= w -> Dl l l' -> Dl (rolling w G l) (rolling w G l').
  Proof.
    intros Hw H. destruct w as [|w]; [lia|]. pose proof H as (H1 & H2 & H3). unfold rolling.
    rewrite H2, !clone_pos by lia.
    replace (Z.max (lmp l + (Z.of_nat (S w) - 0 - 1)) 1) with (lmp l + Z.of_nat w)%Z by lia.
    apply D_unary with w; auto; [apply local_rolling|lia].
  Qed.

  Lemma D_binop_s op l l' c : Dl l l' -> Dl (binop_s op l c) (binop_s op l' c).
  Proof.
    intros H. pose proof H as (H1 & H2 & H3). unfold binop_s.
    rewrite H2, !Z.max_l, !clone_pos by lia.
    pose proof (@D_unary (map (fun x => op x c)) l l' 0 0 H (local_map _) ltac:(lia)) as HR.
    now rewrite Z.add_0_r in HR.
  Qed.
  Lemma D_rbinop_s op l l' c : Dl l l' -> Dl (rbinop_s op c l) (rbinop_s op c l').
  Proof.
    intros H. pose proof H as (H1 & H2 & H3). unfold rbinop_s.
    rewrite H2, !Z.max_l, !clone_pos by lia.
    pose proof (@D_unary (map (fun x => op c x)) l l' 0 0 H (local_map _) ltac:(lia)) as HR.
    now rewrite Z.add_0_r in HR.
  Qed.

  Ltac two :=
    repeat match goal with
           | H : Dl _ _ |- _ => destruct H as (? & ? & ?)
           | H : BDl _ _ |- _ => destruct H as (? & ? & ?)
           end;
    repeat match goal with H : lmp _ = lmp _ |- _ => rewrite H | H : bmp _ = bmp _ |- _ => rewrite H end;
    repeat match goal with
           | H : Ds _ (lser ?a) _ |- context [length (lser ?a)] => rewrite (proj1 H)
           | H : Ds _ _ (lser ?a) |- context [length (lser ?a)] => rewrite (proj1 (proj2 H))
           | H : Ds _ (bser ?a) _ |- context [length (bser ?a)] => rewrite (proj1 H)
           | H : Ds _ _ (bser ?a) |- context [length (bser ?a)] => rewrite (proj1 (proj2 H))
           end;
    rewrite ?clone_pos, ?bclone_pos, ?slice_to, ?set_to by lia;
    split; [|split]; cbn [lmp lser bmp bser]; try lia; auto.

  Lemma D_binop op a a' b b' : Dl a a' -> Dl b b' -> Dl (binop op a b) (binop op a' b').
  Proof. intros Ha Hb. unfold binop, bars, nans. two. eapply Ds_binary; eauto; lia. Qed.
  Lemma D_stdop2_map2 op a a' b b' :
    Dl a a' -> Dl b b' -> Dl (stdop2 (map2 op) a b) (stdop2 (map2 op) a' b').
  Proof. exact (@D_binop op a a' b b'). Qed.
  Lemma D_mul_b a a' b b' : Dl a a' -> BDl b b' -> Dl (mul_b a b) (mul_b a' b').
  Proof. intros Ha Hb. unfold mul_b, bars, nans. two. eapply Ds_binary; eauto; lia. Qed.
  Lemma BD_cmpop op a a' b b' : Dl a a' -> Dl b b' -> BDl (cmpop op a b) (cmpop op a' b').
  Proof. intros Ha Hb. unfold cmpop, bars. two. eapply Ds_binary; eauto; lia. Qed.
  Lemma BD_bbinop op a a' b b' : BDl a a' -> BDl b b' -> BDl (bbinop op a b) (bbinop op a' b').
  Proof. intros Ha Hb. unfold bbinop. two. eapply Ds_binary; eauto; lia. Qed.
  Lemma BD_cmpop_s op a a' c : Dl a a' -> BDl (cmpop_s op a c) (cmpop_s op a' c).
  Proof.
    intros Ha. unfold cmpop_s, bars. destruct Ha as (H1 & H2 & H3).
    rewrite H2, Z.max_l, (proj1 H3), (proj1 (proj2 H3)), !bclone_pos, !slice_to, !set_to by lia.
    split; [|split]; cbn [bmp bser]; auto.
    replace (lmp a) with (lmp a + 0)%Z at 1 by lia.
    eapply Ds_unary; eauto; [apply local_map|lia].
  Qed.
  Lemma D_rmul_b c b b' : BDl b b' -> Dl (rmul_b c b) (rmul_b c b').
  Proof.
    intros (H1 & H2 & H3). unfold rmul_b, nans.
    rewrite H2, Z.max_l, (proj1 H3), (proj1 (proj2 H3)), !slice_to, !set_to by lia.
    destruct (Z.eqb_spec (bmp b) 0); [lia|].
    split; [|split]; cbn [lmp lser]; auto.
    replace (bmp b) with (bmp b + 0)%Z at 1 by lia.
    eapply Ds_unary; eauto; [apply local_map|lia].
  Qed.

  Lemma D_filled c l l' : Dl l l' -> Dl (filled l c) (filled l' c).
  Proof.
    intros (H1 & H2 & H3 & H4 & _). unfold filled, bars. rewrite H3, H4.
    split; [|split]; cbn [lmp lser]; auto. repeat split; rewrite ?repeat_length; auto.
    assert (E : forall (x : V) i m, skipn i (repeat x m) = repeat x (m - i)).
    { clear. intros x i m. revert m. induction i as [|i IH]; intros m; [now rewrite skipn_O, Nat.sub_0_r|].
      destruct m; cbn [repeat]; rewrite ?skipn_nil, ?skipn_cons; auto. now rewrite IH. }
    rewrite !E. f_equal. lia.
  Qed.
  Lemma D_at_ago p l l' : (0 <= p)%Z -> Dl l l' -> Dl (at_ago l (- p)) (at_ago l' (- p)).
  Proof.
    intros Hp H. unfold at_ago. destruct (Z.eqb_spec (- p) 0).
    - now apply D_filled.
    - rewrite Z.opp_involutive. rewrite <- (Z2Nat.id p) by lia. now apply D_shift.
  Qed.
  Lemma D_at_ago1 j l l' : Dl l l' -> Dl (at_ago l (Z.neg j)) (at_ago l' (Z.neg j)).
  Proof. intro H. apply (@D_at_ago (Z.pos j)); auto. lia. Qed.
  Lemma D_lclip_lo t l l' : Dl l l' -> Dl (lclip_lo l t) (lclip_lo l' t).
  Proof. intro H. exact (@D_binop_s (fun x c => clip_lo c x) l l' t H). Qed.
  Lemma D_lclip_hi t l l' : Dl l l' -> Dl (lclip_hi l t) (lclip_hi l' t).
  Proof. intro H. exact (@D_binop_s (fun x c => clip_hi c x) l l' t H). Qed.
  Lemma D_lclip_lo_l a a' b b' : Dl a a' -> Dl b b' -> Dl (lclip_lo_l a b) (lclip_lo_l a' b').
  Proof. apply D_stdop2_map2. Qed.
  Lemma D_lclip_hi_l a a' b b' : Dl a a' -> Dl b b' -> Dl (lclip_hi_l a b) (lclip_hi_l a' b').
  Proof. apply D_stdop2_map2. Qed.
  Lemma D_pow2 l l' : Dl l l' -> Dl (pow2 l) (pow2 l').
  Proof. apply D_binop_s. Qed.
  Lemma D_mp l l' m : Dl l l' -> (lmp l <= m)%Z -> Dl (mkLine m (lser l)) (mkLine m (lser l')).
  Proof.
    intros (A & B & C) H. split; [|split]; cbn [lmp lser]; auto; [lia|]. eapply Ds_weak; eauto.
  Qed.

  (** returns: the last value is carried over gaps, so the first kept value has to be a number *)
  Lemma ffill_skip (s : list V) j prev :
    exists prev', skipn j (ffill_from prev s) = ffill_from prev' (skipn j s).
  Proof.
    revert prev s; induction j as [|j IH]; intros prev s; [exists prev; now rewrite !skipn_O|].
    destruct s as [|x s]; [exists prev; now rewrite !skipn_nil|]. cbn [ffill_from].
    rewrite !skipn_cons. apply IH.
  Qed.
  Lemma local_pct p j (u : list V) :
    (forall x, nth_error (skipn j u) 0 = Some x -> visnan x = false) ->
    skipn p (ser_pct_change (skipn j u) (Z.of_nat p)) = skipn (j + p) (ser_pct_change u (Z.of_nat p)).
  Proof.
    intro H. unfold ser_pct_change. cbv zeta.
    assert (E : ser_ffill (skipn j u) = skipn j (ser_ffill u)).
    { unfold ser_ffill. destruct (ffill_skip u j vnan) as [q ->].
      destruct (skipn j u) as [|x r]; auto. cbn [ffill_from]. now rewrite (H x eq_refl). }
    rewrite E, !skipn_map. f_equal.
    destruct (@local_map2 V V V V p vdiv (fun s => s) (fun s => ser_shift s (Z.of_nat p))
                (local_weak (w' := p) local_id (Nat.le_0_l p)) (local_shift p)) as [_ HL].
    apply HL.
  Qed.
  Lemma D_pct p l l' :
    Dl l l' -> (forall x, nth_error (lser l') (Z.to_nat (lmp l - 1)) = Some x -> visnan x = false) ->
    Dl (pct_change l (Z.of_nat p)) (pct_change l' (Z.of_nat p)).
  Proof.
    intros (H1 & H2 & H3) Hx. unfold pct_change, kwop_p, bars, nans.
    rewrite H2, !clone_pos by lia. cbn [lmp lser].
    rewrite (proj1 H3), (proj1 (proj2 H3)), !slice_to, !set_to by lia.
    split; [|split]; cbn [lmp lser]; try lia.
    apply (@Ds_unary_at V V (fun s => ser_pct_change s (Z.of_nat p)) vnan _ _ p); auto; try lia.
    - intro l0. apply (causal_pct (V:=V) p).
    - cbv zeta. apply local_pct. intros x E. apply Hx. rewrite <- E.
      rewrite !nth_error_skipn, Nat.add_0_r.
      replace (Z.to_nat (lmp l - 1)) with (Z.to_nat (lmp l - 1) + 0) at 1 by lia.
      rewrite <- nth_error_skipn, (proj2 (proj2 H3)), !nth_error_skipn. f_equal. lia.
  Qed.

  (** two lines in one window: the second one must be ready no later than the first *)
  Lemma D_rolling2 w G a a' b b' :
    1 <= w -> (lmp b <= lmp a)%Z -> Dl a a' -> Dl b b' -> Dl (rolling2 w G a b) (rolling2 w G a' b').
  Proof.
    intros Hw Hba (A1 & A2 & A3) (B1 & B2 & B3). unfold rolling2, bars, nans.
    rewrite A2, (proj1 A3), (proj1 (proj2 A3)), !clone_pos, !slice_to, !set_to by lia.
    set (i := Z.to_nat (lmp a - 1)).
    assert (B4 : Ds (lmp a) (lser b) (lser b')) by (eapply Ds_weak; eauto).
    assert (EA : skipn i (lser a') = skipn k (skipn i (lser a))).
    { unfold i. rewrite (proj2 (proj2 A3)), skipn_more. f_equal. lia. }
    assert (EB : skipn i (lser b') = skipn k (skipn i (lser b))).
    { unfold i. rewrite (proj2 (proj2 B4)), skipn_more. f_equal. lia. }
    rewrite EA, EB.
    set (x := skipn i (lser a)). set (y := skipn i (lser b)).
    set (f := fun (y x : list V) j => if S j <? w then vnan else
                 let wx := map prep (window x j w) in let wy := map prep (window y j w) in
                 if existsb visnan wx || existsb visnan wy then vnan else G wx wy).
    assert (Hlen : length x = k + n - i) by (unfold x; rewrite skipn_length, (proj1 A3); lia).
    assert (HF : skipn (w - 1) (map (f (skipn k y) (skipn k x)) (seq 0 (length (skipn k x)))) =
                 skipn (k + (w - 1)) (map (f y x) (seq 0 (length x)))).
    { rewrite skipn_length. apply skipn_map_seq. intros j Hj Hl. unfold f.
      destruct (Nat.ltb_spec (S j) w); [lia|]. destruct (Nat.ltb_spec (S (k + j)) w); [lia|].
      now rewrite !window_skipn by lia. }
    change (Dl (mkLine (Z.max (lmp a + (Z.of_nat w - 0 - 1)) 1) (plc vnan (k + n) i (map (f y x) (seq 0 (length x)))))
               (mkLine (Z.max (lmp a + (Z.of_nat w - 0 - 1)) 1)
                  (plc vnan n i (map (f (skipn k y) (skipn k x)) (seq 0 (length (skipn k x))))))).
    split; [|split]; cbn [lmp lser]; try lia.
    replace (Z.max (lmp a + (Z.of_nat w - 0 - 1)) 1) with (lmp a + (Z.of_nat w - 1))%Z by lia.
    repeat split.
    - apply plc_length. now rewrite map_length, seq_length.
    - apply plc_length. rewrite map_length, seq_length, skipn_length. lia.
    - replace (Z.to_nat (lmp a + (Z.of_nat w - 1) - 1)) with (i + (w - 1)) by lia.
      rewrite !skipn_plc by (rewrite ?map_length, ?seq_length, ?skipn_length; lia).
      replace (i + (w - 1) - i) with (w - 1) by lia.
      replace (k + (i + (w - 1)) - i) with (k + (w - 1)) by lia. exact HF.
  Qed.
End Facts.
