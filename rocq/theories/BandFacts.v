(** Lines that differ a little: the operations of Line.v keep pointwise relations. *)
From Coq Require Import ZArith QArith List Bool Reals Lia Lra.
From Verif Require Import Num Series Line LineFacts RSpec RFacts StatFacts UnitFacts IndMA IndBasic IndStat IndRange Catalog BandSpec.
Import ListNotations.
Local Open Scope R_scope.
Arguments skipn : simpl never.
Arguments firstn : simpl never.
Local Notation V := (ext R).
Implicit Types P Q S : V -> V -> Prop.

(** ** lists *)
Lemma F2_length {A B} (P : A -> B -> Prop) l m : Forall2 P l m -> length m = length l.
Proof. induction 1; cbn; auto. Qed.
Lemma F2_skipn {A B} (P : A -> B -> Prop) l m : Forall2 P l m -> forall k, Forall2 P (skipn k l) (skipn k m).
Proof. induction 1 as [|x y l m H F IH]; intros [|k]; rewrite ?skipn_nil, ?skipn_cons; auto; try constructor; auto. Qed.
Lemma F2_firstn {A B} (P : A -> B -> Prop) l m : Forall2 P l m -> forall k, Forall2 P (firstn k l) (firstn k m).
Proof. induction 1 as [|x y l m H F IH]; intros [|k]; rewrite ?firstn_nil, ?firstn_O, ?firstn_cons; auto; constructor; auto. Qed.
Lemma F2_map {A B C D} (P : A -> B -> Prop) (Q : C -> D -> Prop) f g l m :
  (forall x y, P x y -> Q (f x) (g y)) -> Forall2 P l m -> Forall2 Q (map f l) (map g m).
Proof. induction 2; cbn; constructor; auto. Qed.
Lemma F2_map2 {A B C} (P : A -> A -> Prop) (Q : B -> B -> Prop) (S : C -> C -> Prop) (f g : A -> B -> C) l l' :
  (forall x x' y y', P x x' -> Q y y' -> S (f x y) (g x' y')) -> Forall2 P l l' ->
  forall m m', Forall2 Q m m' -> Forall2 S (map2 f l m) (map2 g l' m').
Proof. intros H F. induction F as [|x x' l l' X F IH]; intros m m' M; destruct M; cbn; constructor; auto. Qed.
Lemma F2_rev {A B} (P : A -> B -> Prop) l m : Forall2 P l m -> Forall2 P (rev l) (rev m).
Proof. induction 1; cbn; [constructor|]. apply Forall2_app; auto. Qed.
Lemma F2_repeat {A B} (P : A -> B -> Prop) a b n : P a b -> Forall2 P (repeat a n) (repeat b n).
Proof. intro H. induction n; cbn; constructor; auto. Qed.
Lemma F2_same {A} (P : A -> A -> Prop) l : (forall x, In x l -> P x x) -> Forall2 P l l.
Proof. induction l as [|x l IH]; intro H; constructor; [apply H; now left|]. apply IH. intros; apply H; now right. Qed.
Lemma F2_imp {A B} (P Q : A -> B -> Prop) l m : (forall x y, P x y -> Q x y) -> Forall2 P l m -> Forall2 Q l m.
Proof. induction 2; constructor; auto. Qed.
Lemma F2_from {A B} (P : A -> B -> Prop) l m i : Forall2 P l m -> Forall2 P (slice_from l i) (slice_from m i).
Proof. intro H. unfold slice_from. rewrite (F2_length _ _ _ H). now apply F2_skipn. Qed.
Lemma F2_slice {A B} (P : A -> B -> Prop) l m i j : Forall2 P l m -> Forall2 P (slice l i j) (slice m i j).
Proof. intro H. unfold slice. rewrite (F2_length _ _ _ H). now apply F2_firstn, F2_skipn. Qed.
Lemma F2_set {A B} (P : A -> B -> Prop) l m i r s : Forall2 P l m -> Forall2 P r s -> Forall2 P (set_from l i r) (set_from m i s).
Proof. intros H R. unfold set_from. rewrite (F2_length _ _ _ H). apply Forall2_app; auto. now apply F2_firstn. Qed.
Lemma F2_nans P n : P vnan vnan -> Forall2 P (nans n) (nans n).
Proof. apply F2_repeat. Qed.
Lemma F2_place P n i r s : P vnan vnan -> Forall2 P r s -> Forall2 P (set_from (nans n) i r) (set_from (nans n) i s).
Proof. intros H R. apply F2_set; auto. now apply F2_nans. Qed.
Lemma F2_shift P l m p : P vnan vnan -> Forall2 P l m -> Forall2 P (ser_shift l p) (ser_shift m p).
Proof.
  intros N H. unfold ser_shift. rewrite (F2_length _ _ _ H). destruct (p <? 0)%Z; apply Forall2_app;
    try (apply F2_repeat; exact N); [apply F2_skipn|apply F2_firstn]; exact H.
Qed.

(** ** lines *)
Definition lr (P : V -> V -> Prop) (l l' : line V) : Prop := lmp l' = lmp l /\ Forall2 P (lser l) (lser l').
Lemma lr_bars P l l' : lr P l l' -> bars l' = bars l. Proof. intros [_ H]. exact (F2_length _ _ _ H). Qed.
Lemma lr_imp P Q l l' : (forall x y, P x y -> Q x y) -> lr P l l' -> lr Q l l'.
Proof. intros H [A B]. split; auto. eapply F2_imp; eauto. Qed.
Lemma lr_binop P Q S op a a' b b' : S vnan vnan -> (forall x x' y y', P x x' -> Q y y' -> S (op x y) (op x' y')) ->
  lr P a a' -> lr Q b b' -> lr S (binop op a b) (binop op a' b').
Proof.
  intros N H A B. pose proof (lr_bars _ _ _ A) as L. destruct A as [A1 A2], B as [B1 B2]. unfold binop, clone.
  rewrite A1, B1, L. split; [reflexivity|]. cbn [lser]. apply F2_place; auto.
  apply (F2_map2 P Q); auto; now apply F2_from.
Qed.
Lemma lr_binop_s P S op a a' c : S vnan vnan -> (forall x x', P x x' -> S (op x c) (op x' c)) ->
  lr P a a' -> lr S (binop_s op a c) (binop_s op a' c).
Proof.
  intros N H A. pose proof (lr_bars _ _ _ A) as L. destruct A as [A1 A2]. unfold binop_s, clone.
  rewrite A1, L. split; [reflexivity|]. cbn [lser]. apply F2_place; auto.
  apply (F2_map P); [exact H|]. now apply F2_from.
Qed.
Lemma lr_rbinop_s P S op a a' c : S vnan vnan -> (forall x x', P x x' -> S (op c x) (op c x')) ->
  lr P a a' -> lr S (rbinop_s op c a) (rbinop_s op c a').
Proof.
  intros N H A. pose proof (lr_bars _ _ _ A) as L. destruct A as [A1 A2]. unfold rbinop_s, clone.
  rewrite A1, L. split; [reflexivity|]. cbn [lser]. apply F2_place; auto.
  apply (F2_map P); [exact H|]. now apply F2_from.
Qed.
Lemma lr_stdop2 P Q S op a a' b b' : S vnan vnan -> (forall x x' y y', P x x' -> Q y y' -> S (op x y) (op x' y')) ->
  lr P a a' -> lr Q b b' -> lr S (stdop2 (map2 op) a b) (stdop2 (map2 op) a' b').
Proof.
  intros N H A B. pose proof (lr_bars _ _ _ A) as L. destruct A as [A1 A2], B as [B1 B2]. unfold stdop2, clone.
  rewrite A1, B1, L. split; [reflexivity|]. cbn [lser]. apply F2_place; auto.
  apply (F2_map2 P Q); auto; now apply F2_from.
Qed.
Lemma lr_kwop P S (F : list V -> Z -> list V) a a' p : S vnan vnan ->
  (forall s s', Forall2 P s s' -> Forall2 S (F s p) (F s' p)) -> lr P a a' -> lr S (kwop_p F a p) (kwop_p F a' p).
Proof.
  intros N H A. pose proof (lr_bars _ _ _ A) as L. destruct A as [A1 A2]. unfold kwop_p, clone. cbn [lmp lser].
  rewrite A1, L. split; [reflexivity|]. apply F2_place; auto. apply H. now apply F2_from.
Qed.
Lemma lr_at_ago P a a' z : P vnan vnan -> lr P a a' -> lr P (at_ago a z) (at_ago a' z).
Proof.
  intros N A. unfold at_ago. destruct (z =? 0)%Z.
  - unfold filled. rewrite (lr_bars _ _ _ A). destruct A as [A1 _]. split; [exact A1|]. now apply F2_repeat.
  - apply (lr_kwop P); auto. intros s s' F. now apply F2_shift.
Qed.
(** windows: the function is only asked for lists of numbers *)
Definition numbers (P : V -> V -> Prop) (l m : list R) : Prop := Forall2 (fun x y => P (Fin x) (Fin y)) l m.
Definition decided (P : V -> V -> Prop) : Prop := P vnan vnan /\
  forall x y, P x y -> match x, y with Fin _, Fin _ => True | Fin _, _ | _, Fin _ => False | _, _ => x = y end.
Lemma decided_prep P x y : decided P -> P x y -> P (prep x) (prep y).
Proof. intros [N D] H. pose proof (D _ _ H). destruct x, y; try easy; cbn; auto. Qed.
Lemma decided_nan P x y : decided P -> P x y -> visnan y = visnan x.
Proof. intros [_ D] H. pose proof (D _ _ H). destruct x, y; try easy. Qed.
Lemma existsb_F2 {A B} (P : A -> B -> Prop) f g l m : (forall x y, P x y -> g y = f x) -> Forall2 P l m -> existsb g m = existsb f l.
Proof. intro H. induction 1; cbn; auto. rewrite IHForall2. f_equal. auto. Qed.
Definition is_num (x : V) : Prop := match x with Fin _ => True | _ => False end.
Lemma prep_nums l : existsb visnan (map prep l) = false -> Forall is_num (map prep l).
Proof.
  induction l as [|x l IH]; cbn; [constructor|]. intro H. apply orb_false_elim in H. destruct H as [H1 H2].
  constructor; auto. destruct x; cbn in *; easy.
Qed.
Lemma nums_map l : Forall is_num l -> exists r, l = map (@Fin R) r.
Proof. induction 1 as [|x l X F [r ->]]; [now exists []|]. destruct x as [| | |a]; try easy. now exists (a :: r). Qed.
Lemma guard_rel P S G s s' : decided P -> S vnan vnan ->
  (forall l m, numbers P l m -> length l = length s -> S (G (map (@Fin R) l)) (G (map (@Fin R) m))) ->
  Forall2 P s s' -> S (guard_win G s) (guard_win G s').
Proof.
  intros D N H F. unfold guard_win. assert (E : Forall2 P (map prep s) (map prep s')).
  { apply (F2_map P); auto. intros. now apply decided_prep. }
  rewrite (existsb_F2 P visnan visnan (map prep s) (map prep s')); auto.
  2:{ intros. now apply (decided_nan P). }
  destruct (existsb visnan (map prep s)) eqn:X; [exact N|].
  pose proof (prep_nums _ X) as L. assert (X' : existsb visnan (map prep s') = false).
  { rewrite <- X. apply (existsb_F2 P); auto. intros. now apply (decided_nan P). }
  pose proof (prep_nums _ X') as L'. apply nums_map in L. apply nums_map in L'. destruct L as [r Hr], L' as [r' Hr'].
  rewrite Hr, Hr' in E |- *. apply H.
  - clear -E. unfold numbers. revert r' E. induction r as [|a r IH]; intros [|b r'] E; inversion E; subst; constructor; auto.
  - rewrite <- (map_length (@Fin R) r), <- Hr, map_length. reflexivity.
Qed.
Lemma lr_rolling P S w G a a' : decided P -> S vnan vnan ->
  (forall l m, numbers P l m -> length l = w -> S (G (map (@Fin R) l)) (G (map (@Fin R) m))) ->
  lr P a a' -> lr S (rolling w G a) (rolling w G a').
Proof.
  intros D N H A. pose proof (lr_bars _ _ _ A) as L. destruct A as [A1 A2]. unfold rolling, clone.
  rewrite A1, L. split; [reflexivity|]. cbn [lser]. apply F2_place; auto. unfold ser_rolling.
  pose proof (F2_from _ _ _ (lmp a - 1) A2) as F. rewrite (F2_length _ _ _ F).
  set (u := slice_from (lser a) (lmp a - 1)) in *. set (u' := slice_from (lser a') (lmp a - 1)) in *.
  assert (K : forall is, (forall i, In i is -> (i < length u)%nat) -> Forall2 S
    (map (fun i => if (Datatypes.S i <? w)%nat then vnan else guard_win G (window u i w)) is)
    (map (fun i => if (Datatypes.S i <? w)%nat then vnan else guard_win G (window u' i w)) is)).
  { induction is as [|i is IH]; intro Hi; cbn [map]; constructor; [|apply IH; intros; apply Hi; now right].
    destruct (Nat.ltb_spec (Datatypes.S i) w) as [|W]; [exact N|]. apply (guard_rel P); auto.
    - intros l m Hl Ll. apply H; auto. rewrite Ll. unfold window. rewrite firstn_length, skipn_length.
      specialize (Hi i (or_introl eq_refl)). lia.
    - unfold window. now apply F2_firstn, F2_skipn. }
  apply K. intros i Hi. apply in_seq in Hi. lia.
Qed.

(** ** exponential averages *)
Lemma alike_bind {A B} (P : A -> A -> Prop) (Q : B -> B -> Prop) r r' (f f' : A -> res B) :
  alike P r r' -> (forall a a', P a a' -> alike Q (f a) (f' a')) -> alike Q (bind r f) (bind r' f').
Proof. destruct r, r'; cbn; auto; try easy. Qed.
Lemma alike_imp {A} (P Q : A -> A -> Prop) r r' : (forall a a', P a a' -> Q a a') -> alike P r r' -> alike Q r r'.
Proof. destruct r, r'; cbn; auto. Qed.
Lemma getitem_rel P l m i : Forall2 P l m -> alike P (getitem l i) (getitem m i).
Proof.
  intro H. unfold getitem. rewrite (F2_length _ _ _ H). cbv zeta.
  generalize (if (i <? 0)%Z then (Z.of_nat (length l) + i)%Z else i). intro j. destruct (j <? 0)%Z; [reflexivity|].
  generalize (Z.to_nat j). clear j. induction H as [|x y l m H F IH]; intros [|n]; cbn; auto.
Qed.
Lemma lr_ewm P S a a' pval po pe alp sd F :
  decided P -> S vnan vnan -> (forall x y, P x y -> S x y) ->
  (sd = SEED_AVG -> forall l m, Forall2 P l m -> S (ser_mean l) (ser_mean m)) ->
  (sd = SEED_SUM -> forall l m, Forall2 P l m -> S (ser_sum l) (ser_sum m)) ->
  (sd = SEED_ZERO \/ sd = SEED_ZFILL -> S v0 v0) ->
  (forall l m, Forall2 S l m -> Forall2 S (F l) (F m)) ->
  lr P a a' -> alike (lr S) (ewm_call a pval po pe alp sd (fun s => Ok (F s))) (ewm_call a' pval po pe alp sd (fun s => Ok (F s))).
Proof.
  intros D N PS HA HS HZ HF A. pose proof (lr_bars _ _ _ A) as L. destruct A as [A1 A2]. unfold ewm_call, mf_ewm. rewrite A1.
  cbv zeta. match goal with |- context [slice (lser a) (?q - 1) ?q] => set (p2 := q) end.
  assert (B : forall l m, Forall2 P l m -> Forall2 S (map (fun _ : V => vnan) l) (map (fun _ : V => vnan) m)).
  { intros l m H. apply (F2_map P); auto. }
  pose proof (B _ _ (F2_slice _ _ _ (p2 - 1) p2 A2)) as PR.
  set (pre := map (fun _ : V => vnan) (slice (lser a) (p2 - 1) p2)) in *.
  set (pre' := map (fun _ : V => vnan) (slice (lser a') (p2 - 1) p2)) in *.
  assert (SL : forall x y, S x y ->
    alike (Forall2 S) (match rev pre with [] => Raise IndexError | _ :: k => Ok (rev (x :: k)) end)
                      (match rev pre' with [] => Raise IndexError | _ :: k => Ok (rev (y :: k)) end)).
  { intros x y X. pose proof (F2_rev _ _ _ PR) as RV. destruct RV as [|u u' k k' U K]; [reflexivity|]. cbn [alike].
    apply F2_rev. now constructor. }
  apply (alike_bind (fun o o' => mf_line o = a /\ mf_line o' = a' /\ mf_mp o' = mf_mp o /\ mf_pval o' = mf_pval o /\
     mf_pearly o' = mf_pearly o /\ mf_alphap o' = mf_alphap o /\ mf_minidx o' = mf_minidx o /\
     Forall2 S (mf_trailer o) (mf_trailer o'))).
  2:{ intros o o' (H1 & H2 & H3 & H4 & H5 & H6 & H7 & H8). unfold mf_call. cbn [snd bind alike].
      rewrite H1, H2, H3, H4, H5, H6, H7, L. split; [unfold clone; cbn [lmp]; rewrite A1; reflexivity|].
      cbn [clone lser]. apply F2_place; auto. }
  apply (alike_bind (Forall2 S)).
  2:{ intros s s' H. cbn [alike mf_line mf_mp mf_pval mf_pearly mf_alphap mf_minidx mf_trailer]. repeat split.
      apply Forall2_app; auto. apply (F2_imp P); auto. now apply F2_from. }
  destruct sd.
  - apply SL, HA; auto. now apply F2_slice.
  - apply (alike_bind P); [now apply getitem_rel|]. intros x y X. apply SL; auto.
  - apply SL, HS; auto. now apply F2_slice.
  - cbn. exact PR.
  - apply SL. auto.
  - cbn. apply (F2_map S); auto.
Qed.
