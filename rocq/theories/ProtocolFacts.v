(** Lemmas on what Python does with lines and indicators. *)
From Coq Require Import List String Bool Arith ZArith Lia.
From Verif Require Import Num Series Line Spec LineFacts OpFacts PropLinesFacts Py LinesGen Holder HolderSpec Operand OperandSpec
  OperandFacts Protocol ProtocolSpec.
Import ListNotations.
Unset Implicit Arguments.
Local Open Scope list_scope.
Local Open Scope nat_scope.

Section ProtocolFacts.
  Context {V : Type} {N : Num V}.


  Lemma bdelivers_length : forall (l : bline) n k f, bdelivers l n k f -> List.length (bser l) = n.
  Proof. intros l n k f ((_ & L & _) & _). exact L. Qed.

  (** what an operand is on the left and on the right of an operation *)
  Lemma offers_sides : forall (x : operand V) n k K f, offers x n k K f -> exists l r, feeds l n k f /\ feeds r n K f /\ k <= K /\
    (forall op u, compare_op op x (ONum u) = Ok (cmpop_s op l u) /\ compare_op op (ONum u) x = Ok (cmpop_s (fun p q => op q p) l u)) /\
    (forall op y, combine_op op (OLine y) x = Ok (binop op y r)) /\
    (forall op u, combine_op op (ONum u) x = Ok (rbinop_s op u l)).
  Proof.
    intros [h|l|v] n k K f H; [| |destruct H].
    - destruct H as [B Y]. destruct (built_lines_of _ _ _ _ _ B Y) as (l & F & L & R & Le).
      exists l, (mkLine (Z.of_nat (S K)) (lser l)). split; [exact L|]. split; [eapply feeds_later; eassumption|]. split; [exact Le|].
      cbn [compare_op combine_op]. rewrite F, R. cbn [bind]. repeat split.
    - destruct H as [L ->]. exists l, l. repeat split; try assumption; try apply L; lia.
  Qed.

  Lemma compared : forall (x y : operand V) n k K f k' K' g op, offers x n k K f -> offers y n k' K' g ->
    exists l, compare_op op x y = Ok l /\ List.length (bser l) = n.
  Proof.
    intros x y n k K f k' K' g op Hx Hy.
    destruct (offers_sides _ _ _ _ _ Hx) as (l & r & L & R & _). destruct (offers_sides _ _ _ _ _ Hy) as (l' & r' & L' & R' & _).
    destruct x as [h|a|u]; [| |destruct Hx]; destruct Hx as [Hx1 Hx2]; (destruct y as [h'|a'|u']; [| |destruct Hy]); destruct Hy as [Hy1 Hy2].
    - destruct (proj1 (comparisons op h h' l (f 0) n k K f k' K' g k f Hx1 Hy1 Hx2 Hy2 L)) as (b & E & D).
      exists b. split; [exact E|exact (bdelivers_length _ _ _ _ D)].
    - destruct (proj1 (proj2 (comparisons op h h a' (f 0) n k K f k K f k' g Hx1 Hx1 Hx2 Hx2 Hy1))) as (b & E & D).
      exists b. split; [exact E|exact (bdelivers_length _ _ _ _ D)].
    - destruct (proj1 (proj2 (proj2 (comparisons op h' h' a (f 0) n k' K' g k' K' g k f Hy1 Hy1 Hy2 Hy2 Hx1)))) as (b & E & D).
      exists b. split; [exact E|exact (bdelivers_length _ _ _ _ D)].
    - exists (cmpop op a a'). split; [reflexivity|]. exact (bdelivers_length _ _ _ _ (cmpop_bdelivers op Hx1 Hy1)).
  Qed.

  Lemma compared_num : forall (x : operand V) n k K f op u, offers x n k K f ->
    (exists l, compare_op op x (ONum u) = Ok l /\ List.length (bser l) = n) /\
    (exists l, compare_op op (ONum u) x = Ok l /\ List.length (bser l) = n).
  Proof.
    intros x n k K f op u Hx. destruct (offers_sides _ _ _ _ _ Hx) as (l & r & L & R & _ & C & _).
    destruct (C op u) as [C1 C2]. rewrite C1, C2. split; (eexists; split; [reflexivity|]).
    - exact (bdelivers_length _ _ _ _ (cmpop_s_bdelivers op u L)).
    - exact (bdelivers_length _ _ _ _ (cmpop_s_bdelivers (fun p q => op q p) u L)).
  Qed.

  Lemma asked : forall sub c (x y : operand V) n, with_bars n x -> with_bars n y ->
    exists l, ask sub c x y = Ok (ABars l) /\ List.length (bser l) = n.
  Proof.
    intros sub c x y n (k & K & f & Hx) (k' & K' & g & Hy).
    assert (E : ask sub c x y = bind (compare_sub (sub x y) (cmp_fun c) x y) (fun l => Ok (ABars l))).
    { destruct x, y; try reflexivity. destruct Hx. }
    rewrite E. unfold compare_sub. destruct (sub x y).
    - destruct (compared y x _ _ _ _ _ _ _ (fun p q => cmp_fun c q p) Hy Hx) as (l & El & Ll). rewrite El. exists l. split; [reflexivity|exact Ll].
    - destruct (compared x y _ _ _ _ _ _ _ (cmp_fun c) Hx Hy) as (l & El & Ll). rewrite El. exists l. split; [reflexivity|exact Ll].
  Qed.

  (** a condition is true if and only if there are bars *)
  Lemma conditions : forall sub c (x y : operand V) n, with_bars n x -> with_bars n y -> holds_if sub c x y = Ok (negb (n =? 0)).
  Proof. intros sub c x y n Hx Hy. destruct (asked sub c x y n Hx Hy) as (l & E & L). unfold holds_if. rewrite E. cbn. now rewrite L. Qed.
  Lemma conditions_num : forall sub c (x : operand V) u n, with_bars n x ->
    holds_if sub c x (ONum u) = Ok (negb (n =? 0)) /\ holds_if sub c (ONum u) x = Ok (negb (n =? 0)).
  Proof.
    intros sub c x u n (k & K & f & Hx).
    assert (E : forall b op, (exists l, compare_sub b op x (ONum u) = Ok l /\ List.length (bser l) = n) /\
                             (exists l, compare_sub b op (ONum u) x = Ok l /\ List.length (bser l) = n)).
    { intros b op. unfold compare_sub. destruct b.
      - destruct (compared_num x _ _ _ _ (fun p q => op q p) u Hx). tauto.
      - exact (compared_num x _ _ _ _ op u Hx). }
    unfold holds_if, ask. destruct x as [h|a|v]; [| |destruct Hx].
    - destruct (E (sub (OInd h) (ONum u)) (cmp_fun c)) as [(l & E1 & L1) _].
      destruct (E (sub (ONum u) (OInd h)) (cmp_fun c)) as [_ (l' & E2 & L2)].
      rewrite E1, E2. cbn. now rewrite L1, L2.
    - destruct (E (sub (OLine a) (ONum u)) (cmp_fun c)) as [(l & E1 & L1) _].
      destruct (E (sub (ONum u) (OLine a)) (cmp_fun c)) as [_ (l' & E2 & L2)].
      rewrite E1, E2. cbn. now rewrite L1, L2.
  Qed.

  Lemma chain_last : forall sub c d (x y z : operand V) n, with_bars n x -> with_bars n y -> 0 < n -> chained sub c d x y z = ask sub d y z.
  Proof.
    intros sub c d x y z n Hx Hy Hn. unfold chained. destruct (asked sub c x y n Hx Hy) as (l & -> & L). cbn [bind truth].
    rewrite L. destruct n; [lia|reflexivity].
  Qed.

  Lemma connectives : forall p q : bline, List.length (bser p) <> 0 ->
    py_and (ABars p) (ABars q) = ABars q /\ py_or (ABars p) (ABars q) = ABars p /\ py_not (ABars p) = false.
  Proof.
    intros p q H. unfold py_and, py_or, py_not. cbn [truth]. destruct (Nat.eqb_spec (List.length (bser p)) 0); [contradiction|].
    auto.
  Qed.

  Lemma best_last : forall sub c n xs (m : operand V), 0 < n -> with_bars n m -> Forall (with_bars n) xs -> best sub c m xs = Ok (last xs m).
  Proof.
    intros sub c n xs m Hn. revert m. induction xs as [|x xs IH]; intros m Hm H; [reflexivity|].
    inversion H as [|? ? Hx Hxs]; subst. cbn [best]. rewrite (conditions sub c _ _ _ Hx Hm).
    destruct n; [lia|]. cbn [negb Nat.eqb bind]. rewrite (IH x Hx Hxs). f_equal.
    destruct xs as [|y ys]; [reflexivity|]. cbn [last]. clear. revert y. induction ys as [|z zs IH]; intros y; [reflexivity|].
    cbn [last] in *. apply IH.
  Qed.
  Lemma extremes : forall sub n xs (x : operand V), 0 < n -> Forall (with_bars n) (xs ++ [x]) ->
    py_max sub (xs ++ [x]) = Ok x /\ py_min sub (xs ++ [x]) = Ok x.
  Proof.
    intros sub n xs x Hn H. unfold py_max, py_min, py_best. destruct xs as [|y ys]; [split; reflexivity|].
    cbn [app] in *. inversion H as [|? ? Hy Hys]; subst. rewrite !(best_last sub _ _ _ y Hn Hy Hys), !last_last. auto.
  Qed.

  Lemma matched : forall sub n (a b : @obj V), with_bars n (snd a) -> with_bars n (snd b) ->
    matches sub a b = Ok ((fst a =? fst b) || negb (n =? 0))%bool.
  Proof.
    intros sub n a b Ha Hb. unfold matches. destruct (fst a =? fst b); [reflexivity|]. now rewrite (conditions sub CEq _ _ _ Ha Hb).
  Qed.
  Lemma found : forall sub n (x y : @obj V) (l : list obj), 0 < n -> with_bars n (snd x) -> Forall (fun o => with_bars n (snd o)) (y :: l) ->
    py_in sub x (y :: l) = Ok true /\ py_index sub x (y :: l) = Ok 0 /\ py_count sub x (y :: l) = Ok (S (List.length l)) /\
    py_remove sub x (y :: l) = Ok l.
  Proof.
    intros sub n x y l Hn Hx H.
    assert (M : forall o, with_bars n (snd o) -> matches sub o x = Ok true /\ matches sub x o = Ok true).
    { intros o Ho. rewrite (matched sub n o x Ho Hx), (matched sub n x o Hx Ho). destruct n; [lia|]. now rewrite !orb_true_r. }
    inversion H as [|? ? Hy Hl]; subst. unfold py_index. cbn [py_in index_from py_count py_remove].
    destruct (M _ Hy) as [-> ->]. cbn [bind]. split; [reflexivity|]. split; [reflexivity|]. split; [|reflexivity].
    assert (C : py_count sub x l = Ok (List.length l)).
    { clear -M Hl. induction l as [|o l IH]; [reflexivity|]. inversion Hl as [|? ? Ho Hl']; subst. cbn [py_count].
      destruct (M _ Ho) as [-> _]. cbn [bind]. now rewrite (IH Hl'). }
    now rewrite C.
  Qed.
  Lemma found_empty : forall sub (x : @obj V) (l : list obj), with_bars 0 (snd x) -> Forall (fun o => with_bars 0 (snd o)) l ->
    py_in sub x l = Ok (existsb (fun o => fst x =? fst o) l).
  Proof.
    intros sub x l Hx H. induction l as [|o l IH]; [reflexivity|]. inversion H as [|? ? Ho Hl]; subst. cbn [py_in existsb].
    rewrite (matched sub 0 x o Hx Ho). cbn [negb Nat.eqb]. rewrite orb_false_r. cbn [bind].
    destruct (fst x =? fst o); [reflexivity|]. now apply IH.
  Qed.

  Lemma sum_loop : forall n xs a k f, delivers a n k f -> Forall (@good V n) xs ->
    exists r, sum_from (OLine a) (map it xs) = Ok (OLine r) /\ delivers r n (latest k xs) (fun b => total (f b) xs b).
  Proof.
    intros n xs. induction xs as [|x xs IH]; intros a k f Ha H.
    - exists a. split; [reflexivity|]. exact Ha.
    - inversion H as [|? ? Hx Hxs]; subst. unfold good in Hx.
      destruct (offers_sides _ _ _ _ _ Hx) as (l & r & L & R & _ & _ & P & _).
      cbn [map sum_from]. unfold plus at 1. rewrite (P vadd a). cbn [bind].
      destruct (IH (binop vadd a r) (Nat.max k (it_K x)) (fun b => vadd (f b) (it_f x b))
                  (binop_delivers vadd (proj1 Ha) R) Hxs) as (s & E & D).
      exists s. split; [destruct (it x); [exact E|exact E|destruct Hx]|].
      replace (latest k (x :: xs)) with (latest (Nat.max k (it_K x)) xs); [exact D|].
      clear. unfold latest. cbn [fold_right]. induction xs as [|y ys IHy]; cbn [fold_right]; [lia|]. rewrite IHy. lia.
  Qed.
  Lemma sums : forall n x xs, Forall (@good V n) (x :: xs) ->
    exists r, py_sum (map it (x :: xs)) = Ok (OLine r) /\
      delivers r n (latest (it_k x) xs) (fun b => total (vadd (vofZ 0) (it_f x b)) xs b).
  Proof.
    intros n x xs H. inversion H as [|? ? Hx Hxs]; subst. unfold good in Hx.
    destruct (offers_sides _ _ _ _ _ Hx) as (l & r & L & R & _ & _ & _ & P).
    unfold py_sum. cbn [map sum_from]. unfold plus at 1. rewrite (P vadd (vofZ 0)). cbn [bind].
    destruct (sum_loop _ _ _ _ _ (rbinop_s_delivers vadd (vofZ 0) L) Hxs) as (s & E & D).
    exists s. split; [destruct (it x); [exact E|exact E|destruct Hx]|exact D].
  Qed.

  Lemma truths : forall (x : operand V) n, with_bars n x ->
    truth_of x = match x with OInd _ => true | _ => negb (n =? 0) end.
  Proof.
    intros [h|l|v] n (k & K & f & H); [| |destruct H].
    - destruct H as [_ (l & ls & I & _)]. cbn [truth_of]. unfold hlen, llen.
      unfold hiter, liter in I. destruct (c_slots (hd_out h)) as [|s ss]; [discriminate I|reflexivity].
    - destruct H as [(_ & L & _) _]. cbn [truth_of]. unfold bars. now rewrite L.
  Qed.
End ProtocolFacts.

(** ** Operators *)
Lemma binary_table : forall o x y, x <> KiOther \/ y <> KiOther ->
  binary o x y =
  match o with
  | OAdd | OSub | OMul | OTrueDiv | OFloorDiv | OMod | OPow =>
      Ok (match x with KiOther => true | _ => false end)
  | OAnd | OOr | OXor => match x with KiOther => Raise TypeError | _ => Ok false end
  | OMatMul | OLShift | ORShift | ODivmod => Raise TypeError
  end.
Proof. intros o x y H. destruct o, x, y; try reflexivity; destruct H as [H|H]; now elim H. Qed.
Lemma unary_table : forall o x, unary o x = match o, x with UAbs, KiLine => Ok tt | _, _ => Raise TypeError end.
Proof. intros o x. destruct o, x; reflexivity. Qed.
Lemma keys_table : forall x, use_as_key x = match x with KiInd => Raise TypeError | _ => Ok tt end.
Proof. intros []; reflexivity. Qed.
