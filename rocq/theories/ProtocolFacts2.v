(** More lemmas on what Python does with lines, indicators and numbers. *)
From Coq Require Import List String Bool Arith ZArith Lia Reals Lra.
From Verif Require Import Num Series Line Spec RSpec LineFacts OpFacts RFacts PropLinesFacts Py LinesGen Holder HolderSpec
  Operand OperandSpec OperandFacts Protocol ProtocolSpec ProtocolFacts.
Import ListNotations.
Unset Implicit Arguments.
Local Open Scope list_scope.
Local Open Scope nat_scope.

Section Facts.
  Context {V : Type} {N : Num V}.

  Lemma compared_values : forall (x y : operand V) n k K f k' K' g op, offers x n k K f -> offers y n k' K' g ->
    decides (compare_op op x y) n (Nat.max k K') (fun i => op (f i) (g i)).
  Proof.
    intros x y n k K f k' K' g op Hx Hy.
    destruct (offers_sides _ _ _ _ _ Hx) as (l & r & L & R & _). destruct (offers_sides _ _ _ _ _ Hy) as (l' & r' & L' & R' & _).
    destruct x as [h|a|u]; [| |destruct Hx]; destruct Hx as [Hx1 Hx2]; (destruct y as [h'|a'|u']; [| |destruct Hy]); destruct Hy as [Hy1 Hy2].
    - exact (proj1 (comparisons op h h' l (f 0) n k K f k' K' g k f Hx1 Hy1 Hx2 Hy2 L)).
    - subst K'. exact (proj1 (proj2 (comparisons op h h a' (f 0) n k K f k K f k' g Hx1 Hx1 Hx2 Hx2 Hy1))).
    - exact (proj1 (proj2 (proj2 (comparisons op h' h' a (f 0) n k' K' g k' K' g k f Hy1 Hy1 Hy2 Hy2 Hx1)))).
    - subst K'. exists (cmpop op a a'). split; [reflexivity|]. exact (cmpop_bdelivers op Hx1 Hy1).
  Qed.

  Lemma asked_values : forall sub c (x y : operand V) n k K f k' K' g, offers x n k K f -> offers y n k' K' g ->
    exists l, ask sub c x y = Ok (ABars l) /\
      bdelivers l n (if sub x y then Nat.max k' K else Nat.max k K')
        (fun i => match c with
                  | CLt => vltb (f i) (g i) | CLe => vleb (f i) (g i)
                  | CGt => vltb (g i) (f i) | CGe => vleb (g i) (f i)
                  | CEq => veqb (f i) (g i) | CNe => negb (veqb (f i) (g i))
                  end).
  Proof.
    intros sub c x y n k K f k' K' g Hx Hy.
    assert (E : ask sub c x y = bind (compare_sub (sub x y) (cmp_fun c) x y) (fun l => Ok (ABars l))).
    { destruct x, y; try reflexivity. destruct Hx. }
    rewrite E. unfold compare_sub. destruct (sub x y).
    - destruct (compared_values y x _ _ _ _ _ _ _ (fun p q => cmp_fun c q p) Hy Hx) as (l & -> & D).
      exists l. split; [reflexivity|]. destruct c; exact D.
    - destruct (compared_values x y _ _ _ _ _ _ _ (cmp_fun c) Hx Hy) as (l & -> & D).
      exists l. split; [reflexivity|]. destruct c; exact D.
  Qed.

  Lemma truths_list : forall ps : list bline,
    (py_any (map ABars ps) = true <-> exists p, In p ps /\ bser p <> []) /\
    (py_all (map ABars ps) = true <-> forall p, In p ps -> bser p <> []).
  Proof.
    assert (T : forall p, truth (ABars p) = true <-> bser p <> []).
    { intros [mp [|b s]]; cbn; split; congruence. }
    intro ps. unfold py_any, py_all. rewrite existsb_exists, forallb_forall. split.
    - split.
      + intros (a & Ha & Ht). apply in_map_iff in Ha. destruct Ha as (p & <- & Hp). exists p. split; auto. now apply T.
      + intros (p & Hp & Hb). exists (ABars p). split; [now apply in_map|now apply T].
    - split.
      + intros H p Hp. apply T, H. now apply in_map.
      + intros H a Ha. apply in_map_iff in Ha. destruct Ha as (p & <- & Hp). now apply T, H.
  Qed.

  Lemma best_nothing : forall sub, py_max sub ([] : list (operand V)) = Raise ValueError /\ py_min sub ([] : list (operand V)) = Raise ValueError.
  Proof. split; reflexivity. Qed.

  (** searching among objects without bars: identity *)
  Lemma index_empty : forall sub (x : @obj V) (l : list obj), with_bars 0 (snd x) -> Forall (fun o => with_bars 0 (snd o)) l ->
    (~ In (fst x) (map fst l) -> py_index sub x l = Raise ValueError /\ py_remove sub x l = Raise ValueError) /\
    (forall l1 y l2, l = l1 ++ y :: l2 -> fst y = fst x -> ~ In (fst x) (map fst l1) ->
       py_index sub x l = Ok (List.length l1) /\ py_remove sub x l = Ok (l1 ++ l2)) /\
    py_count sub x l = Ok (List.length (filter (fun o => fst o =? fst x) l)).
  Proof.
    intros sub x l Hx H.
    assert (M : forall o, In o l -> matches sub o x = Ok (fst o =? fst x)).
    { intros o Ho. rewrite Forall_forall in H. rewrite (matched sub 0 o x (H o Ho) Hx). cbn. now rewrite orb_false_r. }
    clear H. unfold py_index. split; [|split].
    - generalize 0 as k. induction l as [|o l IH]; intros k Hn; [split; reflexivity|].
      cbn [index_from py_remove]. rewrite (M o (or_introl eq_refl)). cbn [bind].
      destruct (Nat.eqb_spec (fst o) (fst x)) as [E|E]; [elim Hn; left; exact E|].
      destruct (IH (fun o Ho => M o (or_intror Ho)) (S k)) as [-> ->]; [intro Hi; apply Hn; now right|]. split; reflexivity.
    - intros l1 y l2 -> Hy Hn.
      assert (G : forall k, index_from sub k x (l1 ++ y :: l2) = Ok (k + List.length l1) /\ py_remove sub x (l1 ++ y :: l2) = Ok (l1 ++ l2)).
      { induction l1 as [|o l1 IH]; intro k.
        - cbn [app index_from py_remove]. rewrite (M y (or_introl eq_refl)), Hy, Nat.eqb_refl. cbn. rewrite Nat.add_0_r. split; reflexivity.
        - cbn [app index_from py_remove]. rewrite (M o (or_introl eq_refl)). cbn [bind].
          destruct (Nat.eqb_spec (fst o) (fst x)) as [E|E]; [elim Hn; left; exact E|].
          destruct (IH (fun o Ho => M o (or_intror Ho)) (fun Hi => Hn (or_intror Hi)) (S k)) as [-> ->].
          cbn [bind List.length]. split; [f_equal; lia|reflexivity]. }
      exact (G 0).
    - induction l as [|o l IH]; [reflexivity|]. cbn [py_count filter]. rewrite (M o (or_introl eq_refl)). cbn [bind].
      rewrite IH by (intros o' Ho'; apply M; now right). cbn [bind]. destruct (fst o =? fst x); reflexivity.
  Qed.
End Facts.

(** max and min of numbers *)
Lemma best_numbers : forall sub (u : R) (us : list R),
  (exists m, py_max sub (map (fun v => ONum (Fin v)) (u :: us)) = Ok (ONum (Fin m)) /\ is_max m (u :: us)) /\
  (exists m, py_min sub (map (fun v => ONum (Fin v)) (u :: us)) = Ok (ONum (Fin m)) /\ is_min m (u :: us)).
Proof.
  intros sub u us. unfold py_max, py_min, py_best. cbn [map]. split.
  - revert u. induction us as [|v us IH]; intro u.
    + exists u. split; [reflexivity|]. split; [now left|]. intros w [<-|[]]. apply Rle_refl.
    + cbn [map best holds_if ask bind truth cmp_fun]. rewrite vltb_fin. destruct (Rltb_spec u v) as [H|H].
      * destruct (IH v) as (m & E & I & B). exists m. split; [exact E|]. split; [now right|].
        intros w [<-|Hw]; [|now apply B]. specialize (B v (or_introl eq_refl)). lra.
      * destruct (IH u) as (m & E & I & B). exists m. split; [exact E|]. split.
        -- destruct I as [I|I]; [now left|right; now right].
        -- intros w [<-|[<-|Hw]]; [apply B; now left| |apply B; now right].
           specialize (B u (or_introl eq_refl)). lra.
  - revert u. induction us as [|v us IH]; intro u.
    + exists u. split; [reflexivity|]. split; [now left|]. intros w [<-|[]]. apply Rle_refl.
    + cbn [map best holds_if ask bind truth cmp_fun]. rewrite vltb_fin. destruct (Rltb_spec v u) as [H|H].
      * destruct (IH v) as (m & E & I & B). exists m. split; [exact E|]. split; [now right|].
        intros w [<-|Hw]; [|now apply B]. specialize (B v (or_introl eq_refl)). lra.
      * destruct (IH u) as (m & E & I & B). exists m. split; [exact E|]. split.
        -- destruct I as [I|I]; [now left|right; now right].
        -- intros w [<-|[<-|Hw]]; [apply B; now left| |apply B; now right].
           specialize (B u (or_introl eq_refl)). lra.
Qed.
