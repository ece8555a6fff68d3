(** Facts about operations between indicators. *)
From Coq Require Import List String Bool Arith ZArith Lia.
From Verif Require Import Num Series Line Spec LineFacts OpFacts Py PyFacts LinesGen Holder HolderSpec HolderFacts HolderFacts2
  PropHolderFacts HolderNames Operand OperandSpec.
Import ListNotations.
Local Open Scope string_scope.
Local Open Scope list_scope.
Local Open Scope nat_scope.

Section Facts.
  Context {V : Type} {N : Num V}.

  Lemma built_operand : forall bases decl ext cls, lgenerate bases decl ext = Ok cls ->
    forall islots mps extra body (outs : list (string * hval (list V))) h,
    construct cls (lnames cls) islots mps extra body outs = Ok h -> no_series cls extra body outs ->
    exists l m, hitem h (KInt 0) = Ok (ALine l) /\ dget (hd_attrs h) "_minperiod" = Some (IPer m) /\
      first_line h = Ok (of_hline l) /\ right_line h = Ok (mkLine m (h_ser l)).
  Proof.
    intros bases decl ext cls G islots mps extra body outs h B (S1 & S2 & S3 & S4).
    destruct (first_output _ _ _ _ G _ _ _ _ _ _ B) as (l & I & O).
    destruct (holder_minperiod _ _ _ G _ _ _ _ _ B) as (ls & m & _ & _ & M & _).
    exists l, m. split; [exact I|]. split; [exact M|]. split; [unfold first_line; now rewrite O|].
    unfold right_line, asked_minperiod, asked_series.
    assert (hget h "_minperiod" = Ok (FInst (IPer m))) as -> by (unfold hget; cbn [smem existsb holder_props]; now rewrite M).
    cbn [bind].
    assert (R : ~ reserved h "_series").
    { unfold reserved. intros [H|[H|[H|H]]].
      - revert H. rewrite <- smem_spec. vm_compute. discriminate.
      - revert H. rewrite <- smem_spec. vm_compute. discriminate.
      - apply S3. destruct (construct_inv _ _ _ _ _ _ B) as (d0 & d1 & d2 & pm & _ & _ & _ & _ & _ & _ & E). now rewrite <- E.
      - destruct (holder_attrs_after _ _ _ _ _ _ B) as (_ & _ & _ & K).
        assert (dget (hd_attrs h) "_series" <> None) as Q by (intros Q; apply dget_none in Q; contradiction).
        destruct (K "_series" Q) as [K1|[K1|K1]].
        + revert K1. rewrite <- smem_spec. vm_compute. discriminate.
        + destruct K1 as (k & p & _ & Hp & E). revert E. cbn in Hp. destruct Hp as [<-|[<-|[<-|[<-|[]]]]]; cbn; discriminate.
        + destruct K1 as (v & K1). exact (S4 _ K1). }
    destruct (lookup_all _ _ _ _ G _ _ _ _ _ _ B "_series" "_series" (or_intror S1) R) as (_ & L & _).
    - rewrite <- smem_spec. vm_compute. discriminate.
    - rewrite <- smem_spec. vm_compute. discriminate.
    - destruct L as (l' & I' & E); [exact S2|rewrite <- smem_spec; vm_compute; reflexivity|].
      rewrite I in I'. inversion I'; subst l'. rewrite E. reflexivity.
  Qed.

  Lemma built_lines_of : forall (h : holder (list V)) n k K f, built h -> yields h n k K f ->
    exists l, first_line h = Ok l /\ feeds l n k f /\
      right_line h = Ok (mkLine (Z.of_nat (S K)) (lser l)) /\ k <= K.
  Proof.
    intros h n k K f (bases & decl & ext & cls & islots & mps & extra & body & outs & G & B & S) (l & ls & I & F & M & x & Ix & Ex).
    destruct (built_operand _ _ _ _ G _ _ _ _ _ _ B S) as (l' & m & I0 & D & FL & RL).
    destruct (holder_minperiod _ _ _ G _ _ _ _ _ B) as (ls' & m' & I' & _ & D' & In' & Mx).
    rewrite D in D'. inversion D'; subst m'. rewrite I in I'.
    assert (map (fun y : hline (list V) => ALine y) (l :: ls) = map (fun y => ALine y) ls') as E by congruence.
    assert (ls' = l :: ls) as ->.
    { revert E. generalize (l :: ls). clear. intros a. revert ls'. induction a as [|y a IH]; intros [|z b] E; cbn in E; try congruence.
      inversion E; subst. f_equal. now apply IH. }
    destruct (holder_access _ _ _ G _ _ _ _ _ B) as (l2 & _ & _ & _ & I2 & A2).
    assert (nth_error l2 0 = Some l) as Z0.
    { rewrite I in I2. destruct l2 as [|y l2]; cbn in I2; [discriminate I2|]. inversion I2; subst. reflexivity. }
    destruct (A2 0 l Z0) as (H0 & _). cbn [Z.of_nat] in H0. rewrite I0 in H0. inversion H0; subst l'.
    assert (m = Z.of_nat (Datatypes.S K)) as ->.
    { apply in_map_iff in In'. destruct In' as (y & Ey & Iy). specialize (M y Iy). specialize (Mx x Ix). lia. }
    exists (of_hline l). split; [exact FL|]. split; [exact F|]. split; [exact RL|].
    specialize (M l (or_introl eq_refl)). destruct F as (F & _). cbn [of_hline lmp] in F. lia.
  Qed.

  Lemma feeds_later : forall (l : line V) n k K f, feeds l n k f -> k <= K -> feeds (mkLine (Z.of_nat (S K)) (lser l)) n K f.
  Proof. intros l n k K f (_ & L & F) H. repeat split; [exact L|]. intros i Hi. apply F. lia. Qed.

  Lemma delivers_same : forall (a b : line V) n k f g, delivers a n k f -> delivers b n k g ->
    (forall i, k <= i < n -> f i = g i) -> a = b.
  Proof.
    intros [ma sa] [mb sb] n k f g ((A1 & A2 & A3) & A4) ((B1 & B2 & B3) & B4) E. cbn [lmp lser] in *. f_equal; [congruence|].
    apply nth_error_ext; [congruence|]. intros i Hi. rewrite A2 in Hi. destruct (Nat.lt_ge_cases i k).
    - rewrite A4, B4 by assumption. reflexivity.
    - rewrite A3, B3 by lia. now rewrite E by lia.
  Qed.

  Lemma two_indicators : forall op (a b : holder (list V)) n ka Ka f kb Kb g, built a -> built b ->
    yields a n ka Ka f -> yields b n kb Kb g ->
    gives (combine_op op (OInd a) (OInd b)) n (Nat.max ka Kb) (fun i => op (f i) (g i)).
  Proof.
    intros op a b n ka Ka f kb Kb g Ba Bb Ya Yb.
    destruct (built_lines_of _ _ _ _ _ Ba Ya) as (la & Fa & La & _).
    destruct (built_lines_of _ _ _ _ _ Bb Yb) as (lb & _ & Lb & Rb & Hb).
    unfold gives, combine_op. rewrite Fa, Rb. cbn [bind]. eexists. split; [reflexivity|].
    apply binop_delivers; [exact La|now apply feeds_later with kb].
  Qed.
  Lemma with_line : forall op (a : holder (list V)) (b : line V) n ka Ka f kb g, built a -> yields a n ka Ka f -> feeds b n kb g ->
    gives (combine_op op (OInd a) (OLine b)) n (Nat.max ka kb) (fun i => op (f i) (g i)) /\
    gives (combine_op op (OLine b) (OInd a)) n (Nat.max kb Ka) (fun i => op (g i) (f i)).
  Proof.
    intros op a b n ka Ka f kb g Ba Ya Fb.
    destruct (built_lines_of _ _ _ _ _ Ba Ya) as (la & Fa & La & Ra & Ha).
    unfold gives, combine_op. rewrite Fa, Ra. cbn [bind]. split; eexists; (split; [reflexivity|]).
    - now apply binop_delivers.
    - apply binop_delivers; [exact Fb|now apply feeds_later with ka].
  Qed.
  Lemma with_number : forall op (a : holder (list V)) c n ka Ka f, built a -> yields a n ka Ka f ->
    gives (combine_op op (OInd a) (ONum c)) n ka (fun i => op (f i) c) /\
    gives (combine_op op (ONum c) (OInd a)) n ka (fun i => op c (f i)).
  Proof.
    intros op a c n ka Ka f Ba Ya. destruct (built_lines_of _ _ _ _ _ Ba Ya) as (la & Fa & La & _).
    unfold gives, combine_op. rewrite Fa. cbn [bind]. split; eexists; (split; [reflexivity|]).
    - now apply binop_s_delivers.
    - now apply rbinop_s_delivers.
  Qed.

  Lemma order_differs : forall op (a b : holder (list V)) n ka Ka f kb Kb g, built a -> built b ->
    yields a n ka Ka f -> yields b n kb Kb g ->
    exists l r, combine_op op (OInd a) (OInd b) = Ok l /\ combine_op op (OInd b) (OInd a) = Ok r /\
      forall i, Nat.max kb Ka <= i < Kb -> i < n ->
        nth_error (lser l) i = Some vnan /\ nth_error (lser r) i = Some (op (g i) (f i)).
  Proof.
    intros op a b n ka Ka f kb Kb g Ba Bb Ya Yb.
    destruct (two_indicators op _ _ _ _ _ _ _ _ _ Ba Bb Ya Yb) as (l & El & (_ & Wl)).
    destruct (two_indicators op _ _ _ _ _ _ _ _ _ Bb Ba Yb Ya) as (r & Er & ((_ & _ & Vr) & _)).
    exists l, r. split; [exact El|]. split; [exact Er|]. intros i Hi Hn. split; [apply Wl; lia|apply Vr; lia].
  Qed.
  Lemma order_same : forall op (a b : holder (list V)) n ka f kb g, built a -> built b ->
    yields a n ka ka f -> yields b n kb kb g -> (forall x y, op x y = op y x) ->
    exists l, combine_op op (OInd a) (OInd b) = Ok l /\ combine_op op (OInd b) (OInd a) = Ok l.
  Proof.
    intros op a b n ka f kb g Ba Bb Ya Yb C.
    destruct (two_indicators op _ _ _ _ _ _ _ _ _ Ba Bb Ya Yb) as (l & El & Dl).
    destruct (two_indicators op _ _ _ _ _ _ _ _ _ Bb Ba Yb Ya) as (r & Er & Dr).
    exists l. split; [exact El|]. rewrite Er. f_equal. rewrite Nat.max_comm in Dr. symmetry.
    eapply delivers_same; [exact Dl|exact Dr|]. intros i _. apply C.
  Qed.

  Lemma comparisons : forall op (a b : holder (list V)) (d : line V) c n ka Ka f kb Kb g kd e, built a -> built b ->
    yields a n ka Ka f -> yields b n kb Kb g -> feeds d n kd e ->
    decides (compare_op op (OInd a) (OInd b)) n (Nat.max ka Kb) (fun i => op (f i) (g i)) /\
    decides (compare_op op (OInd a) (OLine d)) n (Nat.max ka kd) (fun i => op (f i) (e i)) /\
    decides (compare_op op (OLine d) (OInd b)) n (Nat.max kd Kb) (fun i => op (e i) (g i)) /\
    decides (compare_op op (OInd a) (ONum c)) n ka (fun i => op (f i) c) /\
    decides (compare_op op (ONum c) (OInd a)) n ka (fun i => op c (f i)).
  Proof.
    intros op a b d c n ka Ka f kb Kb g kd e Ba Bb Ya Yb Fd.
    destruct (built_lines_of _ _ _ _ _ Ba Ya) as (la & Fa & La & _).
    destruct (built_lines_of _ _ _ _ _ Bb Yb) as (lb & _ & Lb & Rb & Hb).
    pose proof (feeds_later _ _ _ _ _ Lb Hb) as Fb.
    unfold decides, compare_op. rewrite Fa, Rb. cbn [bind]. repeat split; eexists; (split; [reflexivity|]).
    - now apply cmpop_bdelivers.
    - now apply cmpop_bdelivers.
    - now apply cmpop_bdelivers.
    - now apply cmpop_s_bdelivers.
    - exact (@cmpop_s_bdelivers V (fun p q => op q p) la c n ka f La).
  Qed.
  Lemma subclass_comparison : forall op (a b : holder (list V)) n ka Ka f kb Kb g sub, built a -> built b ->
    yields a n ka Ka f -> yields b n kb Kb g ->
    decides (compare_sub sub op (OInd a) (OInd b)) n (if sub then Nat.max kb Ka else Nat.max ka Kb) (fun i => op (f i) (g i)).
  Proof.
    intros op a b n ka Ka f kb Kb g sub Ba Bb Ya Yb. destruct sub; unfold compare_sub.
    - destruct (built_lines_of _ _ _ _ _ Bb Yb) as (lb & Fb & Lb & _).
      exact (proj1 (comparisons (fun p q => op q p) b a lb (nth 0 (lser lb) (f 0)) n kb Kb g ka Ka f _ _ Bb Ba Yb Ya Lb)).
    - destruct (built_lines_of _ _ _ _ _ Bb Yb) as (lb & Fb & Lb & _).
      exact (proj1 (comparisons op a b lb (nth 0 (lser lb) (f 0)) n ka Ka f kb Kb g _ _ Ba Bb Ya Yb Lb)).
  Qed.
End Facts.
