(** crossup / crossdown on finite lines. *)
From Coq Require Import ZArith QArith List Bool Lia Arith Reals Lra.
From Verif Require Import Num Series Line Spec RSpec LineFacts ScanFacts RFacts OpFacts
  IndMA MAFacts RLineFacts IndBasic.
Import ListNotations.
Set Implicit Arguments.
Local Open Scope R_scope.

(** [x] is above [y] at bar [i] and was below at the last earlier bar (from [k] on) where
    they differed *)
Definition crosses_up (k : nat) (x y : nat -> R) (i : nat) : Prop :=
  y i < x i /\
  exists j, (k <= j < i)%nat /\ x j < y j /\ forall m, (j < m < i)%nat -> x m = y m.
(** the strict variant only looks at the previous bar *)
Definition crosses_up_strict (x y : nat -> R) (i : nat) : Prop :=
  y i < x i /\ x (i - 1)%nat < y (i - 1)%nat.

Section Repl.
  Variable (D : nat -> R) (k : nat).
  Let f i := Fin (D (i - 1)%nat).

  Lemma repl0_st d :
    let st := scan_st repl0_step f (S k) None d in
    (st = None /\ forall j, (k <= j < k + d)%nat -> D j = 0) \/
    (exists j, (k <= j < k + d)%nat /\ D j <> 0 /\ st = Some (Fin (D j)) /\
               forall m, (j < m < k + d)%nat -> D m = 0).
  Proof.
    induction d as [|d IH]; cbv zeta in *.
    - left. split; [reflexivity|]. intros; lia.
    - cbn [scan_st]. set (st := scan_st repl0_step f (S k) None d) in *. clearbody st.
      unfold repl0_step. rewrite v0_fin. unfold f. rewrite veqb_fin. replace (S k + d - 1)%nat with (k + d)%nat by lia.
      destruct (beqb_spec (D (k + d)%nat) 0) as [Hz|Hz].
      + destruct IH as [[-> H]|(j & H1 & H2 & -> & H4)]; cbn [fst].
        * left. split; auto. intros j Hj. destruct (Nat.eq_dec j (k + d)) as [->|]; auto.
          apply H. lia.
        * right. exists j. repeat split; auto; try lia. intros m Hm.
          destruct (Nat.eq_dec m (k + d)) as [->|]; auto. apply H4. lia.
      + right. exists (k + d)%nat. cbn [fst].
        repeat split; auto; intros; try lia.
  Qed.

  Lemma repl0_out i :
    (S k <= i)%nat ->
    let v := snd (repl0_step (scan_st repl0_step f (S k) None (i - S k)) (f i)) in
    (v = Fin 0 /\ forall j, (k <= j < i)%nat -> D j = 0) \/
    (exists j, (k <= j < i)%nat /\ D j <> 0 /\ v = Fin (D j) /\
               forall m, (j < m < i)%nat -> D m = 0).
  Proof.
    intros Hi. cbv zeta. pose proof (repl0_st (i - S k)) as H. cbv zeta in H.
    set (st := scan_st repl0_step f (S k) None (i - S k)) in *. clearbody st.
    unfold repl0_step. rewrite v0_fin. unfold f. rewrite veqb_fin.
    replace (k + (i - S k))%nat with (i - 1)%nat in H by lia.
    destruct (beqb_spec (D (i - 1)%nat) 0) as [Hz|Hz].
    - destruct H as [[-> H]|(j & H1 & H2 & -> & H4)]; cbn [snd].
      + left. rewrite Hz. split; auto. intros j Hj.
        destruct (Nat.eq_dec j (i - 1)) as [->|]; auto. apply H. lia.
      + right. exists j. repeat split; auto; try lia. intros m Hm.
        destruct (Nat.eq_dec m (i - 1)) as [->|]; auto. apply H4. lia.
    - right. exists (i - 1)%nat. cbn [snd]. repeat split; auto; intros; try lia.
  Qed.
End Repl.

(** what the previous-difference line holds at bar [i], by sign *)
Lemma idiff_spec (strict : bool) (a b : lineR) n ka kb x y :
  feeds a n ka (fin x) -> feeds b n kb (fin y) ->
  let k := Nat.max ka kb in
  exists v, delivers (cross_idiff strict a b) n (S k) (fin v) /\
    forall i, (S k <= i < n)%nat ->
      (v i < 0 <-> if strict then x (i - 1)%nat < y (i - 1)%nat
                   else exists j, (k <= j < i)%nat /\ x j < y j /\
                                  forall m, (j < m < i)%nat -> x m = y m) /\
      (0 < v i <-> if strict then y (i - 1)%nat < x (i - 1)%nat
                   else exists j, (k <= j < i)%nat /\ y j < x j /\
                                  forall m, (j < m < i)%nat -> x m = y m).
Proof.
  intros Ha Hb k.
  assert (Dd : delivers (shift (lsub a b) 1) n (S k) (fin (fun i => x (i - 1)%nat - y (i - 1)%nat))).
  { eapply fin_ext; [| |eapply (@shift_fin n _ k _ 1); eapply delivers_feeds, lsub_fin; eauto];
      [unfold k; lia|reflexivity]. }
  unfold cross_idiff. destruct strict.
  - eexists. split; [exact Dd|]. intros i Hi. cbv beta. split; split; intro; lra.
  - set (D i := x i - y i).
    set (v := fun i => snd (repl0_step (scan_st repl0_step (fun i => Fin (D (i - 1)%nat)) (S k) None (i - S k))
                         (Fin (D (i - 1)%nat)))).
    assert (Dv : delivers (stdop ser_replace0_ffill (shift (lsub a b) 1)) n (S k) v).
    { eapply stdop_delivers; [exact (delivers_feeds Dd)|].
      unfold ser_replace0_ffill. rewrite repl0_scan.
      change (fin (fun i => x (i - 1)%nat - y (i - 1)%nat)) with (fun i => Fin (D (i - 1)%nat)).
      rewrite scan_seq. apply map_ext_seq. intros i Hi. reflexivity. }
    exists (fun i => match v i with Fin r => r | _ => 0 end). split.
    + eapply delivers_ext; [|exact Dv]. intros i Hi. unfold fin.
      destruct (@repl0_out D k i ltac:(lia)) as [[E _]|(j & _ & _ & E & _)]; cbv zeta in E;
        fold (v i) in E; rewrite E; reflexivity.
    + intros i Hi.
      destruct (@repl0_out D k i ltac:(lia)) as [[E H]|(j & Hj & Hnz & E & H)]; cbv zeta in E;
        fold (v i) in E; rewrite E.
      * split; (split; [lra|]); intros (m & Hm & Hlt & _); specialize (H m Hm); unfold D in H; lra.
      * assert (Hu : forall m, (k <= m < i)%nat -> x m <> y m ->
                      (forall m', (m < m' < i)%nat -> x m' = y m') -> m = j).
        { intros m Hm Hne Heq. destruct (Nat.lt_trichotomy m j) as [L|[L|L]]; auto.
          - exfalso. apply Hnz. unfold D. rewrite (Heq j) by lia. lra.
          - exfalso. apply Hne. specialize (H m ltac:(lia)). unfold D in H. lra. }
        assert (Heq : forall m, (j < m < i)%nat -> x m = y m)
          by (intros m Hm; specialize (H m Hm); unfold D in H; lra).
        unfold D in *. split; split.
        -- intro. exists j. repeat split; auto; try lia; lra.
        -- intros (m & Hm & Hlt & He). rewrite <- (Hu m Hm ltac:(lra) He). lra.
        -- intro. exists j. repeat split; auto; try lia; lra.
        -- intros (m & Hm & Hlt & He). rewrite <- (Hu m Hm ltac:(lra) He). lra.
Qed.

Lemma vofbool_mul (c : R) b : vmul (Fin c) (vofbool b) = Fin (if b then c else 0) :> ext R.
Proof.
  unfold vofbool. destruct b; rewrite ?v1_fin, ?v0_fin, vmul_fin; f_equal; ring.
Qed.

Definition up_spec (strict : bool) k x y i :=
  if strict then crosses_up_strict x y i else crosses_up k x y i.

Lemma crossup_fin (strict : bool) (a b : lineR) n ka kb x y :
  feeds a n ka (fin x) -> feeds b n kb (fin y) ->
  let k := Nat.max ka kb in
  exists g, delivers (crossup strict a b) n (S k) (fin g) /\
    forall i, (S k <= i < n)%nat ->
      (up_spec strict k x y i /\ g i = 1) \/ (~ up_spec strict k x y i /\ g i = 0).
Proof.
  intros Ha Hb k. destruct (@idiff_spec strict a b n ka kb x y Ha Hb) as (v & Dv & Hv).
  fold k in Dv, Hv.
  set (bb i := andb (Rltb (v i) 0) (Rltb (y i) (x i))).
  exists (fun i => if bb i then 1 else 0). split.
  - assert (B : bdelivers (cross_up strict a b) n (S k) bb).
    { unfold cross_up. replace (S k) with (Nat.max (S k) (Nat.max ka kb)) by (unfold k; lia).
      refine (@bbinop_bdelivers andb _ _ n (S k) _ (fun i => vltb (fin v i) (Fin 0))
                (fun i => vltb (fin y i) (fin x i)) _ _).
      - rewrite v0_fin. apply bdelivers_bfeeds.
        eapply (@cmpop_s_bdelivers _ vltb _ (Fin 0) n (S k) (fin v)). apply delivers_feeds, Dv.
      - apply bdelivers_bfeeds. eapply (@cmpop_bdelivers _ (fun p q => vltb q p)); eauto. }
    unfold crossup. eapply delivers_ext; [|eapply rmul_b_delivers; apply bdelivers_bfeeds; exact B].
    intros i Hi. cbv beta. rewrite v1_fin, vofbool_mul. reflexivity.
  - intros i Hi. destruct (Hv i Hi) as [Hneg _]. unfold bb.
    destruct (Rltb_spec (v i) 0) as [H1|H1], (Rltb_spec (y i) (x i)) as [H2|H2]; cbn [andb].
    + left. split; auto. unfold up_spec, crosses_up_strict, crosses_up.
      destruct strict; split; auto; now apply Hneg.
    + right. split; auto. unfold up_spec, crosses_up_strict, crosses_up. destruct strict; intros [? _]; lra.
    + right. split; auto. unfold up_spec, crosses_up_strict, crosses_up.
      destruct strict; intros [_ H]; apply Hneg in H; lra.
    + right. split; auto. unfold up_spec, crosses_up_strict, crosses_up. destruct strict; intros [? _]; lra.
Qed.

(** a cross down is a cross up of the other line *)
Lemma crossdown_fin (strict : bool) (a b : lineR) n ka kb x y :
  feeds a n ka (fin x) -> feeds b n kb (fin y) ->
  let k := Nat.max ka kb in
  exists g, delivers (crossdown strict a b) n (S k) (fin g) /\
    forall i, (S k <= i < n)%nat ->
      (up_spec strict k y x i /\ g i = -1) \/ (~ up_spec strict k y x i /\ g i = 0).
Proof.
  intros Ha Hb k. destruct (@idiff_spec strict a b n ka kb x y Ha Hb) as (v & Dv & Hv).
  fold k in Dv, Hv.
  set (bb i := andb (Rltb 0 (v i)) (Rltb (x i) (y i))).
  exists (fun i => if bb i then -1 else 0). split.
  - assert (B : bdelivers (cross_down strict a b) n (S k) bb).
    { unfold cross_down. replace (S k) with (Nat.max (S k) (Nat.max ka kb)) by (unfold k; lia).
      refine (@bbinop_bdelivers andb _ _ n (S k) _ (fun i => vltb (Fin 0) (fin v i))
                (fun i => vltb (fin x i) (fin y i)) _ _).
      - rewrite v0_fin. apply bdelivers_bfeeds.
        eapply (@cmpop_s_bdelivers _ (fun p q => vltb q p) _ (Fin 0) n (S k) (fin v)).
        apply delivers_feeds, Dv.
      - apply bdelivers_bfeeds. eapply (@cmpop_bdelivers _ vltb); eauto. }
    unfold crossdown. eapply delivers_ext; [|eapply rmul_b_delivers; apply bdelivers_bfeeds; exact B].
    intros i Hi. cbv beta. rewrite vofZ_fin, vofbool_mul. reflexivity.
  - intros i Hi. destruct (Hv i Hi) as [_ Hpos]. unfold bb.
    assert (Hs : (exists j, (k <= j < i)%nat /\ y j < x j /\ (forall m, (j < m < i)%nat -> x m = y m)) <->
                 (exists j, (k <= j < i)%nat /\ y j < x j /\ (forall m, (j < m < i)%nat -> y m = x m))).
    { split; intros (j & ? & ? & H); exists j; repeat split; auto; try lia; intros; symmetry; auto. }
    destruct (Rltb_spec 0 (v i)) as [H1|H1], (Rltb_spec (x i) (y i)) as [H2|H2]; cbn [andb].
    + left. split; auto. unfold up_spec, crosses_up_strict, crosses_up.
      destruct strict; split; auto; try apply Hs; now apply Hpos.
    + right. split; auto. unfold up_spec, crosses_up_strict, crosses_up. destruct strict; intros [? _]; lra.
    + right. split; auto. unfold up_spec, crosses_up_strict, crosses_up.
      destruct strict; intros [_ H]; try apply Hs in H; apply Hpos in H; lra.
    + right. split; auto. unfold up_spec, crosses_up_strict, crosses_up. destruct strict; intros [? _]; lra.
Qed.
