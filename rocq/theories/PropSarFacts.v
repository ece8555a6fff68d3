(** Consequences of Wilder's rules, and the statements of C62 and C63. *)
From Coq Require Import ZArith QArith List Bool Lia Arith Reals Lra Psatz.
From Verif Require Import Num Series Line Spec RSpec BoundSpec SarSpec LineFacts ScanFacts RFacts OpFacts
  RLineFacts Apply IndSar SarFacts.
Import ListNotations.
Set Implicit Arguments.
Local Open Scope R_scope.

Section Psar.
  Variables (h l : nat -> R) (k n : nat) (af afmax : R).
  Variables (long : nat -> bool) (stop sar ext acc : nat -> R).
  Hypothesis RUN : psar h l k n af afmax long stop sar ext acc.

  Lemma hit_dec i : {hit h l long stop i} + {~ hit h l long stop i}.
  Proof. unfold hit. destruct (long (i - 1)%nat); apply Rle_dec. Qed.

  Lemma hit_iff i : (S k <= i < n)%nat -> (hit h l long stop i <-> long i <> long (i - 1)%nat).
  Proof.
    intro Hi. destruct RUN as [_ B]. destruct (B i Hi) as (X & Y & _). split.
    - intro Ht. destruct (X Ht) as [-> _]. apply no_fixpoint_negb.
    - intro D. destruct (hit_dec i) as [T|T]; [exact T|]. destruct (Y T) as [E _]. contradiction.
  Qed.

  (** acceleration *)
  Lemma acc_range : 0 < af <= afmax -> forall i, (k <= i)%nat -> (i = k \/ i < n)%nat -> af <= acc i <= afmax.
  Proof.
    intros Haf i Hk. destruct RUN as [(_ & _ & _ & A0) B].
    induction i as [|i IH]; intro Hi.
    - replace 0%nat with k by lia. rewrite A0. lra.
    - destruct (Nat.eq_dec (S i) k) as [E|E]; [rewrite E, A0; lra|].
      assert (Hj : (S k <= S i < n)%nat) by lia. destruct (B _ Hj) as (X & Y & _).
      destruct (hit_dec (S i)) as [T|T].
      + destruct (X T) as (_ & _ & _ & ->). lra.
      + destruct (Y T) as (_ & _ & _ & ->). replace (S i - 1)%nat with i in * by lia.
        assert (IHi : af <= acc i <= afmax) by (apply IH; lia).
        destruct (Req_EM_T (ext (S i)) (ext i)); [exact IHi|].
        split; [apply Rmin_glb; lra|apply Rmin_r].
  Qed.

  (** the side of the market *)
  Lemma side_long i : (S k <= i < n)%nat -> long i = true -> long (i - 1)%nat = true -> sar i < l i.
  Proof.
    intros Hi L1 L0. assert (NH : ~ hit h l long stop i).
    { intro T. apply (hit_iff Hi) in T. congruence. }
    destruct RUN as [_ B]. destruct (B i Hi) as (_ & Y & _). destruct (Y NH) as (_ & -> & _).
    unfold hit in NH. rewrite L0 in NH. lra.
  Qed.
  Lemma side_short i : (S k <= i < n)%nat -> long i = false -> long (i - 1)%nat = false -> h i < sar i.
  Proof.
    intros Hi L1 L0. assert (NH : ~ hit h l long stop i).
    { intro T. apply (hit_iff Hi) in T. congruence. }
    destruct RUN as [_ B]. destruct (B i Hi) as (_ & Y & _). destruct (Y NH) as (_ & -> & _).
    unfold hit in NH. rewrite L0 in NH. lra.
  Qed.

  (** the extreme point *)
  Lemma trend_exists i : (S k <= i)%nat -> exists b, trend_since k long i b.
  Proof.
    intro Hi. induction i as [|i IH]; [lia|].
    destruct (Nat.eq_dec i k) as [->|E].
    - exists (S k). split; [lia|]. split; [now left|]. intros j Hj. lia.
    - destruct IH as (b & Hb & Hs & Hc); [lia|].
      destruct (bool_dec (long i) (long (i - 1)%nat)) as [D|D].
      + exists b. split; [lia|]. split.
        * destruct Hs as [->|[Hbi Hd]]; [now left|]. right. split; [lia|exact Hd].
        * intros j Hj. destruct (Nat.eq_dec j i) as [->|]; [exact D|]. apply Hc. lia.
      + exists i. split; [lia|]. split; [right; split; [lia|exact D]|]. intros j Hj. lia.
  Qed.
  Lemma trend_unique i b b' : trend_since k long i b -> trend_since k long i b' -> b = b'.
  Proof.
    intros (H1 & H2 & H3) (H1' & H2' & H3').
    destruct (Nat.lt_trichotomy b b') as [C|[C|C]]; [|exact C|].
    - exfalso. destruct H2' as [->|[A B]]; [lia|]. apply B. apply H3. lia.
    - exfalso. destruct H2 as [->|[A B]]; [lia|]. apply B. apply H3'. lia.
  Qed.

  Definition last_of (b i : nat) := Nat.max b (i - 1).

  Lemma trend_dir i b : (i <= n)%nat -> trend_since k long i b ->
    forall j, (b <= j < i)%nat -> (S k < j \/ b < j)%nat -> (b < j)%nat -> long j = long (i - 1)%nat.
  Proof.
    intros Hn (H1 & H2 & H3) j Hj _ Hb.
    assert (forall d, (j + d < i)%nat -> long (j + d)%nat = long j).
    { induction d as [|d IH]; intro Hd; [now rewrite Nat.add_0_r|].
      rewrite H3 by lia. replace (j + S d - 1)%nat with (j + d)%nat by lia. apply IH. lia. }
    specialize (H (i - 1 - j)%nat). replace (j + (i - 1 - j))%nat with (i - 1)%nat in H by lia.
    symmetry. apply H. lia.
  Qed.

  Definition extreme_over (up : bool) (b e : nat) (v : R) : Prop :=
    (exists j, (b <= j <= e)%nat /\ v = if up then h j else l j) /\
    forall j, (b <= j <= e)%nat -> if up then h j <= v else v <= l j.

  Lemma ext_extreme i b : (S k <= i <= n)%nat -> trend_since k long i b ->
    extreme_over (long (i - 1)%nat) b (last_of b i) (ext (i - 1)%nat).
  Proof.
    intros Hi T. destruct RUN as [(_ & _ & E0 & _) B]. revert b T.
    induction i as [|i IH]; intros b T; [lia|].
    replace (S i - 1)%nat with i by lia. unfold last_of. replace (S i - 1)%nat with i by lia.
    destruct (Nat.eq_dec i k) as [->|NE].
    - destruct T as (H1 & _ & _). assert (b = S k) by lia. subst b. rewrite Nat.max_l by lia.
      rewrite E0. split.
      + exists (S k). split; [lia|reflexivity].
      + intros j Hj. assert (j = S k) by lia. subst j. destruct (long k); lra.
    - assert (Hii : (S k <= i < n)%nat) by lia. destruct (B _ Hii) as (X & Y & _).
      destruct (hit_dec i) as [Ht|Ht].
      + destruct (X Ht) as (L & _ & E & _). assert (D := proj1 (hit_iff Hii) Ht).
        assert (b = i).
        { eapply (@trend_unique (S i) b i T). split; [lia|]. split; [right; split; [lia|exact D]|]. intros j Hj; lia. }
        subst b. rewrite Nat.max_id, E. split.
        * exists i. split; [lia|]. now destruct (long i).
        * intros j Hj. assert (j = i) by lia. subst j. destruct (long i); lra.
      + destruct (Y Ht) as (L & _ & E & _).
        destruct T as (H1 & H2 & H3).
        assert (Hbi : b <> i \/ b = S k).
        { destruct H2 as [->|[A D]]; [now right|left]. intros ->. rewrite L in D. now apply D. }
        assert (T' : trend_since k long i b).
        { split; [lia|]. split.
          - destruct H2 as [->|[A D]]; [now left|]. right. split; [|exact D].
            destruct (Nat.eq_dec b i) as [->|]; [|lia]. rewrite L in D. now elim D.
          - intros j Hj. apply H3. lia. }
        destruct (IH ltac:(lia) b T') as [(j & Hj & Ej) M].
        unfold last_of in *. rewrite E, L in *.
        assert (MX : (Nat.max b i = i)%nat) by lia. rewrite MX.
        destruct (long (i - 1)%nat).
        * destruct (Rle_dec (ext (i - 1)%nat) (h i)) as [C|C].
          -- rewrite Rmax_right by lra. split; [exists i; split; [lia|reflexivity]|].
             intros j' Hj'. destruct (Nat.eq_dec j' i) as [->|]; [lra|].
             assert (Z := M j' ltac:(lia)). cbv beta iota in Z. lra.
          -- rewrite Rmax_left by lra. split; [exists j; split; [lia|exact Ej]|].
             intros j' Hj'. destruct (Nat.eq_dec j' i) as [->|]; [lra|].
             assert (Z := M j' ltac:(lia)). cbv beta iota in Z. lra.
        * destruct (Rle_dec (l i) (ext (i - 1)%nat)) as [C|C].
          -- rewrite Rmin_right by lra. split; [exists i; split; [lia|reflexivity]|].
             intros j' Hj'. destruct (Nat.eq_dec j' i) as [->|]; [lra|].
             assert (Z := M j' ltac:(lia)). cbv beta iota in Z. lra.
          -- rewrite Rmin_left by lra. split; [exists j; split; [lia|exact Ej]|].
             intros j' Hj'. destruct (Nat.eq_dec j' i) as [->|]; [lra|].
             assert (Z := M j' ltac:(lia)). cbv beta iota in Z. lra.
  Qed.

  Lemma reversal_extreme i : (S k <= i < n)%nat -> long i <> long (i - 1)%nat ->
    exists b, trend_since k long i b /\ extreme_over (long (i - 1)%nat) b (last_of b i) (sar i).
  Proof.
    intros Hi D. destruct (@trend_exists i) as [b T]; [lia|]. exists b. split; [exact T|].
    apply (hit_iff Hi) in D. assert (EX := @ext_extreme i b ltac:(lia) T).
    destruct RUN as [_ B]. destruct (B i Hi) as (X & _). destruct (X D) as (_ & -> & _). exact EX.
  Qed.

  (** monotone inside a trend *)
  Hypothesis BAR : forall i, (k <= i < n)%nat -> l i <= h i.

  Lemma stop_below i : (S k <= i < n)%nat -> long i = true -> stop (S i) <= l i /\ stop (S i) <= l (before k i).
  Proof.
    intros Hi L. destruct RUN as [_ B]. destruct (B i Hi) as (_ & _ & Z). cbv zeta in Z. rewrite L in Z.
    rewrite Z. split; (eapply Rle_trans; [apply Rmin_r|]); [apply Rmin_l|apply Rmin_r].
  Qed.
  Lemma stop_above i : (S k <= i < n)%nat -> long i = false -> h i <= stop (S i) /\ h (before k i) <= stop (S i).
  Proof.
    intros Hi L. destruct RUN as [_ B]. destruct (B i Hi) as (_ & _ & Z). cbv zeta in Z. rewrite L in Z.
    rewrite Z. split; (eapply Rle_trans; [|apply Rmax_r]); [apply Rmax_l|apply Rmax_r].
  Qed.

  Lemma monotone_long i : 0 < af <= afmax -> (S k <= i)%nat -> (S i < n)%nat ->
    long (i - 1)%nat = true -> long i = true -> long (S i) = true -> sar i <= sar (S i).
  Proof.
    intros Haf Hi Hn L0 L1 L2.
    assert (Hii : (S k <= i < n)%nat) by lia. assert (Hjj : (S k <= S i < n)%nat) by lia.
    assert (SI := side_long Hii L1 L0). assert (A := acc_range Haf (i:=i) ltac:(lia) ltac:(lia)).
    destruct RUN as [_ B].
    assert (NH : ~ hit h l long stop i) by (intro T; apply (hit_iff Hii) in T; congruence).
    assert (NH' : ~ hit h l long stop (S i)).
    { intro T; apply (hit_iff Hjj) in T. replace (S i - 1)%nat with i in T by lia. congruence. }
    destruct (B i Hii) as (_ & Y & Z). cbv zeta in Z. destruct (Y NH) as (_ & Es & Ee & _).
    destruct (B (S i) Hjj) as (_ & Y' & _). destruct (Y' NH') as (_ & Es' & _). rewrite Es', Z, L1.
    rewrite L1 in Ee. assert (h i <= ext i) by (rewrite Ee; apply Rmax_r).
    assert (l i <= h i) by (apply BAR; lia).
    apply Rmin_glb; [|apply Rmin_glb; [lra|]].
    - assert (0 <= acc i * (ext i - sar i)) by (apply Rmult_le_pos; lra). lra.
    - unfold before. destruct (Nat.eq_dec i (S k)) as [->|].
      + replace (Nat.max (S k) (S k - 1)) with (S k) by lia. lra.
      + replace (Nat.max (S k) (i - 1)) with (i - 1)%nat by lia.
        destruct (@stop_below (i - 1)) as [Q _]; [lia|exact L0|].
        replace (S (i - 1)) with i in Q by lia. lra.
  Qed.
  Lemma monotone_short i : 0 < af <= afmax -> (S k <= i)%nat -> (S i < n)%nat ->
    long (i - 1)%nat = false -> long i = false -> long (S i) = false -> sar (S i) <= sar i.
  Proof.
    intros Haf Hi Hn L0 L1 L2.
    assert (Hii : (S k <= i < n)%nat) by lia. assert (Hjj : (S k <= S i < n)%nat) by lia.
    assert (SI := side_short Hii L1 L0). assert (A := acc_range Haf (i:=i) ltac:(lia) ltac:(lia)).
    destruct RUN as [_ B].
    assert (NH : ~ hit h l long stop i) by (intro T; apply (hit_iff Hii) in T; congruence).
    assert (NH' : ~ hit h l long stop (S i)).
    { intro T; apply (hit_iff Hjj) in T. replace (S i - 1)%nat with i in T by lia. congruence. }
    destruct (B i Hii) as (_ & Y & Z). cbv zeta in Z. destruct (Y NH) as (_ & Es & Ee & _).
    destruct (B (S i) Hjj) as (_ & Y' & _). destruct (Y' NH') as (_ & Es' & _). rewrite Es', Z, L1.
    rewrite L1 in Ee. assert (ext i <= l i) by (rewrite Ee; apply Rmin_r).
    assert (l i <= h i) by (apply BAR; lia).
    apply Rmax_lub; [|apply Rmax_lub; [lra|]].
    - assert (0 <= acc i * (sar i - ext i)) by (apply Rmult_le_pos; lra). lra.
    - unfold before. destruct (Nat.eq_dec i (S k)) as [->|].
      + replace (Nat.max (S k) (S k - 1)) with (S k) by lia. lra.
      + replace (Nat.max (S k) (i - 1)) with (i - 1)%nat by lia.
        destruct (@stop_above (i - 1)) as [Q _]; [lia|exact L0|].
        replace (S (i - 1)) with i in Q by lia. lra.
  Qed.

  (** inside the range of the prices seen *)
  Lemma within_run i lo hi : 0 < af <= afmax -> afmax <= 1 -> (S k <= i < n)%nat ->
    (forall j, (k <= j <= i)%nat -> lo <= l j /\ h j <= hi) ->
    lo <= sar i <= hi /\ lo <= ext i <= hi /\ lo <= stop (S i) <= hi.
  Proof.
    intros Haf H1 Hi Hr.
    assert (IND : forall d, (S k + d <= i)%nat ->
      lo <= sar (S k + d)%nat <= hi /\ lo <= ext (S k + d)%nat <= hi /\ lo <= stop (S (S k + d)) <= hi).
    { induction d as [|d IH]; intro Hd.
      - rewrite Nat.add_0_r.
        assert (Hj : (S k <= S k < n)%nat) by lia.
        assert (P0 : lo <= ext k <= hi /\ lo <= stop (S k) <= hi).
        { destruct RUN as [(_ & Es & Ee & _) _]. rewrite Es, Ee.
          destruct (Hr k ltac:(lia)), (Hr (S k) ltac:(lia)).
          assert (l k <= h k) by (apply BAR; lia). assert (l (S k) <= h (S k)) by (apply BAR; lia).
          destruct (long k); lra. }
        destruct RUN as [_ B]. destruct (B _ Hj) as (X & Y & Z). cbv zeta in Z.
        assert (A := acc_range Haf (i:=S k) ltac:(lia) ltac:(lia)).
        destruct (Hr (S k) ltac:(lia)) as [R1 R2]. assert (R3 : l (S k) <= h (S k)) by (apply BAR; lia).
        assert (BE : before k (S k) = S k) by (unfold before; lia). rewrite BE in Z.
        replace (S k - 1)%nat with k in * by lia.
        assert (SE : lo <= sar (S k) <= hi /\ lo <= ext (S k) <= hi).
        { destruct (hit_dec (S k)) as [T|T].
          - destruct (X T) as (_ & -> & -> & _). destruct (long (S k)); lra.
          - destruct (Y T) as (_ & -> & -> & _). split; [lra|].
            destruct (long (S k)); unfold Rmax, Rmin; destruct (Rle_dec _ _); lra. }
        split; [lra|]. split; [lra|].
        assert (NX : lo <= sar (S k) + acc (S k) * (ext (S k) - sar (S k)) <= hi) by nra.
        rewrite Z. destruct (long (S k)); unfold Rmax, Rmin; repeat destruct (Rle_dec _ _); lra.
      - assert (IHd := IH ltac:(lia)). clear IH.
        set (j := (S k + d)%nat) in *. replace (S k + S d)%nat with (S j) in * by lia.
        assert (Hj : (S k <= S j < n)%nat) by lia.
        destruct IHd as (I1 & I2 & I3).
        destruct RUN as [_ B]. destruct (B _ Hj) as (X & Y & Z). cbv zeta in Z.
        assert (A := acc_range Haf (i:=S j) ltac:(lia) ltac:(lia)).
        destruct (Hr (S j) ltac:(lia)) as [R1 R2]. assert (R3 : l (S j) <= h (S j)) by (apply BAR; lia).
        assert (BE : before k (S j) = j) by (unfold before; lia). rewrite BE in Z.
        destruct (Hr j ltac:(lia)) as [R1' R2']. assert (R3' : l j <= h j) by (apply BAR; lia).
        replace (S j - 1)%nat with j in * by lia.
        assert (SE : lo <= sar (S j) <= hi /\ lo <= ext (S j) <= hi).
        { destruct (hit_dec (S j)) as [T|T].
          - destruct (X T) as (_ & -> & -> & _). destruct (long (S j)); lra.
          - destruct (Y T) as (_ & -> & -> & _). split; [lra|].
            destruct (long (S j)); unfold Rmax, Rmin; destruct (Rle_dec _ _); lra. }
        split; [lra|]. split; [lra|].
        assert (NX : lo <= sar (S j) + acc (S j) * (ext (S j) - sar (S j)) <= hi) by nra.
        rewrite Z. destruct (long (S j)); unfold Rmax, Rmin; repeat destruct (Rle_dec _ _); lra. }
    specialize (IND (i - S k)%nat). replace (S k + (i - S k))%nat with i in IND by lia. apply IND. lia.
  Qed.
End Psar.

(** the rules determine the run *)
Lemma psar_unique h l k n af afmax long stop sar ext acc long' stop' sar' ext' acc' :
  psar h l k n af afmax long stop sar ext acc ->
  psar h l k n af afmax long' stop' sar' ext' acc' ->
  forall i, (S k <= i < n)%nat -> long i = long' i /\ sar i = sar' i /\ ext i = ext' i /\ acc i = acc' i.
Proof.
  intros R1 R2. assert (Q1 := R1). assert (Q2 := R2).
  destruct R1 as [(A1 & A2 & A3 & A4) B], R2 as [(A1' & A2' & A3' & A4') B'].
  assert (L0 : long k = long' k).
  { destruct (long k) eqn:E, (long' k) eqn:E'; try reflexivity.
    - assert (X := proj1 A1' eq_refl). apply A1 in X. congruence.
    - assert (X := proj1 A1 eq_refl). apply A1' in X. congruence. }
  assert (IND : forall d, (k + d < n)%nat \/ d = 0%nat ->
     let i := (k + d)%nat in
     (long i = long' i /\ ext i = ext' i /\ acc i = acc' i /\ stop (S i) = stop' (S i)) /\
     (d <> 0%nat -> sar i = sar' i)).
  { induction d as [|d IH]; intro Hd; cbv zeta.
    - rewrite Nat.add_0_r. split; [|intro N; now elim N]. rewrite A3, A3', A4, A4', A2, A2', L0. repeat split.
    - destruct (IH ltac:(lia)) as [(E1 & E2 & E3 & E4) _]. clear IH.
      set (j := (k + d)%nat) in *. replace (k + S d)%nat with (S j) in * by lia.
      assert (Hj : (S k <= S j < n)%nat) by lia.
      destruct (B _ Hj) as (X & Y & Z), (B' _ Hj) as (X' & Y' & Z'). cbv zeta in Z, Z'.
      assert (HH : hit h l long stop (S j) <-> hit h l long' stop' (S j)).
      { unfold hit. replace (S j - 1)%nat with j by lia. rewrite E1, E4. reflexivity. }
      assert (C : long (S j) = long' (S j) /\ sar (S j) = sar' (S j) /\ ext (S j) = ext' (S j) /\ acc (S j) = acc' (S j)).
      { replace (S j - 1)%nat with j in * by lia.
        destruct (@hit_dec h l long stop (S j)) as [T|T].
        - destruct (X T) as (V1 & V2 & V3 & V4), (X' (proj1 HH T)) as (U1 & U2 & U3 & U4).
          assert (L : long (S j) = long' (S j)) by congruence.
          split; [exact L|]. split; [congruence|]. split; [|congruence]. rewrite V3, U3, L. reflexivity.
        - assert (T' : ~ hit h l long' stop' (S j)) by (rewrite <- HH; exact T).
          destruct (Y T) as (U1 & U2 & U3 & U4), (Y' T') as (U1' & U2' & U3' & U4').
          assert (L : long (S j) = long' (S j)) by congruence.
          assert (EX : ext (S j) = ext' (S j)) by (rewrite U3, U3', L, E2; reflexivity).
          rewrite U4, U4', EX, E2, E3. repeat split; congruence. }
      destruct C as (C1 & C2 & C3 & C4). split; [|intros _; exact C2].
      rewrite Z, Z', C1, C2, C3, C4. repeat split. }
  intros i Hi. destruct (IND (i - k)%nat ltac:(lia)) as [(E1 & E2 & E3 & _) E4].
  replace (k + (i - k))%nat with i in * by lia. split; [exact E1|]. split; [apply E4; lia|]. split; [exact E2|exact E3].
Qed.

(** the extended rules with the defaults are the plain ones *)
Lemma psarx_psar h l k n af afmax long stop sar ext acc :
  psarx h l k n long stop sar ext acc 0 0 (fun _ => af) (fun _ => afmax) ->
  psar h l k n af afmax long stop sar ext acc.
Proof.
  intros [(S1 & _ & S3 & S4) B]. destruct (S1 eq_refl) as [S1a S1b]. split; [split; [|split; [|split]]; assumption|].
  intros i Hi. destruct (B i Hi) as (X & Y & Z). split; [|split; [exact Y|exact Z]].
  intro T. destruct (X T) as (X1 & X2 & X3 & X4). split; [exact X1|]. split; [|split; assumption].
  rewrite X2. destruct (long i); ring.
Qed.

(** ** statements *)
Lemma sar_all (hl ll : line (ext R)) n kh kl h l af afmax :
  feeds hl n kh (fin h) -> feeds ll n kl (fin l) ->
  let k := Nat.max kh kl in
  (k + 2 <= n)%nat ->
  exists y long stop s ext acc,
    sar (Fin af) (Fin afmax) hl ll = Ok y /\
    psar h l k n af afmax long stop s ext acc /\
    delivers y n (S k) (fin s).
Proof.
  intros Hh Hl k Hn. destruct (@sar_delivers hl ll n kh kl h l af afmax Hh Hl Hn) as (y & E & D).
  exists y. do 5 eexists. split; [exact E|]. split; [apply psar_holds|exact D].
Qed.

Lemma sar_sides (hl ll : line (ext R)) n kh kl h l af afmax y long stop s ext acc :
  feeds hl n kh (fin h) -> feeds ll n kl (fin l) ->
  (forall i, (Nat.max kh kl <= i < n)%nat -> l i <= h i) -> 0 < af <= afmax ->
  psar h l (Nat.max kh kl) n af afmax long stop s ext acc ->
  sar (Fin af) (Fin afmax) hl ll = Ok y ->
  forall i, (Nat.max kh kl < i < n)%nat ->
    nth_error (lser y) i = Some (Fin (s i)) /\
    (long i = long (i - 1)%nat -> if long i then s i < l i else h i < s i) /\
    (long i <> long (i - 1)%nat ->
       exists b, trend_since (Nat.max kh kl) long i b /\
         (exists j, (b <= j <= Nat.max b (i - 1))%nat /\ s i = if long (i - 1)%nat then h j else l j) /\
         forall j, (b <= j <= Nat.max b (i - 1))%nat ->
           if long (i - 1)%nat then h j <= s i else s i <= l j) /\
    af <= acc i <= afmax.
Proof.
  intros Hh Hl Hb Haf RUN E i Hi. set (k := Nat.max kh kl) in *.
  assert (Hn : (k + 2 <= n)%nat) by lia.
  destruct (@sar_delivers hl ll n kh kl h l af afmax Hh Hl Hn) as (y' & E' & D). fold k in D.
  rewrite E in E'. injection E' as <-. split.
  - destruct D as [(_ & _ & F) _]. rewrite (F i) by lia. unfold fin. do 2 f_equal.
    destruct (psar_unique (@psar_holds h l k af afmax n) RUN (i:=i) ltac:(lia)) as (_ & Q & _). exact Q.
  - split; [|split].
    + intro L. destruct (long i) eqn:E1.
      * apply (@side_long h l k n af afmax long stop s ext acc RUN i); [lia|exact E1|now symmetry].
      * apply (@side_short h l k n af afmax long stop s ext acc RUN i); [lia|exact E1|now symmetry].
    + intro L. exact (@reversal_extreme h l k n af afmax long stop s ext acc RUN i ltac:(lia) L).
    + apply (acc_range RUN Haf); lia.
Qed.

Lemma sar_monotone (h l : nat -> R) k n af afmax long stop s ext acc :
  (forall i, (k <= i < n)%nat -> l i <= h i) -> 0 < af <= afmax ->
  psar h l k n af afmax long stop s ext acc ->
  forall i, (k < i)%nat -> (S i < n)%nat -> long i = long (i - 1)%nat -> long (S i) = long i ->
    if long i then s i <= s (S i) else s (S i) <= s i.
Proof.
  intros Hb Haf RUN i Hi Hn L1 L2. destruct (long i) eqn:E.
  - apply (@monotone_long h l k n af afmax long stop s ext acc RUN Hb i); (lia || lra || congruence).
  - apply (@monotone_short h l k n af afmax long stop s ext acc RUN Hb i); (lia || lra || congruence).
Qed.

Lemma sar_in_range (h l : nat -> R) k n af afmax long stop s ext acc :
  (forall i, (k <= i < n)%nat -> l i <= h i) -> 0 < af <= afmax -> afmax <= 1 ->
  psar h l k n af afmax long stop s ext acc ->
  forall i lo hi, (k < i < n)%nat ->
    (forall j, (k <= j <= i)%nat -> lo <= l j /\ h j <= hi) -> lo <= s i <= hi.
Proof.
  intros Hb Haf H1 RUN i lo hi Hi Hr.
  destruct (@within_run h l k n af afmax long stop s ext acc RUN Hb i lo hi Haf H1 ltac:(lia) Hr) as [A _]. exact A.
Qed.

Lemma sarext_all (hl ll : line (ext R)) n kh kl h l start afl afxl afs afxs offs :
  feeds hl n kh (fin h) -> feeds ll n kl (fin l) ->
  let k := Nat.max kh kl in
  (k + 2 <= n)%nat ->
  exists y long stop s ext acc,
    sarext (Fin start) (mkSarPar (Fin afl) (Fin afxl) (Fin afs) (Fin afxs) (Fin offs)) hl ll = Ok y /\
    psarx h l k n long stop s ext acc start offs
      (fun up : bool => if up then afl else afs) (fun up : bool => if up then afxl else afxs) /\
    delivers y n (S k) (fin (fun i => if long i then s i else - s i)).
Proof.
  intros Hh Hl k Hn. set (P := mkXP afl afxl afs afxs offs).
  destruct (@sarext_delivers hl ll n kh kl h l start P Hh Hl Hn) as (y & E & D). fold k in D.
  exists y, (xlongf h l k start P), (xstopf h l k start P), (xsarf h l k start P), (xextf h l k start P), (xaccf h l k start P).
  split; [exact E|]. split; [apply (@psarx_holds h l k start P n)|].
  eapply delivers_ext; [|exact D]. intros i Hi. unfold fin, xsarf. f_equal.
  destruct (xlongf h l k start P i); ring.
Qed.

Lemma pos_floor (l : nat -> R) k : forall i, (forall j, (k <= j <= i)%nat -> 0 < l j) ->
  exists lo, 0 < lo /\ forall j, (k <= j <= i)%nat -> lo <= l j.
Proof.
  induction i as [|i IH]; intro H.
  - destruct k; [exists (l 0%nat)|exists 1]; (split; [try (apply H; lia); lra|]); intros j Hj.
    + replace j with 0%nat by lia. lra.
    + lia.
  - destruct IH as (lo & P & F); [intros j Hj; apply H; lia|].
    destruct (le_dec k (S i)) as [C|C].
    + exists (Rmin lo (l (S i))). split; [apply Rmin_glb_lt; [exact P|apply H; lia]|].
      intros j Hj. destruct (Nat.eq_dec j (S i)) as [->|]; [apply Rmin_r|].
      eapply Rle_trans; [apply Rmin_l|apply F; lia].
    + exists lo. split; [exact P|]. intros j Hj. lia.
Qed.
Lemma some_ceiling (h : nat -> R) k : forall i, exists hi, forall j, (k <= j <= i)%nat -> h j <= hi.
Proof.
  induction i as [|i [hi F]].
  - exists (h 0%nat). intros j Hj. replace j with 0%nat by lia. lra.
  - exists (Rmax hi (h (S i))). intros j Hj. destruct (Nat.eq_dec j (S i)) as [->|]; [apply Rmax_r|].
    eapply Rle_trans; [apply F; lia|apply Rmax_l].
Qed.

Lemma sarext_sar (hl ll : line (ext R)) n kh kl h l af afmax :
  feeds hl n kh (fin h) -> feeds ll n kl (fin l) ->
  let k := Nat.max kh kl in
  (k + 2 <= n)%nat ->
  exists y x long stop s ext acc,
    sar (Fin af) (Fin afmax) hl ll = Ok y /\
    sarext (Fin 0) (mkSarPar (Fin af) (Fin afmax) (Fin af) (Fin afmax) (Fin 0)) hl ll = Ok x /\
    psar h l k n af afmax long stop s ext acc /\
    delivers y n (S k) (fin s) /\
    delivers x n (S k) (fin (fun i => if long i then s i else - s i)) /\
    ((forall i, (k <= i < n)%nat -> 0 < l i <= h i) -> 0 < af <= afmax -> afmax <= 1 ->
     forall i, (k < i < n)%nat -> 0 < s i).
Proof.
  intros Hh Hl k Hn.
  destruct (@sar_delivers hl ll n kh kl h l af afmax Hh Hl Hn) as (y & E & D). fold k in D.
  destruct (@sarext_all hl ll n kh kl h l 0 af afmax af afmax 0 Hh Hl Hn)
    as (x & long & stop & s & ext & acc & E' & RX & D'). fold k in RX, D'.
  assert (RUN : psar h l k n af afmax long stop s ext acc).
  { apply psarx_psar. destruct RX as [(A1 & A2 & A3 & A4) B]. split.
    - split; [exact A1|]. split; [exact A2|]. split; [exact A3|]. rewrite A4. now destruct (long k).
    - intros i Hi. destruct (B i Hi) as (X & Y & Z). split; [|split; [|exact Z]].
      + intro T. destruct (X T) as (X1 & X2 & X3 & X4). repeat split; try assumption. rewrite X4. now destruct (long i).
      + intro T. destruct (Y T) as (X1 & X2 & X3 & X4). repeat split; try assumption. rewrite X4.
        now destruct (long i). }
  exists y, x, long, stop, s, ext, acc. split; [exact E|]. split; [exact E'|]. split; [exact RUN|].
  split; [|split; [exact D'|]].
  - destruct D as [(M & L & F) W]. split; [split; [exact M|split; [exact L|]]|exact W].
    intros i Hi. rewrite F by exact Hi. unfold fin. do 2 f_equal.
    destruct (psar_unique (@psar_holds h l k af afmax n) RUN (i:=i) ltac:(lia)) as (_ & Q & _). exact Q.
  - intros Hp Haf H1 i Hi.
    destruct (@pos_floor l k i) as (lo & Plo & Flo); [intros j Hj; apply Hp; lia|].
    destruct (some_ceiling h k i) as (hi & Fhi).
    assert (Q : lo <= s i <= hi).
    { apply (@sar_in_range h l k n af afmax long stop s ext acc); try assumption.
      - intros j Hj. apply Hp. exact Hj.
      - intros j Hj. split; [apply Flo; lia|apply Fhi; lia]. }
    lra.
Qed.
