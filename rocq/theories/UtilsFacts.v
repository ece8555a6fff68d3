(** Proofs about Utils.v. *)
From Coq Require Import ZArith List Bool Lia.
From Verif Require Import Num Series Line LineApi Strict LineFacts CausalFacts IndexedFacts Labels LabelsFacts Utils.
Import ListNotations.
Local Open Scope Z_scope.

Section Facts.
  Context {V : Type}.
  Notation line := (line V).
  Lemma mp_series_nth (a : line) k : 1 <= lmp a -> nth_error (mp_series a) k = nth_error (lser a) (Z.to_nat (lmp a - 1) + k).
  Proof.
    intro M. unfold mp_series. replace (lmp a - 1) with (Z.of_nat (Z.to_nat (lmp a - 1))) at 1 by lia.
    rewrite slice_from_nat. apply nth_error_skipn.
  Qed.
  Lemma get_nth (a : line) i x : 0 <= i -> line_get a i = Ok x <-> nth_error (lser a) (Z.to_nat i) = Some x.
  Proof.
    intro H. unfold line_get, getitem. cbv zeta. destruct (Z.ltb_spec i 0); [lia|]. destruct (Z.ltb_spec i 0); [lia|].
    destruct (nth_error (lser a) (Z.to_nat i)); split; congruence.
  Qed.
  Lemma set_val_line ix (a : line) i v : set_val ix a i v = line_set ix a i v.
  Proof. reflexivity. Qed.
  Lemma mp_set_line ix (a : line) i v : mp_set_val ix a i v = line_set ix a (lmp a - 1 + i) v.
  Proof. reflexivity. Qed.
  Lemma mp_set_dates (a : line) k v : 1 <= lmp a -> lmp a - 1 + Z.of_nat k < Z.of_nat (bars a) ->
    exists b, mp_set_val Dates a (Z.of_nat k) v = Ok (Dates, b) /\ lmp b = lmp a /\ bars b = bars a /\
      (forall j, (j < Z.to_nat (lmp a - 1))%nat -> nth_error (lser b) j = nth_error (lser a) j) /\
      (forall j, nth_error (mp_series b) j = if (j =? k)%nat then Some v else nth_error (mp_series a) j).
  Proof.
    intros M B. rewrite mp_set_line. destruct (set_dates a (lmp a - 1 + Z.of_nat k) v (Z.to_nat (lmp a - 1) + k)) as (b & E & L & N & A); [lia|left; lia|].
    exists b. repeat split; auto.
    - intros j J. rewrite A. destruct (Nat.eqb_spec j (Z.to_nat (lmp a - 1) + k)); [lia|reflexivity].
    - intro j. rewrite !mp_series_nth by lia. rewrite L, A.
      destruct (Nat.eqb_spec (Z.to_nat (lmp a - 1) + j) (Z.to_nat (lmp a - 1) + k)), (Nat.eqb_spec j k); try lia; reflexivity.
  Qed.
  Lemma mp_set_dates_out (a : line) i v : 1 <= lmp a -> Z.of_nat (bars a) <= lmp a - 1 + i -> mp_set_val Dates a i v = Raise IndexError.
  Proof. intros M B. rewrite mp_set_line. apply set_dates_out. lia. Qed.
  Lemma default_set (a : line) i v : 0 <= i < Z.of_nat (bars a) ->
    exists b, line_set Dates a i v = Ok (Dates, b) /\ line_set (default_index (bars a)) a i v = Ok (default_index (bars a), b).
  Proof.
    intro I. destruct (set_dates a i v (Z.to_nat i)) as (b & E & L & B & A); [lia|left; lia|].
    destruct (set_label (map Z.of_nat (seq 0 (bars a))) a i v (Z.to_nat i)) as (b' & E' & L' & B' & A').
    - apply default_length.
    - apply default_NoDup.
    - rewrite default_labels by lia. f_equal. lia.
    - exists b. split; [exact E|]. unfold default_index. rewrite E'. do 2 f_equal.
      destruct b as [m s], b' as [m' s']. cbn in *. f_equal; [congruence|]. apply nth_error_ext; [unfold bars in *; cbn in *; congruence|]. intros j _. now rewrite A, A'.
  Qed.
  Lemma default_add (a : line) i v : Z.of_nat (bars a) <= i ->
    line_set (default_index (bars a)) a i v = Ok (Ints (map Z.of_nat (seq 0 (bars a)) ++ [i]), mkLine (lmp a) (lser a ++ [v])).
  Proof. intro I. unfold default_index. apply set_label_new; [apply default_length|]. rewrite default_In. lia. Qed.
  Lemma default_add_any (a : line) i v : i < 0 \/ Z.of_nat (bars a) <= i ->
    exists ls, line_set (default_index (bars a)) a i v = Ok (Ints ls, mkLine (lmp a) (lser a ++ [v])) /\
      nth_error ls (bars a) = Some i /\ length ls = S (bars a).
  Proof.
    intro I. eexists. split; [unfold default_index; apply set_label_new; [apply default_length|rewrite default_In; lia]|].
    split.
    - rewrite nth_error_app2; rewrite map_length, seq_length; [|lia]. now rewrite Nat.sub_diag.
    - rewrite app_length, map_length, seq_length. cbn. lia.
  Qed.
  Lemma dec_series (a : line) p : 1 <= lmp a -> lmp a <= p -> p - lmp a + 1 <= Z.of_nat (bars a) ->
    mp_series (dec_period a p) = skipn (bars a - Z.to_nat (p - lmp a + 1)) (lser a).
  Proof.
    intros M P B. unfold mp_series, dec_period. cbn [lmp lser]. unfold slice_from, slice_lo, bars in *.
    destruct (Z.ltb_spec (lmp a - p - 1) 0); [|lia]. f_equal. lia.
  Qed.
  Lemma dec_set (a : line) v : lmp a = 1 -> (1 <= bars a)%nat ->
    exists b, mp_set_val Dates (dec_period a 1) 0 v = Ok (Dates, b) /\ line_get b (-1) = Ok v /\
      forall j, (j < bars a - 1)%nat -> nth_error (lser b) j = nth_error (lser a) j.
  Proof.
    intros M B. rewrite mp_set_line. cbn [dec_period lmp]. rewrite M. change (1 - 1 - 1 + 0) with (-1).
    destruct (set_dates (dec_period a 1) (-1) v (bars a - 1)) as (b & E & L & N & A).
    - unfold dec_period, bars in *. cbn [lser]. lia.
    - right. unfold dec_period, bars in *. cbn [lser]. lia.
    - exists b. split; [exact E|]. split.
      + destruct (bars a) as [|m] eqn:EB; [lia|]. unfold dec_period, bars in N, EB |- *. cbn [lser] in N.
        apply (@line_get_last V b m); [unfold bars; congruence|]. rewrite A. cbn. rewrite Nat.sub_0_r, Nat.eqb_refl. reflexivity.
      + intros j J. rewrite A. cbn [dec_period lser]. destruct (Nat.eqb_spec j (bars a - 1)); [lia|reflexivity].
  Qed.
End Facts.
