(** Volume indicators on finite lines. *)
From Coq Require Import ZArith QArith List Bool Lia Arith Reals Lra Psatz.
From Verif Require Import Num Series Line Spec RSpec BoundSpec VolSpec LineFacts ScanFacts RFacts OpFacts
  IndMA MAFacts RLineFacts IndBasic BasicFacts StatFacts IndVol.
Import ListNotations.
Set Implicit Arguments.
Local Open Scope R_scope.

Lemma total_first x k : total x k k = x k.
Proof. unfold total. replace (S k - k)%nat with 1%nat by lia. simpl. ring. Qed.
Lemma total_S x k i : (k <= i)%nat -> total x k (S i) = total x k i + x (S i).
Proof.
  intro H. unfold total. replace (S (S i) - k)%nat with (S i - k + 1)%nat by lia.
  rewrite seq_app, map_app, Rsum_app. replace (k + (S i - k))%nat with (S i) by lia. f_equal.
  cbn. ring.
Qed.
Lemma total_ext x y k i : (forall j, (k <= j <= i)%nat -> x j = y j) -> total x k i = total y k i.
Proof.
  intro H. unfold total. f_equal. apply map_ext_in. intros j Hj. apply in_seq in Hj. apply H. lia.
Qed.

(** running totals with gaps *)
Section Cum.
  Variables (f : nat -> ext R) (x : nat -> R) (k : nat).
  Hypothesis Hf : forall i, (k <= i)%nat -> f i = NaN /\ x i = 0 \/ f i = Fin (x i).

  Lemma cum_st d : scan_st (cumsum_step (V:=ext R)) f k v0 d =
    Fin (match d with 0%nat => 0 | S d' => total x k (k + d') end).
  Proof.
    induction d as [|d IH]; [apply v0_fin|].
    cbn [scan_st]. rewrite IH. destruct (@Hf (k + d)%nat ltac:(lia)) as [[E Z]|E]; rewrite E; unfold cumsum_step.
    - simpl visnan. cbn [fst]. f_equal. destruct d as [|d].
      + rewrite Nat.add_0_r in *. now rewrite total_first.
      + replace (k + S d)%nat with (S (k + d)) in * by lia. rewrite total_S by lia. lra.
    - rewrite visnan_fin. cbv zeta. cbn [fst]. rewrite vadd_fin. f_equal. destruct d as [|d].
      + rewrite Nat.add_0_r in *. rewrite total_first. ring.
      + replace (k + S d)%nat with (S (k + d)) in * by lia. now rewrite total_S by lia.
  Qed.

  Lemma cum_out i : (k <= i)%nat ->
    snd (cumsum_step (scan_st (cumsum_step (V:=ext R)) f k v0 (i - k)) (f i)) =
    match f i with NaN => NaN | _ => Fin (total x k i) end.
  Proof.
    intro Hi. rewrite cum_st. destruct (@Hf i Hi) as [[E Z]|E]; rewrite E; unfold cumsum_step.
    - reflexivity.
    - rewrite visnan_fin. cbv zeta. cbn [snd]. rewrite vadd_fin. f_equal.
      destruct (Nat.eq_dec i k) as [->|Hne].
      + rewrite Nat.sub_diag, total_first. ring.
      + destruct i as [|i]; [lia|]. replace (S i - k)%nat with (S (i - k)) by lia.
        rewrite total_S by lia. now replace (k + (i - k))%nat with i by lia.
  Qed.

  Lemma cumsum_gaps (a : lineR) n :
    feeds a n k f ->
    delivers (stdop ser_cumsum a) n k (fun i => match f i with NaN => NaN | _ => Fin (total x k i) end).
  Proof.
    intro Ha. eapply stdop_delivers; [exact Ha|]. unfold ser_cumsum. rewrite cumsum_scan, scan_seq.
    apply map_ext_seq. intros i Hi. apply cum_out. lia.
  Qed.
End Cum.

Lemma cumsum_fin (a : lineR) n k x :
  feeds a n k (fin x) -> delivers (stdop ser_cumsum a) n k (fin (total x k)).
Proof.
  intro Ha. eapply delivers_ext; [|eapply cumsum_gaps with (x := x); [|exact Ha]].
  - intros i Hi. reflexivity.
  - intros i _. right. reflexivity.
Qed.

(** ** ad *)

Lemma mfm_fin (h l c : lineR) n k xh xl xc :
  feeds h n k (fin xh) -> feeds l n k (fin xl) -> feeds c n k (fin xc) ->
  delivers (ldiv (lsub (lsub (rbinop_s vmul (vofZ 2) c) h) l) (lsub h l)) n k
    (fun i => quot (2 * xc i - xh i - xl i) (xh i - xl i)).
Proof.
  intros Hh Hl Hc. rewrite vofZ_fin.
  eapply del_ext; [| |eapply ldiv_quot;
    [eapply delivers_feeds, lsub_fin; [eapply delivers_feeds, lsub_fin; [eapply delivers_feeds, rmuls_fin; exact Hc|exact Hh]|exact Hl]
    |eapply delivers_feeds, lsub_fin; [exact Hh|exact Hl]]]; [lia|reflexivity].
Qed.

Lemma close_position_bound h l c i : l i <= c i <= h i -> -1 <= close_position h l c i <= 1.
Proof.
  intro H. unfold close_position. destruct (Req_EM_T (h i) (l i)) as [E|E]; [lra|].
  assert (P : 0 < h i - l i) by lra. assert (J : 0 < / (h i - l i)) by now apply Rinv_0_lt_compat.
  unfold Rdiv. split; apply Rmult_le_reg_r with (h i - l i); try exact P; rewrite Rmult_assoc, Rinv_l; lra.
Qed.

Lemma ad_fin (h l c v : lineR) n k xh xl xc xv :
  feeds h n k (fin xh) -> feeds l n k (fin xl) -> feeds c n k (fin xc) -> feeds v n k (fin xv) ->
  (forall i, (k <= i < n)%nat -> xl i <= xc i <= xh i) ->
  delivers (ad h l c v) n k
    (fun i => if Req_EM_T (xh i) (xl i) then NaN
              else Fin (total (fun j => close_position xh xl xc j * xv j) k i)).
Proof.
  intros Hh Hl Hc Hv Hb. unfold ad. cbv zeta.
  assert (M := @mfm_fin h l c n k xh xl xc Hh Hl Hc).
  set (g := fun i => if Req_EM_T (xh i) (xl i) then NaN else Fin (close_position xh xl xc i * xv i)).
  assert (D : delivers (lmul (ldiv (lsub (lsub (rbinop_s vmul (vofZ 2) c) h) l) (lsub h l)) v) n k g).
  { eapply del_ext; [| |eapply binop_delivers; [eapply delivers_feeds; exact M|exact Hv]]; [lia|].
    intros i Hi. cbv beta. unfold g, fin, close_position. specialize (Hb i Hi).
    destruct (Req_EM_T (xh i) (xl i)) as [E|E].
    - replace (xh i - xl i) with 0 by lra. replace (2 * xc i - xh i - xl i) with 0 by lra. rewrite quot_00. reflexivity.
    - rewrite quot_fin by lra. rewrite vmul_fin. f_equal. f_equal. f_equal. ring. }
  eapply delivers_ext; [|apply cumsum_gaps with (x := fun j => close_position xh xl xc j * xv j);
    [|eapply delivers_feeds; exact D]].
  - intros i Hi. cbv beta. unfold g. now destruct (Req_EM_T (xh i) (xl i)).
  - intros i _. unfold g, close_position. destruct (Req_EM_T (xh i) (xl i)) as [E|E].
    + left. split; [reflexivity|ring].
    + right. reflexivity.
Qed.

(** ** obv *)

Lemma vsign_fin r : vsign (Fin r) = Fin (if Rlt_dec 0 r then 1 else if Rlt_dec r 0 then -1 else 0).
Proof.
  unfold vsign. rewrite visnan_fin, v0_fin, v1_fin, vofZ_fin, !vltb_fin.
  destruct (Rltb_spec 0 r), (Rlt_dec 0 r); try lra; [reflexivity|].
  destruct (Rltb_spec r 0), (Rlt_dec r 0); try lra; reflexivity.
Qed.

Lemma signed_volume_sign c v q i :
  v i * (if Rlt_dec 0 (c i - c (i - q)%nat) then 1 else if Rlt_dec (c i - c (i - q)%nat) 0 then -1 else 0)
  = signed_volume c v q i.
Proof.
  unfold signed_volume.
  destruct (Rlt_dec 0 (c i - c (i - q)%nat)), (Rlt_dec (c (i - q)%nat) (c i)); try lra.
  destruct (Rlt_dec (c i - c (i - q)%nat) 0), (Rlt_dec (c i) (c (i - q)%nat)); try lra.
Qed.

Lemma obv_fin (c v : lineR) n k xc xv q :
  feeds c n k (fin xc) -> feeds v n k (fin xv) ->
  delivers (obv false q c v) n (k + q) (fin (total (signed_volume xc xv q) (k + q))).
Proof.
  intros Hc Hv. unfold obv. apply cumsum_fin. apply delivers_feeds.
  eapply del_ext; [| |eapply binop_delivers; [exact Hv|eapply delivers_feeds, mapop_delivers, delivers_feeds, diff_fin; exact Hc]]; [lia|].
  intros i _. cbv beta. unfold fin. rewrite vsign_fin, vmul_fin. f_equal. apply signed_volume_sign.
Qed.

(** with the ta-lib emulation the bar before the first change counts as a rise *)
Lemma obv_talib_fin (c v : lineR) n k xc xv q :
  feeds c n k (fin xc) -> feeds v n k (fin xv) -> (1 <= q)%nat ->
  delivers (obv true q c v) n (k + q - 1)
    (fin (total (fun i => if Nat.eqb i (k + q - 1) then xv i else signed_volume xc xv q i) (k + q - 1))).
Proof.
  intros Hc Hv Hq. unfold obv. apply cumsum_fin. apply delivers_feeds.
  assert (D := @diff_fin n c k xc q Hc). destruct D as [(M & L & F) W].
  set (d := diff c (Z.of_nat q)) in *.
  assert (P : feeds (period_ d (-1) false (Some v1)) n (k + q - 1)
     (fin (fun i => if Nat.eqb i (k + q - 1) then 1 else xc i - xc (i - q)%nat))).
  { unfold period_. cbn [Z.sub Z.eqb]. replace (-1 - 0 =? 0)%Z with false by reflexivity.
    rewrite M. replace (Z.of_nat (S (k + q)) - 1 + (-1 - 0) <? Z.of_nat (S (k + q)) - 1)%Z with true.
    2:{ symmetry. apply Z.ltb_lt. lia. }
    replace (Z.of_nat (S (k + q)) - 1 + (-1 - 0))%Z with (Z.of_nat (k + q - 1)) by lia.
    replace (Z.of_nat (S (k + q)) - 1)%Z with (Z.of_nat (k + q)) by lia.
    split; [cbn [lmp]; lia|]. cbn [lser]. split.
    - rewrite set_slice_length; [exact L|]. rewrite !slice_lo_nat. lia.
    - intros i Hi. rewrite nth_error_set_slice by lia. rewrite L.
      destruct (Nat.ltb_spec i n) as [_|]; [|lia]. unfold fin.
      destruct (Nat.leb_spec (k + q - 1) i) as [_|]; [|lia]. cbn [andb].
      destruct (Nat.ltb_spec i (k + q)) as [Hlt|Hge].
      + replace i with (k + q - 1)%nat by lia. rewrite Nat.eqb_refl, v1_fin. reflexivity.
      + destruct (Nat.eqb_spec i (k + q - 1)); [lia|]. rewrite F by lia. reflexivity. }
  eapply del_ext; [| |eapply binop_delivers; [exact Hv|eapply delivers_feeds, mapop_delivers; exact P]]; [lia|].
  intros i _. cbv beta. unfold fin. rewrite vsign_fin, vmul_fin. f_equal.
  destruct (Nat.eqb_spec i (k + q - 1)).
  - destruct (Rlt_dec 0 1); lra.
  - apply signed_volume_sign.
Qed.
