(** Averages and quotients of prices in one unit are rounded once. *)
From Coq Require Import ZArith Reals List Bool Lia Lra.
From Flocq Require Import Core IEEE754.BinarySingleNaN.
From Verif Require Import Num Series Line Spec LineFacts IndMA IndBasic IndOsc Float64 FloatSpec FloatFacts
  RunSpec RunFloat WholeSpec WholeFloat WholeFloat2.
Import ListNotations.
Set Implicit Arguments.
Local Open Scope R_scope.

Section Unit.
  Variable e : Z.
  Hypothesis U : unit_fits e.
  Notation ex := (ex e).
  Definition quarter (x : float) : Prop := of_unit e x /\ Rabs (val x) < room e / 4.

  Lemma near_quot a S b T : ex a S -> finite b -> val b = T -> T <> 0 -> Rabs (S / T) <= limit ->
    finite (vdiv a b) /\ val (vdiv a b) = nearest (S / T).
  Proof.
    intros (F & V & _) Fb Vb NT B. destruct (@div_in (opp (big 1010)) (big 1010) a b) as (A & FA & _); [exact F|now rewrite Vb| |].
    { rewrite V, Vb. now apply big_limit. }
    split; [exact FA|]. rewrite A, V, Vb. reflexivity.
  Qed.
  Lemma near_const a S (z : Z) : ex a S -> Rabs S < room e -> (1 <= z <= 4)%Z ->
    finite (vdiv a (vofZ z)) /\ val (vdiv a (vofZ z)) = nearest (S / IZR z).
  Proof.
    intros H B Hz. destruct (fofZ_exact z) as [Fz Vz]; [lia|]. assert (Z1 : 1 <= IZR z) by (apply IZR_le; lia).
    apply near_quot; auto; [lra|]. pose proof (room_limit U). unfold Rdiv. rewrite Rabs_mult, (Rabs_right (/ IZR z)) by (apply Rle_ge, Rlt_le, Rinv_0_lt_compat; lra).
    apply Rle_trans with (Rabs S); [|lra]. rewrite <- (Rmult_1_r (Rabs S)) at 2. apply Rmult_le_compat_l; [apply Rabs_pos|].
    rewrite <- Rinv_1. apply Rinv_le_contravar; lra.
  Qed.
  Lemma whole_prices (o h l c : line float) n k xo xh xl xc :
    feeds o n k xo -> feeds h n k xh -> feeds l n k xl -> feeds c n k xc ->
    (forall i, (k <= i < n)%nat -> Forall quarter [xo i; xh i; xl i; xc i]) ->
    exists m t a w,
      delivers (medprice (vofZ 2) h l) n k m /\ delivers (typprice (vofZ 3) h l c) n k t /\
      delivers (avgprice (vofZ 4) o h l c) n k a /\ delivers (wclprice (vofZ 2) (vofZ 4) h l c) n k w /\
      forall i, (k <= i < n)%nat ->
        Forall finite [m i; t i; a i; w i] /\
        val (m i) = nearest ((val (xh i) + val (xl i)) / 2) /\
        val (t i) = nearest ((val (xh i) + val (xl i) + val (xc i)) / 3) /\
        val (a i) = nearest ((val (xo i) + val (xh i) + val (xl i) + val (xc i)) / 4) /\
        val (w i) = nearest ((val (xh i) + val (xl i) + 2 * val (xc i)) / 4).
  Proof.
    intros Ho Hh Hl Hc Hf.
    pose proof (binop_delivers vadd Hh Hl) as Dhl. rewrite Nat.max_id in Dhl.
    pose proof (binop_delivers vadd (delivers_feeds Dhl) Hc) as Dhlc. rewrite Nat.max_id in Dhlc.
    pose proof (binop_delivers vadd Ho Hh) as Doh. rewrite Nat.max_id in Doh.
    pose proof (binop_delivers vadd (delivers_feeds Doh) Hl) as Dohl. rewrite Nat.max_id in Dohl.
    pose proof (binop_delivers vadd (delivers_feeds Dohl) Hc) as Dohlc. rewrite Nat.max_id in Dohlc.
    pose proof (binop_delivers vadd (delivers_feeds Dhl) (delivers_feeds (binop_s_delivers vmul (vofZ 2) Hc))) as Dw. rewrite Nat.max_id in Dw.
    eexists _, _, _, _.
    split; [exact (binop_s_delivers vdiv (vofZ 2) (delivers_feeds Dhl))|].
    split; [exact (binop_s_delivers vdiv (vofZ 3) (delivers_feeds Dhlc))|].
    split; [exact (binop_s_delivers vdiv (vofZ 4) (delivers_feeds Dohlc))|].
    split; [exact (binop_s_delivers vdiv (vofZ 4) (delivers_feeds Dw))|].
    intros i Hi. cbv beta. specialize (Hf i Hi). rewrite !Forall_cons_iff in Hf. destruct Hf as ((Uo & Bo) & (Uh & Bh) & (Ul & Bl) & (Uc & Bc) & _).
    set (O := val (xo i)) in *. set (H := val (xh i)) in *. set (L := val (xl i)) in *. set (C := val (xc i)) in *.
    apply ex_of in Uo, Uh, Ul, Uc. fold O H L C in Uo, Uh, Ul, Uc.
    apply Rabs_def2 in Bo, Bh, Bl, Bc. pose proof (room_pos e) as RP.
    assert (A1 : ex (vadd (xh i) (xl i)) (H + L)) by (apply ex_add; auto; apply Rabs_def1; lra).
    assert (A2 : ex (vadd (vadd (xh i) (xl i)) (xc i)) (H + L + C)) by (apply ex_add; auto; apply Rabs_def1; lra).
    assert (A3 : ex (vadd (xo i) (xh i)) (O + H)) by (apply ex_add; auto; apply Rabs_def1; lra).
    assert (A4 : ex (vadd (vadd (xo i) (xh i)) (xl i)) (O + H + L)) by (apply ex_add; auto; apply Rabs_def1; lra).
    assert (A5 : ex (vadd (vadd (vadd (xo i) (xh i)) (xl i)) (xc i)) (O + H + L + C)) by (apply ex_add; auto; apply Rabs_def1; lra).
    assert (A6 : ex (vmul (xc i) (vofZ 2)) (2 * C)).
    { destruct Uc as (F & V & z & E). destruct (fofZ_exact 2) as [F2 V2]; [vm_compute; discriminate|].
      assert (Z : 2 * C = IZR (2 * z) * bpow radix2 e) by (rewrite mult_IZR, E; ring).
      pose proof (room_limit U). destruct (@mul_in (opp (big 1010)) (big 1010) (xc i) (vofZ 2) F F2) as (A & FA & _).
      { rewrite V, V2. apply big_limit. apply Rlt_le, Rabs_def1; lra. }
      split; [exact FA|]. split; [|eauto]. rewrite A, V, V2, Rmult_comm, Z. apply unit_rn; [exact U|]. rewrite <- Z. apply Rabs_def1; lra. }
    assert (A7 : ex (vadd (vadd (xh i) (xl i)) (vmul (xc i) (vofZ 2))) (H + L + 2 * C)) by (apply ex_add; auto; apply Rabs_def1; lra).
    destruct (@near_const _ _ 2 A1) as [F1 V1]; [apply Rabs_def1; lra|lia|].
    destruct (@near_const _ _ 3 A2) as [F2 V2]; [apply Rabs_def1; lra|lia|].
    destruct (@near_const _ _ 4 A5) as [F3 V3]; [apply Rabs_def1; lra|lia|].
    destruct (@near_const _ _ 4 A7) as [F4 V4]; [apply Rabs_def1; lra|lia|].
    repeat split; auto.
  Qed.
  (** the balance of power is the double nearest to the exact quotient *)
  Lemma whole_bop (o h l c : line float) n k xo xh xl xc :
    feeds o n k xo -> feeds h n k xh -> feeds l n k xl -> feeds c n k xc ->
    (forall i, (k <= i < n)%nat -> Forall quarter [xo i; xh i; xl i; xc i]) ->
    exists b, delivers (bop o h l c) n k b /\
      forall i, (k <= i < n)%nat -> val (xh i) <> val (xl i) ->
        finite (b i) /\ val (b i) = nearest ((val (xc i) - val (xo i)) / (val (xh i) - val (xl i))).
  Proof.
    intros Ho Hh Hl Hc Hf.
    pose proof (binop_delivers vsub Hc Ho) as D1. rewrite Nat.max_id in D1.
    pose proof (binop_delivers vsub Hh Hl) as D2. rewrite Nat.max_id in D2.
    pose proof (binop_delivers vdiv (delivers_feeds D1) (delivers_feeds D2)) as D3. rewrite Nat.max_id in D3.
    eexists. split; [exact D3|]. intros i Hi Ne. cbv beta. specialize (Hf i Hi). rewrite !Forall_cons_iff in Hf.
    destruct Hf as ((Uo & Bo) & (Uh & Bh) & (Ul & Bl) & (Uc & Bc) & _).
    set (O := val (xo i)) in *. set (H := val (xh i)) in *. set (L := val (xl i)) in *. set (C := val (xc i)) in *.
    apply ex_of in Uo, Uh, Ul, Uc. fold O H L C in Uo, Uh, Ul, Uc.
    apply Rabs_def2 in Bo, Bh, Bl, Bc. pose proof (room_pos e) as RP.
    assert (A1 : ex (vsub (xc i) (xo i)) (C - O)) by (apply ex_sub; auto; apply Rabs_def1; lra).
    assert (A2 : ex (vsub (xh i) (xl i)) (H - L)) by (apply ex_sub; auto; apply Rabs_def1; lra).
    assert (N : H - L <> 0) by lra. destruct A2 as (F2 & V2 & z & E2).
    apply near_quot; auto.
    assert (Zn : 1 <= Rabs (IZR z)).
    { rewrite <- abs_IZR. apply IZR_le. assert (z <> 0%Z) by (intros ->; rewrite Rmult_0_l in E2; contradiction). lia. }
    assert (B0 := bpow_gt_0 radix2 e). assert (Rabs (C - O) <= room e) by (apply Rlt_le, Rabs_def1; lra).
    unfold Rdiv. rewrite Rabs_mult, Rabs_inv, E2, Rabs_mult, (Rabs_right (bpow radix2 e)) by lra.
    apply Rle_trans with (room e * / bpow radix2 e).
    - apply Rmult_le_compat; [apply Rabs_pos| |assumption|].
      + apply Rlt_le, Rinv_0_lt_compat, Rmult_lt_0_compat; lra.
      + apply Rinv_le_contravar; [exact B0|]. rewrite <- (Rmult_1_l (bpow radix2 e)) at 1. apply Rmult_le_compat_r; lra.
    - unfold room, limit. rewrite <- bpow_opp, <- bpow_plus. apply bpow_le. lia.
  Qed.
End Unit.
