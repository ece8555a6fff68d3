(** More calculations that are exact for multiples of one unit. *)
From Coq Require Import ZArith Reals List Bool Lia Lra.
From Flocq Require Import Core IEEE754.BinarySingleNaN.
From Verif Require Import Num Series Line Spec LineFacts ScanFacts IndMA IndBasic IndOsc IndVol IndRange Float64 FloatSpec FloatFacts FloatLine FloatAvg
  PropFloatFacts Running RunSpec RunFacts RunFloat RunMean VolSpec VolFacts FlatFloat RSpec RangeSpec OpFacts RLineFacts DirFloat2 WholeSpec WholeFloat.
Import ListNotations.
Set Implicit Arguments.
Local Open Scope R_scope.

Section Unit.
  Variable e : Z.
  Hypothesis U : unit_fits e.

  Lemma half_sub x y : of_unit e x -> of_unit e y -> Rabs (val x) < room e / 2 -> Rabs (val y) < room e / 2 ->
    finite (vsub x y) /\ val (vsub x y) = val x - val y.
  Proof.
    intros Ux Uy Bx By. destruct (@ex_sub e U x (val x) y (val y)) as (F & V & _); [now apply ex_of|now apply ex_of| |auto].
    unfold Rminus. eapply Rle_lt_trans; [apply Rabs_triang|]. rewrite Rabs_Ropp. lra.
  Qed.
  Lemma whole_mom p (a : line float) n k f :
    feeds a n k f -> (forall i, (k <= i < n)%nat -> of_unit e (f i) /\ Rabs (val (f i)) < room e / 2) ->
    exists g, delivers (mom p a) n (k + p) g /\
    forall i, (k + p <= i < n)%nat -> finite (g i) /\ val (g i) = val (f i) - val (f (i - p)%nat).
  Proof.
    intros Ha Hf. eexists. split; [apply diff_delivers; [exact nan_sub|exact Ha]|].
    intros i Hi. cbv beta. destruct (Hf i ltac:(lia)). destruct (Hf (i - p)%nat ltac:(lia)). now apply half_sub.
  Qed.
  Lemma unit_pick (P : float -> Prop) (b : bool) x y : P x -> P y -> P (if b then x else y).
  Proof. now destruct b. Qed.
  Lemma clip_lo_keep (P : float -> Prop) t x : P x -> P t -> P (clip_lo t x).
  Proof. intros. unfold clip_lo. destruct (visnan x); [auto|]. now apply unit_pick. Qed.
  Lemma clip_hi_keep (P : float -> Prop) t x : P x -> P t -> P (clip_hi t x).
  Proof. intros. unfold clip_hi. destruct (visnan x); [auto|]. now apply unit_pick. Qed.
  Lemma whole_truerange q (h l c : line float) n k xh xl xc :
    (1 <= q)%nat -> feeds h n k xh -> feeds l n k xl -> feeds c n k xc ->
    (forall i, (k <= i < n)%nat -> Forall (fun x => of_unit e x /\ Rabs (val x) < room e / 2) [xh i; xl i; xc i]) ->
    exists g, delivers (truerange q h l c) n (k + q) g /\
    forall i, (k + q <= i < n)%nat -> finite (g i) /\
      val (g i) = true_range (fun j => val (xh j)) (fun j => val (xl j)) (fun j => val (xc j)) q i.
  Proof.
    intros Hq Hh Hl Hc Hf. unfold truerange, lclip_lo_l, lclip_hi_l. pose proof (delivers_feeds (at_ago_delivers Hc Hq)) as D1.
    exists (fun i => vsub (clip_lo (xh i) (xc (i - q)%nat)) (clip_hi (xl i) (xc (i - q)%nat))). split.
    - eapply del_ext; [| |apply binop_delivers; apply delivers_feeds; eapply stdop2_delivers; try eassumption; cbv zeta; apply map2_map_seq]; [lia|].
      reflexivity.
    - intros i Hi. pose proof (Hf i ltac:(lia)) as F1. pose proof (Hf (i - q)%nat ltac:(lia)) as F2.
      inversion F1 as [|? ? Ph F1']; subst. inversion F1' as [|? ? Pl _]; subst.
      inversion F2 as [|? ? _ F2']; subst. inversion F2' as [|? ? _ F2'']; subst. inversion F2'' as [|? ? Pc _]; subst.
      destruct (clip_lo_val (proj1 (proj1 Ph)) (proj1 (proj1 Pc))) as [_ E1]. destruct (clip_hi_val (proj1 (proj1 Pl)) (proj1 (proj1 Pc))) as [_ E2].
      pose proof (@clip_lo_keep (fun x => of_unit e x /\ Rabs (val x) < room e / 2) _ _ Pc Ph) as [A1 B1].
      pose proof (@clip_hi_keep (fun x => of_unit e x /\ Rabs (val x) < room e / 2) _ _ Pc Pl) as [A2 B2].
      cbv beta. unfold true_range. rewrite <- E1, <- E2. now apply half_sub.
  Qed.

  Lemma signed_ex (x y v : float) : finite x -> finite y -> of_unit e v -> Rabs (val v) < room e ->
    ex e (vmul v (vsign (vsub x y))) (if Rlt_dec (val y) (val x) then val v else if Rlt_dec (val x) (val y) then - val v else 0).
  Proof.
    intros Fx Fy Uv B. rewrite (vsign_cmp Fx Fy). destruct (Rlt_dec (val y) (val x)) as [L|L].
    - rewrite (proj2 (ltb_iff Fy Fx) L). replace (val v) with (val v * 1) by ring.
      apply (@mul_small e U v 1 (val v)); [lia|now apply ex_of|exact B].
    - destruct (vltb y x) eqn:E; [apply ltb_iff in E; auto; lra|].
      destruct (Rlt_dec (val x) (val y)) as [M|M].
      + rewrite (proj2 (ltb_iff Fx Fy) M). replace (- val v) with (val v * -1) by ring.
        apply (@mul_small e U v (-1) (val v)); [lia|now apply ex_of|exact B].
      + destruct (vltb x y) eqn:E'; [apply ltb_iff in E'; auto; lra|].
        replace 0 with (val v * 0) by ring.
        apply (@mul_small e U v 0 (val v)); [lia|now apply ex_of|exact B].
  Qed.
  (** the on balance volume the way ta-lib counts: one bar more, taken as a rise *)
  Lemma whole_obv_talib (c v : line float) n k fc fv q :
    (1 <= q)%nat -> feeds c n k fc -> feeds v n k fv ->
    (forall i, (k <= i < n)%nat -> finite (fc i) /\ of_unit e (fv i)) ->
    fabs (map fv (seq k (n - k))) < room e ->
    exists g, delivers (obv true q c v) n (k + q - 1) g /\
    forall i, (k + q - 1 <= i < n)%nat ->
      finite (g i) /\ val (g i) = total (fun j => if Nat.eqb j (k + q - 1) then val (fv j)
        else signed_volume (fun j => val (fc j)) (fun j => val (fv j)) q j) (k + q - 1) i.
  Proof.
    intros Hq Hc Hv Hf HM. unfold obv.
    pose proof (@diff_delivers _ _ c n k q fc nan_sub Hc) as [(M & L & F) W].
    set (d := diff c (Z.of_nat q)) in *.
    set (w := fun i => if Nat.eqb i (k + q - 1) then v1 else vsub (fc i) (fc (i - q)%nat) : float).
    assert (P : feeds (period_ d (-1) false (Some v1)) n (k + q - 1) w).
    { unfold period_. cbn [Z.sub Z.eqb]. replace (-1 - 0 =? 0)%Z with false by reflexivity.
      rewrite M. replace (Z.of_nat (S (k + q)) - 1 + (-1 - 0) <? Z.of_nat (S (k + q)) - 1)%Z with true.
      2:{ symmetry. apply Z.ltb_lt. lia. }
      replace (Z.of_nat (S (k + q)) - 1 + (-1 - 0))%Z with (Z.of_nat (k + q - 1)) by lia.
      replace (Z.of_nat (S (k + q)) - 1)%Z with (Z.of_nat (k + q)) by lia.
      split; [cbn [lmp]; lia|]. cbn [lser]. split.
      - rewrite set_slice_length; [exact L|]. rewrite !slice_lo_nat. lia.
      - intros i Hi. rewrite nth_error_set_slice by lia. rewrite L. unfold w.
        destruct (Nat.ltb_spec i n) as [_|]; [|lia].
        destruct (Nat.leb_spec (k + q - 1) i) as [_|]; [|lia]. cbn [andb].
        destruct (Nat.ltb_spec i (k + q)) as [Hlt|Hge].
        + replace i with (k + q - 1)%nat by lia. rewrite Nat.eqb_refl. reflexivity.
        + destruct (Nat.eqb_spec i (k + q - 1)); [lia|]. rewrite F by lia. reflexivity. }
    pose proof (mapop_delivers vsign P) as Ds.
    pose proof (binop_delivers vmul Hv (delivers_feeds Ds)) as Dm. replace (Nat.max k (k + q - 1)) with (k + q - 1)%nat in Dm by lia.
    assert (B : forall i, (k <= i < n)%nat -> Rabs (val (fv i)) < room e).
    { intros i Hi. eapply Rle_lt_trans; [|exact HM]. pose proof (@total_fabs fv i k n i ltac:(lia) ltac:(lia) ltac:(lia)) as T. now rewrite total_first in T. }
    destruct (@cum_line e U (fun i => vmul (fv i) (vsign (w i)))
      (fun j => if Nat.eqb j (k + q - 1) then val (fv j) else signed_volume (fun j => val (fc j)) (fun j => val (fv j)) q j) (k + q - 1) n)
      with (a := lmul v (mapop vsign (period_ d (-1) false (Some v1)))) as (g & Dg & Hg).
    - intros i Hi. destruct (Hf i ltac:(lia)) as [Fc Uv]. unfold w. destruct (Nat.eqb_spec i (k + q - 1)) as [->|Ne].
      + replace (val (fv (k + q - 1)%nat)) with (val (fv (k + q - 1)%nat) * 1) by ring.
        apply (@mul_small e U _ 1 (val (fv (k + q - 1)%nat))); [lia|now apply ex_of|apply B; lia].
      + destruct (Hf (i - q)%nat ltac:(lia)) as [Fc' _]. apply signed_ex; auto. apply B. lia.
    - intros i Hi. eapply Rle_lt_trans; [|exact HM].
      eapply Rle_trans; [|apply (@total_fabs fv (k + q - 1) k n i); lia]. apply total_size. intros j Hj. unfold signed_volume.
      destruct (Nat.eqb j (k + q - 1)); [lra|].
      destruct (Rlt_dec _ _); [lra|]. destruct (Rlt_dec _ _); [rewrite Rabs_Ropp; lra|]. rewrite Rabs_R0. apply Rabs_pos.
    - apply delivers_feeds. exact Dm.
    - exists g. auto.
  Qed.
End Unit.
