(** Property theorem C140: whole numbers are added up exactly.
    Model: IndMA.v, IndBasic.v, IndOsc.v, IndRange.v, IndVol.v, Running.v in float64; vocabulary: Spec.v, FloatSpec.v, RunSpec.v,
    RangeSpec.v, VolSpec.v, WholeSpec.v. *)
From Coq Require Import ZArith QArith Reals List Bool Lia Lra.
From Flocq Require Import Core IEEE754.BinarySingleNaN.
From Verif Require Import Num Series Line Spec LineFacts IndMA IndBasic IndOsc IndVol IndRange Float64 FloatSpec FloatFacts Running RunSpec VolSpec RangeSpec
  WholeSpec WholeFloat WholeFloat2 WholeFloat3.
Import ListNotations.
Local Open Scope R_scope.

(** ** Sums over windows, added up afresh or carried along, are exact *)
Theorem C140_sum :
  forall e, unit_fits e -> forall p (a : line float) n k f,
    (1 <= p)%nat -> feeds a n k f -> (forall i, (k <= i < n)%nat -> of_unit e (f i)) ->
    fabs (map f (seq k (n - k))) < room e ->
    exists g h, delivers (sumn p a) n (k + p - 1) g /\ delivers (sumn_run p a) n (k + p - 1) h /\
    forall i, (k + p - 1 <= i < n)%nat ->
      finite (g i) /\ val (g i) = fsum (win f i p) /\ finite (h i) /\ val (h i) = fsum (win f i p).
Proof. exact whole_sum. Qed.
Print Assumptions C140_sum.

(** ** Means are the doubles nearest to the exact means, either way *)
Theorem C140_mean :
  forall e, unit_fits e -> forall p (a : line float) n k f,
    (1 <= p)%nat -> feeds a n k f -> (forall i, (k <= i < n)%nat -> of_unit e (f i)) ->
    fabs (map f (seq k (n - k))) < room e -> (Z.of_nat p <= 2 ^ 53)%Z ->
    exists g h, delivers (sma p a) n (k + p - 1) g /\ delivers (sma_run p a) n (k + p - 1) h /\
    forall i, (k + p - 1 <= i < n)%nat ->
      finite (g i) /\ val (g i) = nearest (fsum (win f i p) / INR p) /\
      finite (h i) /\ val (h i) = nearest (fsum (win f i p) / INR p).
Proof. exact whole_mean. Qed.
Print Assumptions C140_mean.

(** ** The on balance volume of whole volumes is exact, whatever the prices *)
Theorem C140_obv :
  forall e, unit_fits e -> forall (c v : line float) n k fc fv q,
    feeds c n k fc -> feeds v n k fv ->
    (forall i, (k <= i < n)%nat -> finite (fc i) /\ of_unit e (fv i)) ->
    fabs (map fv (seq k (n - k))) < room e ->
    exists g, delivers (obv false q c v) n (k + q) g /\
    forall i, (k + q <= i < n)%nat ->
      finite (g i) /\ val (g i) = total (signed_volume (fun j => val (fc j)) (fun j => val (fv j)) q) (k + q) i.
Proof. exact whole_obv. Qed.
Print Assumptions C140_obv.

(** as ta-lib counts it: one bar more, taken as a rise *)
Theorem C140_obv_talib :
  forall e, unit_fits e -> forall (c v : line float) n k fc fv q,
    (1 <= q)%nat -> feeds c n k fc -> feeds v n k fv ->
    (forall i, (k <= i < n)%nat -> finite (fc i) /\ of_unit e (fv i)) ->
    fabs (map fv (seq k (n - k))) < room e ->
    exists g, delivers (obv true q c v) n (k + q - 1) g /\
    forall i, (k + q - 1 <= i < n)%nat ->
      finite (g i) /\
      val (g i) = total (fun j => if Nat.eqb j (k + q - 1) then val (fv j)
                                  else signed_volume (fun j => val (fc j)) (fun j => val (fv j)) q j) (k + q - 1) i.
Proof. exact whole_obv_talib. Qed.
Print Assumptions C140_obv_talib.

(** ** Momentum and true range of prices in one unit are exact *)
Theorem C140_momentum :
  forall e, unit_fits e -> forall p (a : line float) n k f,
    feeds a n k f -> (forall i, (k <= i < n)%nat -> of_unit e (f i) /\ Rabs (val (f i)) < room e / 2) ->
    exists g, delivers (mom p a) n (k + p) g /\
    forall i, (k + p <= i < n)%nat -> finite (g i) /\ val (g i) = val (f i) - val (f (i - p)%nat).
Proof. exact whole_mom. Qed.
Print Assumptions C140_momentum.
Theorem C140_true_range :
  forall e, unit_fits e -> forall q (h l c : line float) n k xh xl xc,
    (1 <= q)%nat -> feeds h n k xh -> feeds l n k xl -> feeds c n k xc ->
    (forall i, (k <= i < n)%nat -> Forall (fun x => of_unit e x /\ Rabs (val x) < room e / 2) [xh i; xl i; xc i]) ->
    exists g, delivers (truerange q h l c) n (k + q) g /\
    forall i, (k + q <= i < n)%nat -> finite (g i) /\
      val (g i) = true_range (fun j => val (xh j)) (fun j => val (xl j)) (fun j => val (xc j)) q i.
Proof. exact whole_truerange. Qed.
Print Assumptions C140_true_range.

(** ** Price averages and the balance of power are rounded once *)
Theorem C140_prices :
  forall e, unit_fits e -> forall (o h l c : line float) n k xo xh xl xc,
    feeds o n k xo -> feeds h n k xh -> feeds l n k xl -> feeds c n k xc ->
    (forall i, (k <= i < n)%nat ->
       Forall (fun x => of_unit e x /\ Rabs (val x) < room e / 4) [xo i; xh i; xl i; xc i]) ->
    exists m t a w,
      delivers (medprice (vofZ 2) h l) n k m /\ delivers (typprice (vofZ 3) h l c) n k t /\
      delivers (avgprice (vofZ 4) o h l c) n k a /\ delivers (wclprice (vofZ 2) (vofZ 4) h l c) n k w /\
      forall i, (k <= i < n)%nat ->
        Forall finite [m i; t i; a i; w i] /\
        val (m i) = nearest ((val (xh i) + val (xl i)) / 2) /\
        val (t i) = nearest ((val (xh i) + val (xl i) + val (xc i)) / 3) /\
        val (a i) = nearest ((val (xo i) + val (xh i) + val (xl i) + val (xc i)) / 4) /\
        val (w i) = nearest ((val (xh i) + val (xl i) + 2 * val (xc i)) / 4).
Proof. exact whole_prices. Qed.
Print Assumptions C140_prices.
Theorem C140_balance_of_power :
  forall e, unit_fits e -> forall (o h l c : line float) n k xo xh xl xc,
    feeds o n k xo -> feeds h n k xh -> feeds l n k xl -> feeds c n k xc ->
    (forall i, (k <= i < n)%nat ->
       Forall (fun x => of_unit e x /\ Rabs (val x) < room e / 4) [xo i; xh i; xl i; xc i]) ->
    exists b, delivers (bop o h l c) n k b /\
      forall i, (k <= i < n)%nat -> val (xh i) <> val (xl i) ->
        finite (b i) /\ val (b i) = nearest ((val (xc i) - val (xo i)) / (val (xh i) - val (xl i))).
Proof. exact whole_bop. Qed.
Print Assumptions C140_balance_of_power.

(** ** A series in quarters that meets the hypotheses *)
Lemma lit_val (x : float) m ex : B2SF x = SpecFloat.S754_finite false m ex -> finite x /\ val x = IZR (Zpos m) * bpow radix2 ex.
Proof.
  intro F. split; [unfold finite; rewrite <- is_finite_SF_B2SF, F; reflexivity|].
  unfold val. rewrite <- SF2R_B2SF, F. reflexivity.
Qed.
Definition quarters : list float := [vofQ (41 # 4); vofQ (21 # 2); vofQ (43 # 4)].
Lemma quarters_val : forall i, (i < 3)%nat -> finite (nth i quarters vnan) /\ val (nth i quarters vnan) = IZR (41 + Z.of_nat i) * bpow radix2 (-2).
Proof.
  assert (E : bpow radix2 (-2) = IZR (2 ^ 47) * bpow radix2 (-49)).
  { change (IZR (2 ^ 47)) with (bpow radix2 47). rewrite <- bpow_plus. reflexivity. }
  intros i Hi. rewrite E. clear E.
  assert (G : forall (x : float) m z, B2SF x = SpecFloat.S754_finite false m (-49) -> Zpos m = (z * 2 ^ 47)%Z ->
    finite x /\ val x = IZR z * (IZR (2 ^ 47) * bpow radix2 (-49))).
  { intros x m z F M. apply lit_val in F. rewrite M, mult_IZR in F. rewrite <- Rmult_assoc. exact F. }
  assert (S0 : B2SF (nth 0 quarters vnan) = SpecFloat.S754_finite false (41 * 2 ^ 47) (-49)) by (vm_compute; reflexivity).
  assert (S1 : B2SF (nth 1 quarters vnan) = SpecFloat.S754_finite false (42 * 2 ^ 47) (-49)) by (vm_compute; reflexivity).
  assert (S2 : B2SF (nth 2 quarters vnan) = SpecFloat.S754_finite false (43 * 2 ^ 47) (-49)) by (vm_compute; reflexivity).
  destruct i as [|[|[|i]]]; [exact (G _ _ 41%Z S0 eq_refl)|exact (G _ _ 42%Z S1 eq_refl)|exact (G _ _ 43%Z S2 eq_refl)|lia].
Qed.
Example C140_met :
  let f := fun i => nth i quarters vnan in
  unit_fits (-2) /\ feeds (raw quarters) 3 0 f /\ (forall i, (0 <= i < 3)%nat -> finite (f i) /\ of_unit (-2) (f i)) /\
  fabs (map f (seq 0 (3 - 0))) < room (-2) /\ (Z.of_nat 2 <= 2 ^ 53)%Z.
Proof.
  intro f. split; [unfold unit_fits; lia|]. split; [exact (raw_feeds quarters vnan)|].
  split. { intros i Hi. destruct (quarters_val i ltac:(lia)) as [F V]. split; [exact F|]. split; [exact F|]. eauto. }
  split; [|lia]. cbn [Nat.sub seq map fabs]. unfold f.
  assert (Q : bpow radix2 (-2) = / 4) by reflexivity.
  destruct (quarters_val 0 ltac:(lia)) as [_ ->]. destruct (quarters_val 1 ltac:(lia)) as [_ ->]. destruct (quarters_val 2 ltac:(lia)) as [_ ->].
  rewrite Q. cbn [Z.of_nat Z.add Pos.add Pos.of_succ_nat Pos.succ]. rewrite !Rabs_right by lra.
  apply Rlt_le_trans with (bpow radix2 10); [change (bpow radix2 10) with 1024; lra|apply bpow_le; lia].
Qed.
Example C140_prices_met :
  let f := fun i => nth i quarters vnan in
  forall i, (0 <= i < 3)%nat ->
    Forall (fun x => of_unit (-2) x /\ Rabs (val x) < room (-2) / 2) [f i; f i; f i] /\
    Forall (fun x => of_unit (-2) x /\ Rabs (val x) < room (-2) / 4) [f 0%nat; f 2%nat; f i; f i].
Proof.
  intros f. assert (H : forall i, (0 <= i < 3)%nat -> of_unit (-2) (f i) /\ Rabs (val (f i)) < room (-2) / 4).
  2:{ intros i Hi. pose proof (H i Hi) as [A B]. pose proof (room_pos (-2)). split; [|repeat (constructor; [apply H; lia|]); constructor].
      repeat (constructor; [split; [exact A|lra]|]). constructor. }
  intros i Hi.
  destruct (quarters_val i ltac:(lia)) as [F V]. split; [split; [exact F|eauto]|]. unfold f. rewrite V.
  assert (Q : bpow radix2 (-2) = / 4) by reflexivity. rewrite Q.
  assert (R10 : 1024 <= room (-2)) by (change 1024 with (bpow radix2 10); apply bpow_le; lia).
  assert (41 <= IZR (41 + Z.of_nat i) <= 44) by (split; apply IZR_le; lia). rewrite Rabs_right by lra. lra.
Qed.
Example C140_run :
  map B2SF (lser (sumn_run 2 (raw quarters))) = map B2SF [vnan; vofQ (83 # 4); vofQ (85 # 4)] /\
  map B2SF (lser (obv false 1 (raw quarters) (raw quarters))) = map B2SF [vnan; vofQ (21 # 2); vofQ (85 # 4)] /\
  map B2SF (lser (obv true 1 (raw quarters) (raw quarters))) = map B2SF [vofQ (41 # 4); vofQ (83 # 4); vofQ (63 # 2)] /\
  map B2SF (lser (truerange 1 (raw quarters) (raw quarters) (raw quarters))) = map B2SF [vnan; vofQ (1 # 4); vofQ (1 # 4)].
Proof. repeat split; vm_compute; reflexivity. Qed.
(** the room is needed: one more than 2^53 shares, sold again but for one, leave none *)
Example C140_no_room :
  let v : list float := [vofZ 1; vofZ 9007199254740992; vofZ 1; vofZ 9007199254740992] in
  map B2SF (lser (obv false 1 (raw [vofZ 1; vofZ 2; vofZ 3; vofZ 2]) (raw v)))
  = map B2SF [vnan; vofZ 9007199254740992; vofZ 9007199254740992; v0].
Proof. vm_compute. reflexivity. Qed.
