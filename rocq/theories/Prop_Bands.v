(** Property theorem C135: Bollinger bands keep their order in double precision, and are as wide as the window says.
    Model: IndStat.v and RunVar.v (the carried variances of pandas 1.0) over Float64.v; vocabulary: Spec.v,
    FloatSpec.v, BandSpec64.v. *)
From Coq Require Import ZArith Reals List Bool Lia Lra.
From Flocq Require Import Core IEEE754.BinarySingleNaN.
From Verif Require Import Num Series Line Spec LineFacts IndMA IndStat Float64 FloatSpec FloatFacts RunSpec RunMean RunVar RunVarFacts BandSpec64
  BandsFloat BandsFlat.
Import ListNotations.
Local Open Scope R_scope.

(** ** With exact numbers the carried variances are the variances of the windows *)
Theorem C135_exact :
  forall p ddof (a : line (ext R)), (1 <= p)%nat ->
    var_run p ddof a = var p ddof a /\ stddev_run p ddof a = stddev p ddof a /\
    forall devs ma sd, bbands_run p devs ma a = bbands p devs ma sd a.
Proof.
  exact (fun p ddof a H => conj (@var_run_exact p ddof a H) (conj (@stddev_run_exact p ddof a H)
    (fun devs ma sd => @bbands_run_exact p devs ma sd a H))).
Qed.
Print Assumptions C135_exact.
Example C135_exact_met : nth_error (lser (var_run 2 0 (raw [Fin 2; Fin 4; Fin 8 : ext R]))) 2 = Some (Fin 4).
Proof.
  destruct (@C135_exact 2 0 (raw [Fin 2; Fin 4; Fin 8]) ltac:(lia)) as [-> _].
  pose proof (raw_feeds [Fin 2; Fin 4; Fin 8 : ext R] NaN) as H. apply (rolling_delivers (w := 2) (win_var 0)) in H; [|lia].
  destruct H as [(_ & _ & H) _].
  unfold var. rewrite (H 2%nat) by (cbn; lia). f_equal. unfold guard_win, win. cbn [seq map nth prep visinf NumExt existsb visnan orb].
  change (win_var 0 [Fin 4; Fin 8 : ext R] = Fin 4).
  change [Fin 4; Fin 8 : ext R] with (map Fin [4; 8]). rewrite <- (@var_calc 2 0 [4; 8] ltac:(lia) eq_refl).
  unfold calc_var, vs_of, rss, rsq. cbn [w_nobs w_ss]. rewrite RunFacts.parts_fin. cbn [length Nat.leb Nat.ltb Nat.eqb andb map RunFacts.rsum].
  change (vofZ (Z.of_nat 2 - Z.of_nat 0) : ext R) with (Fin 2 : ext R). rewrite RFacts.vdiv_fin by lra.
  set (q := _ / 2). assert (Q : q = 4) by (unfold q; cbn [INR]; lra). rewrite Q. change (vltb (Fin 4 : ext R) v0) with (Rltb 4 0).
  destruct (RFacts.Rltb_spec 4 0); [lra|reflexivity].
Qed.

(** ** The order *)
(** for every feed, average and factor that is not negative: a band that is not missing is on its side of the middle,
    with deviations of windows taken afresh and with carried ones *)
Theorem C135_order :
  forall (T : NumT float), rounded_sqrt T ->
  forall p devs ma sd (a mid top bot : line float), nonneg devs ->
    (bbands p devs ma sd a = Ok (mid, top, bot) \/ bbands_run p devs ma a = Ok (mid, top, bot)) ->
    forall i m t b, nth_error (lser mid) i = Some m -> nth_error (lser top) i = Some t -> nth_error (lser bot) i = Some b ->
    (~ missing t -> at_most m t) /\ (~ missing b -> at_most b m).
Proof.
  exact (fun T HT p devs ma sd a mid top bot Hd E => match E with
    | or_introl E => @bands_ordered T HT p devs ma sd a mid top bot Hd E | or_intror E => @bands_run_ordered T HT p devs ma a mid top bot Hd E end).
Qed.
Print Assumptions C135_order.

(** ** The width *)
(** prices that were equal from the first bar on: deviation 0, and both bands on the middle *)
Theorem C135_flat_partial :
  forall (T : NumT float), rounded_sqrt T ->
  forall (x : float) p (a : line float) n k f,
    finite x -> Rabs (val x) <= bpow radix2 500 -> (1 <= p)%nat -> (Z.of_nat p <= 2 ^ 40)%Z ->
    feeds a n k f -> (forall i, (k <= i < n)%nat -> f i = x) ->
    (forall ddof, (ddof < p)%nat -> exists g, delivers (stddev_run p ddof a) n (k + p - 1) g /\
       forall i, (k + p - 1 <= i < n)%nat -> finite (g i) /\ val (g i) = 0) /\
    (forall mid m devs ma, finite devs -> ma p a = Ok mid -> delivers mid n (k + p - 1) m ->
     exists top bot t b, bbands_run p devs ma a = Ok (mid, top, bot) /\ delivers top n (k + p - 1) t /\ delivers bot n (k + p - 1) b /\
       forall i, (k + p - 1 <= i < n)%nat -> finite (m i) -> finite (t i) /\ val (t i) = val (m i) /\ finite (b i) /\ val (b i) = val (m i)).
Proof.
  exact (fun T HT x p a n k f Fx Bx Hp H40 Ha Hf => conj
    (fun ddof Hd => @stddev_flat x p ddof Fx Bx Hp H40 T HT a n k f Ha Hd Hf)
    (fun mid m devs ma Fd Em Dm => @bands_flat T x p a mid n k f m devs ma HT Fx Bx Hp H40 Ha Hf Fd Em Dm)).
Qed.
Print Assumptions C135_flat_partial.
(** not so when they differed before: 7.0, then 7.1 for ever, period 2, and the deviation never becomes 0 *)
Theorem C135_flat_refuted :
  forall (T : NumT float), rounded_sqrt T ->
  let x : float := vofQ (QArith_base.Qmake 70 10) in let y : float := vofQ (QArith_base.Qmake 71 10) in
  exists v, finite v /\ 0 < val v /\
    forall i, (2 <= i)%nat -> nth_error (lser (stddev_run 2 0 (raw (x :: repeat y i)))) i = Some v.
Proof. exact dev_stays. Qed.
Print Assumptions C135_flat_refuted.
(** a price of 1000000000 that has left the window closes the bands around moving prices for ever *)
Theorem C135_closed_refuted :
  forall i, (2 <= i)%nat ->
    let s : list float := vofZ 1000000000 :: turns (vofZ 1) (vofZ 2) i in
    nth_error (lser (var_run 2 0 (raw s))) i = Some v0 /\
    exists q, nth_error (lser (var 2 0 (raw s))) i = Some q /\ finite q /\ val q = / 4.
Proof. exact (fun i H => conj (proj1 (@var_shut i H)) (ex_intro _ quarter (conj (proj2 (@var_shut i H)) (proj2 (proj2 quarter_ok))))). Qed.
Print Assumptions C135_closed_refuted.
(** and one of 10000000000000000 opens them by 67108864 *)
Theorem C135_open_refuted :
  forall i, (2 <= i)%nat ->
    let s : list float := vofZ 10000000000000000 :: turns (vofZ 1) (vofZ 2) i in
    nth_error (lser (var_run 2 0 (raw s))) i = Some (vofZ 4503599627370496) /\
    exists q, nth_error (lser (var 2 0 (raw s))) i = Some q /\ finite q /\ val q = / 4.
Proof. exact (fun i H => conj (proj1 (@var_wide i H)) (ex_intro _ quarter (conj (proj2 (@var_wide i H)) (proj2 (proj2 quarter_ok))))). Qed.
Print Assumptions C135_open_refuted.
Example C135_refuted_met : (2 <= 1000)%nat. Proof. lia. Qed.

(** an instance with the rounded square root; the other functions are not used by the bands *)
Definition roots : NumT float := {|
  vsqrt := Bsqrt mode_NE; vexp := fun _ => vnan; vln := fun _ => vnan; vsin := fun _ => vnan; vcos := fun _ => vnan;
  vtan := fun _ => vnan; vatan := fun _ => vnan; vasin := fun _ => vnan; vacos := fun _ => vnan; vpi := vnan |}.
Lemma roots_rounded : rounded_sqrt roots. Proof. intro x. reflexivity. Qed.
Lemma two_nonneg : nonneg (vofZ 2).
Proof. destruct (@fofZ_exact 2 ltac:(lia)) as [F E]. apply finite_nonneg; [exact F|rewrite E; lra]. Qed.
Example C135_order_met : exists mid top bot m t b,
  bbands_run (T := roots) 2 (vofZ 2) sma_ (raw [vofZ 10; vofZ 12; vofZ 11 : float]) = Ok (mid, top, bot) /\
  nth_error (lser mid) 2 = Some m /\ nth_error (lser top) 2 = Some t /\ nth_error (lser bot) 2 = Some b /\
  ~ missing t /\ ~ missing b /\ at_most m t /\ at_most b m.
Proof.
  remember (bbands_run (T := roots) 2 (vofZ 2) sma_ (raw [vofZ 10; vofZ 12; vofZ 11 : float])) as o eqn:E.
  assert (Q : match o with
    | Ok (mid, top, bot) => match nth_error (lser mid) 2, nth_error (lser top) 2, nth_error (lser bot) 2 with
        | Some _, Some t, Some b => negb (is_nan t) && negb (is_nan b) | _, _, _ => false end
    | Raise _ => false end = true) by (subst o; vm_compute; reflexivity).
  destruct o as [[[mid top] bot]|]; [|discriminate]. destruct (nth_error (lser mid) 2) as [m|] eqn:E1; [|discriminate].
  destruct (nth_error (lser top) 2) as [t|] eqn:E2; [|discriminate]. destruct (nth_error (lser bot) 2) as [b|] eqn:E3; [|discriminate].
  apply andb_prop in Q. destruct Q as [Q1 Q2]. apply negb_true_iff in Q1, Q2.
  assert (N1 : ~ missing t) by (unfold missing; rewrite Q1; discriminate). assert (N2 : ~ missing b) by (unfold missing; rewrite Q2; discriminate).
  destruct (C135_order roots roots_rounded 2 (vofZ 2) sma_ sma_ _ mid top bot two_nonneg (or_intror (eq_sym E)) 2%nat m t b E1 E2 E3) as [O1 O2].
  exists mid, top, bot, m, t, b. auto 12.
Qed.
Example C135_flat_met := proj1 (C135_flat_partial roots roots_rounded (vofZ 1) 2 (raw [vofZ 1; vofZ 1; vofZ 1]) 3 0 _ eq_refl
  ltac:(destruct val1 as [_ ->]; rewrite Rabs_R1; change 1 with (bpow radix2 0); apply bpow_le; lia) ltac:(lia) ltac:(lia)
  (raw_feeds [vofZ 1; vofZ 1; vofZ 1] vnan)
  ltac:(intros [|[|[|i]]] H; [reflexivity|reflexivity|reflexivity|lia])) 0%nat ltac:(lia).
