(** Property theorems C106 to C112: the indicators on float64 numbers (IEEE 754 doubles, every
    operation rounded to nearest, ties to even).
    Models: Float64.v instantiates the same definitions (Ind*.v, Catalog.v) that the other
    files use with exact numbers; vocabulary: Spec.v, FloatSpec.v, CatalogSpec.v. *)
From Coq Require Import ZArith Reals List Bool Lia Lra.
From Flocq Require Import Core IEEE754.BinarySingleNaN.
From Verif Require Import Num Series Line Spec LineFacts WarmFacts IndMA IndBasic IndStat IndRange IndOsc Apply
  Catalog CatalogSpec PropCatalogFacts Float64 FloatSpec FloatFacts FloatAvg FloatExact PropFloatFacts FilterFloat.
Import ListNotations.
Local Open Scope R_scope.

(** doubles used in the examples *)
Definition f10 : float := vofZ 10.
Definition f11 : float := vofZ 11.
Definition f12 : float := vofZ 12.
Lemma int_usual z : (0 <= z <= 1000)%Z -> usual (vofZ z) /\ val (vofZ z) = IZR z.
Proof.
  intro H. assert (P : (1000 < 2 ^ 53)%Z) by reflexivity. destruct (fofZ_exact z) as [F V]; [lia|]. split; [|exact V].
  assert (0 <= IZR z <= 1000) by (split; apply IZR_le; lia).
  assert (1000 <= bpow radix2 999) by (apply Rle_trans with (bpow radix2 10); [cbn; lra|apply bpow_le; lia]).
  split; [exact F|]. rewrite V. lra.
Qed.

(** ** C106: minimum periods, warm-up and no repaint with rounding *)
Theorem C106_no_repaint_partial :
  forall (T : NumT float) n n' (env env' : list (line float)) steps outs,
    (n <= n')%nat ->
    Forall2 (fun x x' => (1 <= lmp x)%Z /\ length (lser x) = n /\ length (lser x') = n' /\
                         extends x x') env env' ->
    Forall (fun s => valid (fst s) /\ ~ cyclic (fst s)) steps ->
    session env steps = Ok outs ->
    exists outs', session env' steps = Ok outs' /\ Forall2 extends outs outs'.
Proof. exact float_no_repaint. Qed.
Print Assumptions C106_no_repaint_partial.
Theorem C106_minperiods :
  forall (T : NumT float) n (env : list (line float)) steps outs,
    Forall (fun x => (1 <= lmp x)%Z /\ length (lser x) = n) env ->
    Forall (fun s => valid (fst s)) steps ->
    session env steps = Ok outs ->
    map (@lmp float) outs = session_mps (map (@lmp float) env) steps /\
    Forall (fun l => length (lser l) = n) outs /\
    exists new, outs = env ++ new.
Proof. exact float_minperiods. Qed.
Print Assumptions C106_minperiods.
Theorem C106_warm_up :
  forall (T : NumT float) n (env : list (line float)) steps outs,
    Forall (fun x => (1 <= lmp x)%Z /\ length (lser x) = n) env ->
    Forall (fun s => valid (fst s) /\ plain (fst s) = true) steps ->
    session env steps = Ok outs ->
    forall j l, (length env <= j)%nat -> nth_error outs j = Some l ->
    forall i, (Z.of_nat i < lmp l - 1)%Z -> (i < n)%nat ->
    exists x, nth_error (lser l) i = Some x /\ missing x.
Proof. exact float_warm. Qed.
Print Assumptions C106_warm_up.
Definition fsteps : list (step float) :=
  [ (XRsi (ASmma SEED_AVG) 2 1, [0]); (XAvg (AEma SEED_AVG) 2, [1]); (XSub, [1; 2]) ]%nat.
Definition no_fun : float -> float := fun x => x.
Definition demoT : NumT float :=
  {| vsqrt := no_fun; vexp := no_fun; vln := no_fun; vsin := no_fun; vcos := no_fun;
     vtan := no_fun; vatan := no_fun; vasin := no_fun; vacos := no_fun; vpi := f10 |}.
Example fsteps_ok : Forall (fun s => valid (fst s) /\ ~ cyclic (fst s)) fsteps /\
  Forall (fun s => valid (fst s) /\ plain (fst s) = true) fsteps.
Proof. split; repeat constructor; cbn; auto with arith. Qed.
Example fsteps_run : exists outs, @session _ _ demoT [raw [f10; f12; f11; f10; f12; f12]] fsteps = Ok outs /\
  map (@lmp _) outs = [1; 3; 4; 4]%Z.
Proof. eexists. split; [reflexivity|vm_compute; reflexivity]. Qed.

(** ** C107: the rsi and the money flow index never leave 0..100 *)
Theorem C107_rsi :
  forall ma p lookback (a y : line float),
    keeps_nonneg ma -> (1 <= p)%nat -> rsi ma p lookback a = Ok y -> every (nan_or_within 0 100) y.
Proof. exact rsi_in. Qed.
Print Assumptions C107_rsi.
Theorem C107_averages :
  keeps_nonneg (fun p a => Ok (sma p a)) /\ keeps_nonneg (fun p a => Ok (sumn p a)) /\
  (forall sd, keeps_nonneg (fun p a => ema_full p sd 0 a)) /\
  (forall sd, keeps_nonneg (fun p a => smma_seed p sd a)) /\
  (forall adjust, keeps_nonneg (fun p a => Ok (ewma p adjust a))) /\
  keeps_nonneg (fun p a => Ok (wma p a)) /\
  keeps_nonneg (fun p a => Ok (trima p a)).
Proof. exact averages_nonneg. Qed.
Print Assumptions C107_averages.
Example C107_rsi_met : exists y : line float, rsi smma 2 1 (raw [f10; f12; f11; f10; f12; f12]) = Ok y /\
  keeps_nonneg smma.
Proof. eexists. split; [reflexivity|exact (nonneg_smma SEED_AVG)]. Qed.
Theorem C107_mfi_partial :
  forall p (high low close volume : line float), (1 <= p)%nat ->
    every nonneg high -> every nonneg low -> every nonneg close -> every nonneg volume ->
    every (nan_or_within 0 100) (mfi p high low close volume).
Proof. exact mfi_in. Qed.
Print Assumptions C107_mfi_partial.
Example C107_mfi_met : every nonneg (raw [f10; f12; f11]).
Proof. repeat constructor. Qed.
Theorem C107_stochrsi :
  forall p philo scale (a y : line float),
    (1 <= p)%nat -> finite scale -> 0 <= val scale -> stochrsi p philo scale a = Ok y ->
    every (nan_or_within 0 (val scale)) y.
Proof. exact stochrsi_in. Qed.
Print Assumptions C107_stochrsi.
Example C107_stochrsi_met : (exists y : line float, stochrsi 2 0 (vofZ 100) (raw [f10; f12; f11; f10; f12; f12]) = Ok y) /\
  finite (vofZ 100) /\ 0 <= val (vofZ 100).
Proof. split; [eexists; reflexivity|]. destruct val100 as [F ->]. split; [exact F|lra]. Qed.

(** ** C108: the stochastic and Williams' %R can leave their range by one unit in the last place *)
Theorem C108_stochastic_refuted :
  exists high low close : float,
    usual high /\ usual low /\ usual close /\ val low <= val close <= val high /\
    exists y, lser (stoch_k 1 (raw [high]) (raw [low]) (raw [close])) = [y] /\ val y = 100 + bpow radix2 (-46).
Proof. exact stoch_refuted. Qed.
Print Assumptions C108_stochastic_refuted.
Theorem C108_williamsr_refuted :
  exists high low close : float,
    usual high /\ usual low /\ usual close /\ val low <= val close <= val high /\
    exists y, lser (williamsr 1 (raw [high]) (raw [low]) (raw [close])) = [y] /\ val y = - (100 + bpow radix2 (-46)).
Proof. exact willr_refuted. Qed.
Print Assumptions C108_williamsr_refuted.
Theorem C108_stochastic_partial :
  forall (high low close : line float) n k p xh xl xc,
    feeds high n k xh -> feeds low n k xl -> feeds close n k xc -> (1 <= p)%nat ->
    (forall i, (k <= i < n)%nat ->
       usual (xh i) /\ usual (xl i) /\ usual (xc i) /\ val (xl i) <= val (xc i) <= val (xh i)) ->
    exists f, delivers (stoch_k p high low close) n (k + p - 1) f /\
    forall i, (k + p - 1 <= i < n)%nat ->
      let flat := forall j, (S i - p <= j <= i)%nat -> val (xh j) = val (xc i) /\ val (xl j) = val (xc i) in
      (flat -> missing (f i)) /\ (~ flat -> within 0 (100 + bpow radix2 (-46)) (f i)).
Proof. exact stoch_in. Qed.
Print Assumptions C108_stochastic_partial.
Theorem C108_williamsr_partial :
  forall (high low close : line float) n k p xh xl xc,
    feeds high n k xh -> feeds low n k xl -> feeds close n k xc -> (1 <= p)%nat ->
    (forall i, (k <= i < n)%nat ->
       usual (xh i) /\ usual (xl i) /\ usual (xc i) /\ val (xl i) <= val (xc i) <= val (xh i)) ->
    exists f, delivers (williamsr p high low close) n (k + p - 1) f /\
    forall i, (k + p - 1 <= i < n)%nat ->
      let flat := forall j, (S i - p <= j <= i)%nat -> val (xh j) = val (xc i) /\ val (xl j) = val (xc i) in
      (flat -> missing (f i)) /\ (~ flat -> within (- (100 + bpow radix2 (-46))) 0 (f i)).
Proof. exact willr_in. Qed.
Print Assumptions C108_williamsr_partial.
Example C108_met : let x := fun i : nat => nth i [f10; f12; f11] vnan in
  feeds (raw [f10; f12; f11]) 3 0 x /\
  forall i, (0 <= i < 3)%nat -> usual (x i) /\ usual (x i) /\ usual (x i) /\ val (x i) <= val (x i) <= val (x i).
Proof.
  intro x. split.
  - split; [reflexivity|]. split; [reflexivity|]. intros [|[|[|]]] H; try lia; reflexivity.
  - assert (U : forall i, (0 <= i < 3)%nat -> usual (x i)); [|intros i Hi; repeat split; try apply U; try apply Rle_refl; exact Hi].
    intros [|[|[|]]] H; try lia; [apply (int_usual 10)|apply (int_usual 12)|apply (int_usual 11)]; lia.
Qed.

(** ** C109: aroon and the balance of power never leave their ranges *)
Theorem C109_aroon :
  forall p (high low : line float), (1 <= p)%nat -> (Z.of_nat p <= 2 ^ 46)%Z ->
    every (nan_or_within 0 100) (aroon_up p high) /\ every (nan_or_within 0 100) (aroon_dn p low) /\
    every (nan_or_within (-100) 100) (aroonosc p high low).
Proof. exact aroon_in. Qed.
Print Assumptions C109_aroon.
Example C109_aroon_met := C109_aroon 14 (raw [f10; f12; f11]) (raw [f10; f10; f11]) ltac:(lia) ltac:(vm_compute; discriminate).
Theorem C109_bop :
  forall (open high low close : line float) n k xo xh xl xc,
    feeds open n k xo -> feeds high n k xh -> feeds low n k xl -> feeds close n k xc ->
    (forall i, (k <= i < n)%nat -> usual (xo i) /\ usual (xh i) /\ usual (xl i) /\ usual (xc i) /\
       val (xl i) <= val (xo i) <= val (xh i) /\ val (xl i) <= val (xc i) <= val (xh i)) ->
    every (nan_or_within (-1) 1) (bop open high low close).
Proof. exact bop_in. Qed.
Print Assumptions C109_bop.
(** the quotes of [C108_met], used for all four lines, meet the hypotheses of [C109_bop] *)
Example C109_met : exists y, lser (bop (raw [f10]) (raw [f12]) (raw [f10]) (raw [f11])) = [y] /\ val y = / 2.
Proof.
  eexists. split; [reflexivity|].
  match goal with |- val ?x = _ => destruct (@val_SF x false 4503599627370496 (-53)) as [_ V]; [vm_compute; reflexivity|] end.
  rewrite V. unfold F2R. cbn. lra.
Qed.

(** ** C110: typical prices against the low and the high of the bar *)
Theorem C110_medprice :
  forall (high low : line float) n k xh xl, feeds high n k xh -> feeds low n k xl ->
    (forall i, (k <= i < n)%nat -> usual (xh i) /\ usual (xl i) /\ val (xl i) <= val (xh i)) ->
    exists f, delivers (medprice (vofZ 2) high low) n k f /\
    forall i, (k <= i < n)%nat -> within (val (xl i)) (val (xh i)) (f i).
Proof. exact medprice_in. Qed.
Print Assumptions C110_medprice.
Example C110_medprice_met := C110_medprice _ _ 3 0 _ _ (proj1 C108_met) (proj1 C108_met) (fun i Hi => match proj2 C108_met i Hi with conj a (conj b (conj _ (conj e _))) => conj a (conj b e) end).
Theorem C110_wclprice :
  forall (high low close : line float) n k xh xl xc, feeds high n k xh -> feeds low n k xl -> feeds close n k xc ->
    (forall i, (k <= i < n)%nat ->
       usual (xh i) /\ usual (xl i) /\ usual (xc i) /\ val (xl i) <= val (xc i) <= val (xh i)) ->
    exists f, delivers (wclprice (vofZ 2) (vofZ 4) high low close) n k f /\
    forall i, (k <= i < n)%nat -> within (val (xl i)) (val (xh i)) (f i).
Proof. exact wclprice_in. Qed.
Print Assumptions C110_wclprice.
Example C110_wclprice_met := C110_wclprice _ _ _ 3 0 _ _ _ (proj1 C108_met) (proj1 C108_met) (proj1 C108_met) (proj2 C108_met).
Theorem C110_midprice :
  forall (high low : line float) n k p xh xl, feeds high n k xh -> feeds low n k xl -> (1 <= p)%nat ->
    (forall i, (k <= i < n)%nat -> usual (xh i) /\ usual (xl i) /\ val (xl i) <= val (xh i)) ->
    exists f, delivers (midprice p high low) n (k + p - 1) f /\
    forall i, (k + p - 1 <= i < n)%nat ->
      exists a b, (S i - p <= a <= i)%nat /\ (S i - p <= b <= i)%nat /\
        (forall j, (S i - p <= j <= i)%nat -> val (xl b) <= val (xl j) /\ val (xh j) <= val (xh a)) /\
        within (val (xl b)) (val (xh a)) (f i).
Proof. exact midprice_in. Qed.
Print Assumptions C110_midprice.
Example C110_midprice_met := C110_midprice _ _ 3 0 2 _ _ (proj1 C108_met) (proj1 C108_met) ltac:(lia) (fun i Hi => match proj2 C108_met i Hi with conj a (conj b (conj _ (conj e _))) => conj a (conj b e) end).
Theorem C110_typprice_refuted :
  exists x : float, usual x /\
    exists y, lser (typprice (vofZ 3) (raw [x]) (raw [x]) (raw [x])) = [y] /\ finite y /\ val x < val y.
Proof. exact typprice_refuted. Qed.
Print Assumptions C110_typprice_refuted.
Theorem C110_sma_refuted :
  exists x : float, usual x /\
    exists y, nth_error (lser (sma 3 (raw [x; x; x]))) 2 = Some y /\ finite y /\ val x < val y.
Proof. exact sma_refuted. Qed.
Print Assumptions C110_sma_refuted.

(** ** C111: highest, lowest, their positions, true lows and crossings are not touched by rounding *)
Theorem C111_extremes :
  forall p (a : line float),
    exact_line (max_ind p a) = max_ind p (exact_line a) /\ exact_line (min_ind p a) = min_ind p (exact_line a).
Proof. exact extremes_exact. Qed.
Print Assumptions C111_extremes.
Theorem C111_positions :
  forall p (a : line float), (Z.of_nat p <= 2 ^ 53)%Z ->
    exact_line (maxindex p a) = maxindex p (exact_line a) /\ exact_line (minindex p a) = minindex p (exact_line a).
Proof. exact positions_exact. Qed.
Print Assumptions C111_positions.
Example C111_positions_met := C111_positions 14 (raw [f10; f12; f11]) ltac:(vm_compute; discriminate).
Theorem C111_crossings :
  forall strict (a b : line float),
    exact_line (crossup strict a b) = crossup strict (exact_line a) (exact_line b) /\
    exact_line (crossdown strict a b) = crossdown strict (exact_line a) (exact_line b).
Proof. exact crossings_exact. Qed.
Print Assumptions C111_crossings.
Theorem C111_truelow :
  forall lookback (low close : line float),
    exact_line (truelow lookback low close) = truelow lookback (exact_line low) (exact_line close).
Proof. exact truelow_exact_line. Qed.
Print Assumptions C111_truelow.

(** ** C112: ranges and variances are never negative *)
Theorem C112_truerange :
  forall (high low close : line float) lookback,
    (1 <= lmp high)%Z -> (1 <= lmp low)%Z -> (1 <= lmp close)%Z ->
    length (lser high) = length (lser close) -> length (lser low) = length (lser close) -> (1 <= lookback)%nat ->
    every nonneg (truerange lookback high low close).
Proof. exact truerange_nonneg. Qed.
Print Assumptions C112_truerange.
Example C112_truerange_met := C112_truerange (raw [f10; f12; f11]) (raw [f10; f10; f11]) (raw [f10; f12; f11]) 1 ltac:(vm_compute; discriminate) ltac:(vm_compute; discriminate) ltac:(vm_compute; discriminate) eq_refl eq_refl ltac:(lia).
Theorem C112_atr :
  forall ma (high low close y : line float) p lookback,
    (1 <= lmp high)%Z -> (1 <= lmp low)%Z -> (1 <= lmp close)%Z ->
    length (lser high) = length (lser close) -> length (lser low) = length (lser close) ->
    (1 <= p)%nat -> (1 <= lookback)%nat ->
    keeps_nonneg ma -> atr ma p lookback high low close = Ok y -> every nonneg y.
Proof. exact atr_nonneg. Qed.
Print Assumptions C112_atr.
Theorem C112_natr :
  forall ma (high low close y : line float) p lookback,
    (1 <= lmp high)%Z -> (1 <= lmp low)%Z -> (1 <= lmp close)%Z ->
    length (lser high) = length (lser close) -> length (lser low) = length (lser close) ->
    (1 <= p)%nat -> (1 <= lookback)%nat ->
    keeps_nonneg ma -> every unsigned close -> natr ma p lookback high low close = Ok y -> every nonneg y.
Proof. exact natr_nonneg. Qed.
Print Assumptions C112_natr.
Example C112_met : every unsigned (raw [f10; f12; f11]) /\
  exists y : line float, natr smma 2 1 (raw [f10; f12; f11]) (raw [f10; f10; f11]) (raw [f10; f12; f11]) = Ok y.
Proof. split; [repeat constructor; right; reflexivity|eexists; reflexivity]. Qed.
Theorem C112_var : forall p ddof (a : line float), every nonneg (var p ddof a).
Proof. exact var_nonneg. Qed.
Print Assumptions C112_var.

(** ** C09 in float64: with the factor 1 of smoothed accumulation the two filters give the same numbers, and the same
    bits unless the first value is -0 *)
Theorem C09_float64 :
  forall be (s : list float),
    map exact (lfilter v1 be s) = map exact (mean_exp v1 be s) /\
    (hd vnan s <> B754_zero true -> lfilter v1 be s = mean_exp v1 be s).
Proof. exact (fun be s => conj (filters_exact be s) (filters_float be s)). Qed.
Print Assumptions C09_float64.
Example C09_float64_met := proj2 (C09_float64 (Some (fofQ (QArith_base.Qmake 9 10))) [f10; f12; f11]) ltac:(discriminate).
(** with the factor 0.3 they differ in the first value already *)
Theorem C09_factor_refuted :
  let al : float := vofQ (QArith_base.Qmake 3 10) in lfilter al None [vofZ 7] <> mean_exp al None [vofZ 7].
Proof. exact filters_differ. Qed.
Print Assumptions C09_factor_refuted.
