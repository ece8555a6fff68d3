(** Property theorem C136: what correlation and beta of a series with itself are, in double precision.
    Model: IndStat.v and RunCorr.v (the carried means, variances and totals of pandas 1.0) over Float64.v; vocabulary:
    Spec.v, FloatSpec.v, BandSpec64.v. *)
From Coq Require Import ZArith Reals List Bool Lia Lra.
From Flocq Require Import Core IEEE754.BinarySingleNaN.
From Verif Require Import Num Series Line Spec LineFacts IndMA IndStat Float64 FloatSpec FloatFacts RunSpec RunMean RunVar RunCorr RunCorrFacts
  BandSpec64 BandsFlat CorrFloat Prop_Bands.
Import ListNotations.
Local Open Scope R_scope.

(** ** With exact numbers the carried calculations are those of the windows *)
Theorem C136_exact :
  forall p prets rets (a b : line (ext R)), (1 <= p)%nat ->
    beta_run p prets rets a b = beta p prets rets a b /\
    (length (lser a) = length (lser b) -> correl_run p a b = correl p prets rets a b).
Proof. exact (fun p prets rets a b H => conj (@beta_run_exact p prets rets a b H) (@correl_run_exact p prets rets a b H)). Qed.
Print Assumptions C136_exact.
Example C136_exact_met : correl_run 2 (raw [Fin 1; Fin 2; Fin 4 : ext R]) (raw [Fin 3; NaN; Fin 5])
  = correl 2 1 true (raw [Fin 1; Fin 2; Fin 4]) (raw [Fin 3; NaN; Fin 5]).
Proof. apply (@C136_exact 2 1%Z true); cbn; auto. Qed.

(** ** Beta *)
(** of a series against itself, for every feed, period and kind of returns, from windows summed afresh and from running
    totals: missing or exactly 1 *)
Theorem C136_beta :
  forall p prets rets (a : line float), (1 <= lmp a)%Z -> (0 <= prets)%Z ->
  forall i v, nth_error (lser (beta p prets rets a a)) i = Some v \/ nth_error (lser (beta_run p prets rets a a)) i = Some v ->
    missing v \/ (finite v /\ val v = 1).
Proof. exact beta_self. Qed.
Print Assumptions C136_beta.
Definition by_tenths : line float := raw (map (fun z => vofQ (QArith_base.Qmake z 10)) [20; 21; 25; 24; 31]%Z).
(** and it is there *)
Example C136_beta_met : exists v, nth_error (lser (beta 2 1 true by_tenths by_tenths)) 3 = Some v /\ finite v /\ val v = 1.
Proof.
  destruct (nth_error (lser (beta 2 1 true by_tenths by_tenths)) 3) as [v|] eqn:E.
  - exists v. split; [reflexivity|]. destruct (@C136_beta 2%nat 1%Z true by_tenths ltac:(cbn; lia) ltac:(lia) 3%nat v (or_introl E)) as [M|M]; [|exact M].
    exfalso. assert (K : match nth_error (lser (beta 2 1 true by_tenths by_tenths)) 3 with Some v => is_nan v | None => true end = false) by (vm_compute; reflexivity).
    rewrite E in K. unfold missing in M. rewrite M in K. discriminate K.
  - exfalso. assert (K : match nth_error (lser (beta 2 1 true by_tenths by_tenths)) 3 with Some v => is_nan v | None => true end = false) by (vm_compute; reflexivity).
    rewrite E in K. discriminate K.
Qed.

(** ** Correlation *)
(** does not depend on which of two series of the same length comes first *)
Theorem C136_symmetric :
  forall (T : NumT float) p prets rets (a b : line float), lmp a = lmp b -> length (lser a) = length (lser b) ->
    correl p prets rets a b = correl p prets rets b a /\ correl_run p a b = correl_run p b a.
Proof. exact correl_comm. Qed.
Print Assumptions C136_symmetric.
Example C136_symmetric_met : lmp by_tenths = lmp (raw (repeat (v0 : float) 5)) /\ length (lser by_tenths) = length (lser (raw (repeat (v0 : float) 5))).
Proof. split; reflexivity. Qed.
(** of 2.0 and then 2.1 for ever with itself, period 2: above 163 at every bar from the third on *)
Theorem C136_carried_refuted :
  forall (T : NumT float), rounded_sqrt T ->
  let x : float := vofQ (QArith_base.Qmake 20 10) in let y : float := vofQ (QArith_base.Qmake 21 10) in
  exists v, finite v /\ 163 < val v /\
    forall i, (2 <= i)%nat -> nth_error (lser (correl_run 2 (raw (x :: repeat y i)) (raw (x :: repeat y i)))) i = Some v.
Proof. exact corr_stays. Qed.
Print Assumptions C136_carried_refuted.
(** and in a single window: 0 for 100000000, 100000001, above 1 for 0.3, 0.4 *)
Theorem C136_window_refuted :
  forall (T : NumT float), rounded_sqrt T ->
  (let s : list float := [vofZ 100000000; vofZ 100000001] in
   nth_error (lser (correl 2 0 false (raw s) (raw s))) 1 = Some v0) /\
  (let s : list float := [vofQ (QArith_base.Qmake 3 10); vofQ (QArith_base.Qmake 4 10)] in
   exists v, finite v /\ 1 < val v /\ nth_error (lser (correl 2 0 false (raw s) (raw s))) 1 = Some v).
Proof. exact corr_window. Qed.
Print Assumptions C136_window_refuted.
Example C136_roots_met : nth_error (lser (correl (T := roots) 2 0 false (raw [vofZ 100000000; vofZ 100000001]) (raw [vofZ 100000000; vofZ 100000001]))) 1
  = Some (v0 : float).
Proof. exact (proj1 (C136_window_refuted roots roots_rounded)). Qed.
