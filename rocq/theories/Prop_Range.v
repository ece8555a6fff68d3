(** Property theorems C52-C56: true range and directional movement.  Models: IndRange.v;
    textbook definitions: RangeSpec.v, BoundSpec.v. *)
From Coq Require Import ZArith QArith List Bool Reals Lra Lia.
From Verif Require Import Num Series Line Spec RSpec BoundSpec RangeSpec LineFacts RFacts OpFacts IndMA MAFacts
  RLineFacts IndBasic BasicFacts BoundFacts IndRange RangeFacts RangeFacts2 PropLinesFacts PropRangeFacts.
Import ListNotations.
Local Open Scope R_scope.

(** concrete inputs *)
Definition rh : list R := [10; 12; 11; 14; 15; 13; 12; 16; 18; 17].
Definition rl : list R := [8; 9; 8; 10; 12; 10; 9; 11; 14; 15].
Definition rc : list R := [9; 11; 9; 13; 14; 11; 10; 15; 17; 16].
Example rh_feeds : feeds (raw (map Fin rh)) 10 0 (fin (fun i => nth i rh 0)).
Proof. exact (raw_fin_feeds rh). Qed.
Example rl_feeds : feeds (raw (map Fin rl)) 10 0 (fin (fun i => nth i rl 0)).
Proof. exact (raw_fin_feeds rl). Qed.
Example rc_feeds : feeds (raw (map Fin rc)) 10 0 (fin (fun i => nth i rc 0)).
Proof. exact (raw_fin_feeds rc). Qed.
Example rbar : forall i, (0 <= i < 10)%nat -> nth i rl 0 <= nth i rc 0 <= nth i rh 0.
Proof. intros i Hi. do 10 (destruct i as [|i]; [simpl; lra|]). lia. Qed.
Definition qh : line (ext Q) := raw (map Fin [10; 12; 11; 14; 15; 13; 12; 16; 18; 17]%Q).
Definition ql : line (ext Q) := raw (map Fin [8; 9; 8; 10; 12; 10; 9; 11; 14; 15]%Q).
Definition qc : line (ext Q) := raw (map Fin [9; 11; 9; 13; 14; 11; 10; 15; 17; 16]%Q).

(** C52, look-back [q] (default 1) *)
Theorem C52_true_range :
  forall (h l c : lineR) n k q xh xl xc,
    (1 <= q)%nat -> feeds h n k (fin xh) -> feeds l n k (fin xl) -> feeds c n k (fin xc) ->
    exists t,
      delivers (truerange q h l c) n (k + q) (fin t) /\
      delivers (truelow q l c) n (k + q) (fin (fun i => Rmin (xl i) (xc (i - q)%nat))) /\
      forall i, 0 <= t i /\
        (xl i <= xh i ->
         is_max (t i) [xh i - xl i; Rabs (xh i - xc (i - q)%nat); Rabs (xc (i - q)%nat - xl i)]).
Proof. exact truerange_all. Qed.
Print Assumptions C52_true_range.
Example C52_true_range_met := C52_true_range _ _ _ 10 0 1 _ _ _ ltac:(lia) rh_feeds rl_feeds rc_feeds.
Theorem C52_atr_natr :
  forall (h l c : lineR) n k q p xh xl xc,
    (1 <= q)%nat -> feeds h n k (fin xh) -> feeds l n k (fin xl) -> feeds c n k (fin xc) ->
    (1 <= p)%nat -> (k + q + p <= n)%nat ->
    exists t y z e,
      delivers (truerange q h l c) n (k + q) (fin t) /\
      atr smma p q h l c = Ok y /\ natr smma p q h l c = Ok z /\
      is_smma p (k + q) t e /\
      delivers y n (k + q + p - 1) (fin e) /\
      (forall i, (k + q + p - 1 <= i)%nat -> 0 <= e i) /\
      delivers z n (k + q + p - 1) (fun i => quot (100 * e i) (xc i)).
Proof. exact atr_all. Qed.
Print Assumptions C52_atr_natr.
(** with any other average as [_ma] *)
Theorem C52_atr_any_average :
  forall (ma : ma_fun (ext R)) (h l c : lineR) n k q p xh xl xc,
    averages ma ->
    (1 <= q)%nat -> feeds h n k (fin xh) -> feeds l n k (fin xl) -> feeds c n k (fin xc) ->
    (1 <= p)%nat -> (k + q + p <= n)%nat ->
    exists y e, ma p (truerange q h l c) = Ok y /\ atr ma p q h l c = Ok y /\
      delivers y n (k + q + p - 1) (fin e) /\
      exists z, natr ma p q h l c = Ok z /\ delivers z n (k + q + p - 1) (fun i => quot (100 * e i) (xc i)).
Proof. exact atr_ma. Qed.
Print Assumptions C52_atr_any_average.
Example C52_run :
  truerange 1 qh ql qc =
    mkLine 2 [NaN; Fin 3; Fin 3; Fin 5; Fin 3; Fin 4; Fin 3; Fin 6; Fin 4; Fin 2]%Q /\
  (exists s, atr smma 3 1 qh ql qc = Ok (mkLine 4 s) /\
     firstn 6 s = [NaN; NaN; NaN; Fin (11#3); Fin (31#9); Fin (98#27)]%Q) /\
  (exists s, natr smma 3 1 qh ql qc = Ok (mkLine 4 s) /\
     firstn 6 s = [NaN; NaN; NaN; Fin (1100#39); Fin (1550#63); Fin (9800#297)]%Q).
Proof.
  split; [vm_compute; reflexivity|].
  split; eexists; (split; [vm_compute; reflexivity|reflexivity]).
Qed.
Example C52_use : exists y, atr smma 3 1 (raw (map Fin rh)) (raw (map Fin rl)) (raw (map Fin rc)) = Ok y.
Proof.
  destruct (C52_atr_natr _ _ _ 10 0 1 3 _ _ _ ltac:(lia) rh_feeds rl_feeds rc_feeds ltac:(lia) ltac:(lia))
    as (_ & y & _ & _ & _ & E & _). now exists y.
Qed.

(** C53: the indicator never delivers anything *)
Theorem C53_truehigh_refuted :
  forall (V : Type) (N : Num V) q (low close : line V), truehigh q low close = Raise AttributeError.
Proof. exact @truehigh_fails. Qed.
Print Assumptions C53_truehigh_refuted.

(** C54: the one-bar movements ([q] = 1 by default) *)
Theorem C54_movements :
  forall (h l : lineR) n k q xh xl,
    (1 <= q)%nat -> feeds h n k (fin xh) -> feeds l n k (fin xl) ->
    exists P M,
      delivers (pdm1 q h l) n (k + q) (fin P) /\ delivers (mdm1 q h l) n (k + q) (fin M) /\
      forall i,
        let up := xh i - xh (i - q)%nat in
        let down := xl (i - q)%nat - xl i in
        P i = (if Rlt_dec down up then Rmax up 0 else 0) /\
        M i = (if Rlt_dec up down then Rmax down 0 else 0) /\
        0 <= P i /\ 0 <= M i /\ (P i = 0 \/ M i = 0).
Proof. exact moves_all. Qed.
Print Assumptions C54_movements.
Example C54_movements_met := C54_movements _ _ 10 0 1 _ _ ltac:(lia) rh_feeds rl_feeds.
(** the smoothers of the library qualify for the theorems below *)
Theorem C54_smoothers :
  forall (alt pearly : bool) p, (1 <= p)%nat ->
    smooths (dm_smoother alt pearly smma p)
      (fun k => if negb alt && pearly then (k + p - 2)%nat else (k + p - 1)%nat).
Proof. exact smooths_dm. Qed.
Print Assumptions C54_smoothers.
Theorem C54_averages : keeps_range sma_ /\ keeps_range ema /\ keeps_range smma.
Proof. exact (conj keeps_sma (conj keeps_ema keeps_smma)). Qed.
Print Assumptions C54_averages.
Theorem C54_directional_indicators :
  forall (h l c : lineR) n k q xh xl xc sm (first : nat -> nat),
    feeds h n k (fin xh) -> feeds l n k (fin xl) -> feeds c n k (fin xc) ->
    (1 <= q)%nat -> smooths sm first -> (first (k + q) < n)%nat ->
    (forall i, (k <= i < n)%nat -> xl i <= xc i <= xh i) ->
    exists pd md,
      plus_di sm q h l c = Ok pd /\ minus_di sm q h l c = Ok md /\ di sm q h l c = Ok (pd, md) /\
      bounded pd n (S (first (k + q)%nat)) 0 100 /\ bounded md n (S (first (k + q)%nat)) 0 100.
Proof. exact di_bounded. Qed.
Print Assumptions C54_directional_indicators.
Example C54_directional_indicators_met := C54_directional_indicators _ _ _ 10 0 1 _ _ _ _ _ rh_feeds rl_feeds rc_feeds ltac:(lia) (C54_smoothers false true 3 ltac:(lia)) ltac:(simpl; lia) rbar.
Theorem C54_dx :
  forall (h l c : lineR) n k q xh xl xc sm (first : nat -> nat),
    feeds h n k (fin xh) -> feeds l n k (fin xl) -> feeds c n k (fin xc) ->
    (1 <= q)%nat -> smooths sm first -> (first (k + q) < n)%nat ->
    (forall i, (k <= i < n)%nat -> xl i <= xc i <= xh i) ->
    exists p m y P M,
      dm sm q h l = Ok (p, m) /\
      delivers p n (first (k + q)%nat) (fin P) /\ delivers m n (first (k + q)%nat) (fin M) /\
      dx sm q h l c = Ok y /\
      (forall i, (first (k + q) <= i < n)%nat -> 0 <= P i /\ 0 <= M i) /\
      delivers y n (S (first (k + q)%nat)) (fun i => quot (100 * Rabs (P i - M i)) (P i + M i)) /\
      bounded y n (S (first (k + q)%nat)) 0 100.
Proof. exact dx_fin. Qed.
Print Assumptions C54_dx.
Example C54_dx_met := C54_dx _ _ _ 10 0 1 _ _ _ _ _ rh_feeds rl_feeds rc_feeds ltac:(lia) (C54_smoothers true true 3 ltac:(lia)) ltac:(simpl; lia) rbar.
Theorem C54_adx :
  forall (h l c : lineR) n k q xh xl xc sm (first : nat -> nat),
    feeds h n k (fin xh) -> feeds l n k (fin xl) -> feeds c n k (fin xc) ->
    (1 <= q)%nat -> smooths sm first -> (first (k + q) < n)%nat ->
    (forall i, (k <= i < n)%nat -> xl i <= xc i <= xh i) ->
    forall (ma : ma_fun (ext R)) p,
      keeps_range ma -> (1 <= p)%nat -> (S (first (k + q)) + p <= n)%nat ->
      exists y, adx ma p sm q h l c = Ok y /\ bounded y n (S (first (k + q)) + p - 1)%nat 0 100.
Proof. exact adx_bounded. Qed.
Print Assumptions C54_adx.
Theorem C54_adxr :
  forall (h l c : lineR) n k q xh xl xc sm (first : nat -> nat),
    feeds h n k (fin xh) -> feeds l n k (fin xl) -> feeds c n k (fin xc) ->
    (1 <= q)%nat -> smooths sm first -> (first (k + q) < n)%nat ->
    (forall i, (k <= i < n)%nat -> xl i <= xc i <= xh i) ->
    forall (ma : ma_fun (ext R)) p (talib : bool) prating,
      keeps_range ma -> (1 <= p)%nat -> (S (first (k + q)) + p <= n)%nat ->
      let base := if Nat.eqb prating 0 then p else prating in
      let r := if talib then (base - 1)%nat else base in
      (1 <= r)%nat ->
      exists y z, adx ma p sm q h l c = Ok y /\ adxr talib prating ma p sm q h l c = Ok z /\
        exists f, delivers y n (S (first (k + q)) + p - 1)%nat f /\
          delivers z n (S (first (k + q)) + p - 1 + r)%nat
            (fun i => vdiv (vadd (f i) (f (i - r)%nat)) (Fin 2)) /\
          bounded z n (S (first (k + q)) + p - 1 + r)%nat 0 100.
Proof. exact adxr_bounded. Qed.
Print Assumptions C54_adxr.
Example C54_adxr_met := C54_adxr _ _ _ 10 0 1 _ _ _ _ _ rh_feeds rl_feeds rc_feeds ltac:(lia) (C54_smoothers false true 3 ltac:(lia)) ltac:(simpl; lia) rbar smma 3%nat true 2%nat keeps_smma ltac:(lia) ltac:(simpl; lia) ltac:(simpl; lia).
(** with a rating over one bar ta-lib mode looks back 0 bars, and a look-back of 0 gives NaN: nothing is delivered *)
Theorem C54_adxr_one_bar_refuted :
  forall (h l c : lineR) n k q xh xl xc sm (first : nat -> nat),
    feeds h n k (fin xh) -> feeds l n k (fin xl) -> feeds c n k (fin xc) ->
    (1 <= q)%nat -> smooths sm first -> (first (k + q) < n)%nat ->
    (forall i, (k <= i < n)%nat -> xl i <= xc i <= xh i) ->
    forall (ma : ma_fun (ext R)) p prating,
      keeps_range ma -> (1 <= p)%nat -> (S (first (k + q)) + p <= n)%nat ->
      prating = 1%nat \/ (prating = 0%nat /\ p = 1%nat) ->
      exists z, adxr true prating ma p sm q h l c = Ok z /\ lser z = repeat NaN n.
Proof. exact adxr_one. Qed.
Print Assumptions C54_adxr_one_bar_refuted.
(** the restriction on the close is needed: an earlier close above its own high makes the range
    of the next bar too small *)
Theorem C54_close_outside :
  let h := raw (map Fin [0; 10; 10; 10]%Q) in
  let c := raw (map Fin [10; 10; 10; 10]%Q) in
  di (dm_smoother false false smma 2) 1 h h c =
    Ok (mkLine 4 [NaN; NaN; NaN; PInf], mkLine 4 [NaN; NaN; NaN; NaN]).
Proof. vm_compute. reflexivity. Qed.
Print Assumptions C54_close_outside.
Example C54_run :
  (exists s t, di (dm_smoother false true smma 3) 1 qh ql qc = Ok (mkLine 4 s, mkLine 4 t) /\
     firstn 6 s = [NaN; NaN; NaN; Fin (1300#27); Fin (3500#81); Fin (700#27)]%Q /\
     firstn 6 t = [NaN; NaN; NaN; Fin (200#27); Fin (400#81); Fin (620#27)]%Q) /\
  (exists s, dx (dm_smoother false true smma 3) 1 qh ql qc = Ok (mkLine 4 s) /\
     firstn 6 s = [NaN; NaN; NaN; Fin (220#3); Fin (3100#39); Fin (200#33)]%Q) /\
  (exists s, adx smma 3 (dm_smoother false true smma 3) 1 qh ql qc = Ok (mkLine 6 s) /\
     firstn 7 s = [NaN; NaN; NaN; NaN; NaN; Fin (22720#429); Fin (136780#3289)]%Q) /\
  (exists s, adxr true 0 smma 3 (dm_smoother false true smma 3) 1 qh ql qc = Ok (mkLine 8 s)).
Proof.
  split; [do 2 eexists; (split; [vm_compute; reflexivity|split; reflexivity])|].
  split; [eexists; (split; [vm_compute; reflexivity|reflexivity])|].
  split; [eexists; (split; [vm_compute; reflexivity|reflexivity])|].
  eexists. vm_compute. reflexivity.
Qed.
Example C54_use : exists y,
  adx smma 3 (dm_smoother false true smma 3) 1 (raw (map Fin rh)) (raw (map Fin rl)) (raw (map Fin rc)) = Ok y /\
  bounded y 10 5 0 100.
Proof.
  destruct (C54_adx _ _ _ 10 0 1 _ _ _ _ _ rh_feeds rl_feeds rc_feeds ltac:(lia)
    (C54_smoothers false true 3 ltac:(lia)) ltac:(simpl; lia) rbar smma 3 keeps_smma ltac:(lia) ltac:(simpl; lia))
    as (y & E & B). exists y. split; [exact E|exact B].
Qed.

Example C54_adxr_one_bar_met :
  exists z, adxr true 1 smma 3 (dm_smoother false true smma 3) 1 (raw (map Fin rh)) (raw (map Fin rl)) (raw (map Fin rc))
            = Ok z /\ lser z = repeat NaN 10.
Proof.
  exact (C54_adxr_one_bar_refuted _ _ _ 10 0 1 _ _ _ _ _ rh_feeds rl_feeds rc_feeds ltac:(lia)
    (C54_smoothers false true 3 ltac:(lia)) ltac:(simpl; lia) rbar smma 3%nat 1%nat keeps_smma ltac:(lia) ltac:(simpl; lia)
    (or_introl eq_refl)).
Qed.

(** C55: both smoothed lines are there from bar [first (k + q)], the indicators only from the
    next bar on, although the values they would have are well defined *)
Theorem C55_directional_indicators_late_refuted :
  forall (h l c : lineR) n k q xh xl xc sm (first : nat -> nat),
    feeds h n k (fin xh) -> feeds l n k (fin xl) -> feeds c n k (fin xc) -> (1 <= q)%nat ->
    smooths sm first -> (first (k + q) < n)%nat ->
    (forall i, (k <= i < n)%nat -> xl i <= xc i <= xh i) ->
    exists p m t pd md P M T,
      dm sm q h l = Ok (p, m) /\ sm (truerange q h l c) = Ok t /\ di sm q h l c = Ok (pd, md) /\
      delivers p n (first (k + q)%nat) (fin P) /\ delivers m n (first (k + q)%nat) (fin M) /\
      delivers t n (first (k + q)%nat) (fin T) /\
      delivers pd n (first (k + q) + 1)%nat (fun i => quot (100 * P i) (T i)) /\
      delivers md n (first (k + q) + 1)%nat (fun i => quot (100 * M i) (T i)).
Proof. exact di_late. Qed.
Print Assumptions C55_directional_indicators_late_refuted.
Example C55_run :
  (exists s t, dm (dm_smoother false false smma 3) 1 qh ql = Ok (mkLine 4 s, mkLine 4 t)) /\
  (exists s t, di (dm_smoother false false smma 3) 1 qh ql qc = Ok (mkLine 5 s, mkLine 5 t) /\
     firstn 5 s = [NaN; NaN; NaN; NaN; Fin (1300#31)]%Q).
Proof.
  split; [do 2 eexists; vm_compute; reflexivity|].
  do 2 eexists. (split; [vm_compute; reflexivity|reflexivity]).
Qed.

(** C56: without [_pearly] the seed is the sum of the first [p] values; with [_pearly] and an
    input with a warm-up it is the sum of the first [p - 1] values, one bar earlier *)
Theorem C56_smacc :
  forall (a : lineR) n k x p,
    feeds a n k (fin x) -> (1 <= p)%nat -> (k + p <= n)%nat ->
    exists y e, smacc p false SEED_SUM a = Ok y /\
      is_accumulation p (k + p - 1) (Rsum (lastp x (k + p - 1) p)) x e /\
      delivers y n (k + p - 1) (fin e).
Proof. exact smacc_fin. Qed.
Print Assumptions C56_smacc.
Example C56_smacc_met := C56_smacc _ 10 0 _ 3 rc_feeds ltac:(lia) ltac:(lia).
Theorem C56_smacc_pearly_partial :
  forall (a : lineR) n k x p,
    delivers a n k (fin x) -> (1 <= k)%nat -> (1 <= p)%nat -> (k + p - 1 <= n)%nat ->
    exists y e, smacc p true SEED_SUM a = Ok y /\
      is_accumulation p (k + p - 2) (Rsum (lastp x (k + p - 2) (p - 1))) x e /\
      delivers y n (k + p - 2) (fin e).
Proof. exact smacc_early_fin. Qed.
Print Assumptions C56_smacc_pearly_partial.
(** on raw data the seed is 0 whatever the first values are *)
Theorem C56_smacc_pearly_raw_refuted :
  forall (a : lineR) n x p,
    feeds a n 0 (fin x) -> (2 <= p)%nat -> (p <= n)%nat ->
    exists y e, smacc p true SEED_SUM a = Ok y /\
      is_accumulation p (p - 2) 0 x e /\
      delivers y n (p - 2) (fin e).
Proof. exact smacc_early_raw. Qed.
Print Assumptions C56_smacc_pearly_raw_refuted.
Example C56_smacc_pearly_raw_refuted_met := C56_smacc_pearly_raw_refuted _ 10 _ 3 rc_feeds ltac:(lia) ltac:(lia).
Theorem C56_short_history :
  forall (V : Type) (N : Num V) (a : line V) n k f p,
    feeds a n k f -> (1 <= p)%nat -> (n < k + p)%nat -> smacc p false SEED_SUM a = Raise IndexError.
Proof. exact @smacc_short. Qed.
Print Assumptions C56_short_history.
Example C56_run :
  (exists s, smacc 3 true SEED_SUM qh = Ok (mkLine 2 s) /\
     firstn 4 s = [NaN; Fin 0; Fin 11; Fin (64#3)]%Q) /\
  (exists s, smacc 3 false SEED_SUM qh = Ok (mkLine 3 s) /\
     firstn 4 s = [NaN; NaN; Fin 33; Fin 36]%Q) /\
  (exists s, smacc 3 true SEED_SUM (sma 2 qh) = Ok (mkLine 3 s) /\
     firstn 4 s = [NaN; NaN; Fin (45#2); Fin (55#2)]%Q).
Proof. repeat split; eexists; (split; [vm_compute; reflexivity|reflexivity]). Qed.
