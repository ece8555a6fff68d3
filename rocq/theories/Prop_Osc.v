(** Property theorems C48-C51, C65, C75: bounded oscillators.  Models: IndOsc.v; textbook
    definitions: OscSpec.v, BoundSpec.v, RangeSpec.v. *)
From Coq Require Import ZArith QArith List Bool Reals Lra Lia.
From Verif Require Import Num Series Line Spec RSpec BoundSpec RangeSpec OscSpec LineFacts RFacts OpFacts IndMA MAFacts
  RLineFacts IndBasic BasicFacts BoundFacts IndRange RangeFacts RangeFacts2 IndOsc OscFacts OscFacts2
  PropLinesFacts PropOscFacts.
Import ListNotations.
Local Open Scope R_scope.

(** concrete inputs *)
Definition oh : list R := [10; 12; 11; 14; 15; 13; 12; 16; 18; 17].
Definition ol : list R := [8; 9; 8; 10; 12; 10; 9; 11; 14; 15].
Definition oc : list R := [9; 11; 9; 13; 14; 11; 10; 15; 17; 16].
Definition oo : list R := [8; 10; 11; 10; 13; 13; 11; 11; 15; 17].
Definition ov : list R := [5; 6; 7; 8; 9; 10; 11; 12; 13; 14].
Example oh_feeds : feeds (raw (map Fin oh)) 10 0 (fin (fun i => nth i oh 0)).
Proof. exact (raw_fin_feeds oh). Qed.
Example ol_feeds : feeds (raw (map Fin ol)) 10 0 (fin (fun i => nth i ol 0)).
Proof. exact (raw_fin_feeds ol). Qed.
Example oc_feeds : feeds (raw (map Fin oc)) 10 0 (fin (fun i => nth i oc 0)).
Proof. exact (raw_fin_feeds oc). Qed.
Example oo_feeds : feeds (raw (map Fin oo)) 10 0 (fin (fun i => nth i oo 0)).
Proof. exact (raw_fin_feeds oo). Qed.
Example ov_feeds : feeds (raw (map Fin ov)) 10 0 (fin (fun i => nth i ov 0)).
Proof. exact (raw_fin_feeds ov). Qed.
Example obar : forall i, (0 <= i < 10)%nat -> nth i ol 0 <= nth i oc 0 <= nth i oh 0.
Proof. intros i Hi. do 10 (destruct i as [|i]; [simpl; lra|]). lia. Qed.
Example obar2 : forall i, (0 <= i < 10)%nat ->
  nth i ol 0 <= nth i oo 0 <= nth i oh 0 /\ nth i ol 0 <= nth i oc 0 <= nth i oh 0.
Proof. intros i Hi. do 10 (destruct i as [|i]; [simpl; lra|]). lia. Qed.
Definition qh : line (ext Q) := raw (map Fin [10; 12; 11; 14; 15; 13; 12; 16; 18; 17]%Q).
Definition ql : line (ext Q) := raw (map Fin [8; 9; 8; 10; 12; 10; 9; 11; 14; 15]%Q).
Definition qc : line (ext Q) := raw (map Fin [9; 11; 9; 13; 14; 11; 10; 15; 17; 16]%Q).
Definition qo : line (ext Q) := raw (map Fin [8; 10; 11; 10; 13; 13; 11; 11; 15; 17]%Q).
Definition qv : line (ext Q) := raw (map Fin [5; 6; 7; 8; 9; 10; 11; 12; 13; 14]%Q).

(** C48 (look-back [q], default 1; average [ma], default smma) *)
Theorem C48_rsi_bounds :
  forall (ma : ma_fun (ext R)) since (a : lineR) n k x p q,
    accumulates ma since -> feeds a n k (fin x) -> (1 <= p)%nat -> (k + q + p <= n)%nat ->
    exists y f, rsi ma p q a = Ok y /\ delivers y n (k + q + p - 1) f /\
      forall i, (k + q + p - 1 <= i < n)%nat ->
        let bar j := (since p (k + q)%nat i <= j <= i)%nat in
        num_in 0 100 (f i) /\
        (f i = NaN <-> forall j, bar j -> x j = x (j - q)%nat) /\
        (f i = Fin 100 <-> (forall j, bar j -> x (j - q)%nat <= x j) /\ exists j, bar j /\ x (j - q)%nat < x j) /\
        (f i = Fin 0 <-> (forall j, bar j -> x j <= x (j - q)%nat) /\ exists j, bar j /\ x j < x (j - q)%nat).
Proof. exact rsi_all. Qed.
Print Assumptions C48_rsi_bounds.
(** the averages that qualify, with their memory *)
Theorem C48_averages :
  accumulates smma all_bars /\ accumulates ema all_bars /\
  accumulates sma_ last_bars /\ accumulates sumn_ last_bars.
Proof. exact (conj acc_smma (conj acc_ema (conj acc_sma acc_sumn))). Qed.
Print Assumptions C48_averages.
(** the value with Wilder's average *)
Theorem C48_rsi_value :
  forall (a : lineR) n k x p q,
    feeds a n k (fin x) -> (1 <= p)%nat -> (k + q + p <= n)%nat ->
    exists y U D, rsi smma p q a = Ok y /\
      is_smma p (k + q) (fun i => Rmax (x i - x (i - q)%nat) 0) U /\
      is_smma p (k + q) (fun i => Rmax (x (i - q)%nat - x i) 0) D /\
      delivers y n (k + q + p - 1) (fun i => quot (100 * U i) (U i + D i)).
Proof. exact rsi_wilder. Qed.
Print Assumptions C48_rsi_value.
Example C48_rsi_value_met := C48_rsi_value _ 10 0 _ 3 1 oc_feeds ltac:(lia) ltac:(lia).
Theorem C48_rsi_too_few_bars :
  forall (a : lineR) n k x p q,
    feeds a n k (fin x) -> (1 <= p)%nat -> (n < k + q + p)%nat -> rsi smma p q a = Raise IndexError.
Proof. exact rsi_short. Qed.
Print Assumptions C48_rsi_too_few_bars.
Example C48_run :
  (exists s, rsi smma 3 1 qc = Ok (mkLine 4 s) /\
     firstn 6 s = [NaN; NaN; NaN; Fin 75; Fin (1500#19); Fin (600#13)]%Q) /\
  rsi sma_ 2 1 (raw (map Fin [5; 5; 5; 5; 6; 7; 8; 7; 6; 6; 6]%Q)) =
    Ok (mkLine 3 [NaN; NaN; NaN; NaN; Fin 100; Fin 100; Fin 100; Fin 50; Fin 0; Fin 0; NaN]%Q) /\
  rsi smma 3 1 (raw (map Fin [5; 5; 5]%Q)) = Raise IndexError.
Proof.
  split; [eexists; (split; [vm_compute; reflexivity|reflexivity])|].
  split; vm_compute; reflexivity.
Qed.
Example C48_use : exists y f, rsi smma 3 1 (raw (map Fin oc)) = Ok y /\ delivers y 10 3 f /\ num_in 0 100 (f 5%nat).
Proof.
  destruct (C48_rsi_bounds _ _ _ 10 0 _ 3 1 (proj1 C48_averages) oc_feeds ltac:(lia) ltac:(lia))
    as (y & f & E & D & H). exists y, f. split; [exact E|]. split; [exact D|]. apply (H 5%nat). simpl. lia.
Qed.

(** C49 *)
Theorem C49_stochastic_and_williamsr :
  forall (h l c : lineR) n k p xh xl xc,
    feeds h n k (fin xh) -> feeds l n k (fin xl) -> feeds c n k (fin xc) -> (1 <= p)%nat ->
    (forall i, (k <= i < n)%nat -> xl i <= xc i <= xh i) ->
    exists kf wf,
      (forall ma pfast y d, stochf ma p pfast h l c = Ok (y, d) -> delivers y n (k + p - 1) kf) /\
      delivers (williamsr p h l c) n (k + p - 1) wf /\
      forall i, (k + p - 1 <= i < n)%nat ->
        let hh := highest xh p i in let ll := lowest xl p i in
        kf i = quot (100 * (xc i - ll)) (hh - ll) /\
        wf i = vsub (kf i) (Fin 100) /\
        num_in 0 100 (kf i) /\ num_in (-100) 0 (wf i) /\
        (kf i = NaN <-> hh = ll) /\ (wf i = NaN <-> hh = ll).
Proof. exact stoch_all. Qed.
Print Assumptions C49_stochastic_and_williamsr.
Example C49_stochastic_and_williamsr_met := C49_stochastic_and_williamsr _ _ _ 10 0 3 _ _ _ oh_feeds ol_feeds oc_feeds ltac:(lia) obar.
Theorem C49_averages_bounded :
  forall (ma maslow : ma_fun (ext R)) (h l c : lineR) n k p pfast pslow xh xl xc,
    keeps_range ma -> keeps_range maslow ->
    feeds h n k (fin xh) -> feeds l n k (fin xl) -> feeds c n k (fin xc) ->
    (1 <= p)%nat -> (1 <= pfast)%nat -> (1 <= pslow)%nat -> (k + p - 1 + (pfast - 1) + pslow <= n)%nat ->
    (forall i, (k <= i < n)%nat -> xl i <= xc i <= xh i) ->
    exists y d dd,
      stochf ma p pfast h l c = Ok (y, d) /\ stochastic ma maslow p pfast pslow h l c = Ok (d, dd) /\
      maslow pslow d = Ok dd /\
      bounded y n (k + p - 1) 0 100 /\
      bounded d n (k + p - 1 + pfast - 1) 0 100 /\
      bounded dd n (k + p - 1 + pfast - 1 + pslow - 1) 0 100.
Proof. exact stochastic_bounds. Qed.
Print Assumptions C49_averages_bounded.
(** the averages that qualify *)
Theorem C49_averages : keeps_range sma_ /\ keeps_range ema /\ keeps_range smma.
Proof. exact (conj keeps_sma (conj keeps_ema keeps_smma)). Qed.
Print Assumptions C49_averages.
Example C49_run :
  stochf sma_ 3 2 qh ql qc =
    Ok (mkLine 3 [NaN; NaN; Fin 25; Fin (250#3); Fin (600#7); Fin 20; Fin (50#3); Fin (600#7); Fin (800#9); Fin (500#7)],
        mkLine 4 [NaN; NaN; NaN; Fin (325#6); Fin (1775#21); Fin (370#7); Fin (55#3); Fin (1075#21); Fin (5500#63); Fin (5050#63)])%Q /\
  williamsr 3 qh ql qc =
    mkLine 3 [NaN; NaN; Fin (-75#1); Fin (-50#3); Fin (-100#7); Fin (-80#1); Fin (-250#3); Fin (-100#7); Fin (-100#9); Fin (-200#7)]%Q.
Proof. split; vm_compute; reflexivity. Qed.
Example C49_use : exists y d dd,
  stochf sma_ 3 2 (raw (map Fin oh)) (raw (map Fin ol)) (raw (map Fin oc)) = Ok (y, d) /\ bounded dd 10 4 0 100.
Proof.
  destruct (C49_averages_bounded sma_ ema _ _ _ 10 0 3 2 2 _ _ _ keeps_sma keeps_ema oh_feeds ol_feeds oc_feeds
    ltac:(lia) ltac:(lia) ltac:(lia) ltac:(lia) obar) as (y & d & dd & E & _ & _ & _ & _ & B). now exists y, d, dd.
Qed.

(** C50 *)
Theorem C50_aroon :
  forall (h l : lineR) n k p xh xl,
    feeds h n k (fin xh) -> feeds l n k (fin xl) -> (1 <= p)%nat ->
    exists dn up dl du,
      aroon p h l = (dn, up) /\
      delivers up n (k + p) (fin (fun i => 100 * (INR p - INR (du i)) / INR p)) /\
      delivers dn n (k + p) (fin (fun i => 100 * (INR p - INR (dl i)) / INR p)) /\
      delivers (aroonosc p h l) n (k + p) (fin (fun i => 100 * (INR (dl i) - INR (du i)) / INR p)) /\
      forall i, (k + p <= i < n)%nat ->
        bars_since_high xh (p + 1) i (du i) /\ bars_since_low xl (p + 1) i (dl i) /\
        0 <= 100 * (INR p - INR (du i)) / INR p <= 100 /\
        0 <= 100 * (INR p - INR (dl i)) / INR p <= 100 /\
        -100 <= 100 * (INR (dl i) - INR (du i)) / INR p <= 100.
Proof. exact aroon_all. Qed.
Print Assumptions C50_aroon.
(** the distance is well defined: one and only one *)
Theorem C50_distance_unique :
  forall x i w, (1 <= w)%nat -> (w <= S i)%nat -> exists! d, bars_since_high x w i d.
Proof. exact since_high_ex. Qed.
Print Assumptions C50_distance_unique.
Example C50_run :
  aroon_up 4 (raw (map Fin [3; 5; 4; 5; 2; 1; 1; 6; 6; 2]%Q)) =
    mkLine 5 [NaN; NaN; NaN; NaN; Fin 75; Fin 50; Fin 25; Fin 100; Fin 100; Fin 75]%Q /\
  aroon_dn 4 (raw (map Fin [3; 5; 4; 5; 2; 1; 1; 6; 6; 2]%Q)) =
    mkLine 5 [NaN; NaN; NaN; NaN; Fin 100; Fin 100; Fin 100; Fin 75; Fin 50; Fin 25]%Q.
Proof. split; vm_compute; reflexivity. Qed.
Example C50_use : exists dn up, aroon 4 (raw (map Fin oh)) (raw (map Fin ol)) = (dn, up).
Proof.
  destruct (C50_aroon _ _ 10 0 4 _ _ oh_feeds ol_feeds ltac:(lia)) as (dn & up & _ & _ & E & _). now exists dn, up.
Qed.

(** C51 *)
Theorem C51_cmo :
  forall (ma : ma_fun (ext R)) since (a : lineR) n k x p,
    accumulates ma since -> feeds a n k (fin x) -> (1 <= p)%nat -> (k + 1 + p <= n)%nat ->
    exists y r f g, cmo ma p a = Ok y /\ rsi ma p 1 a = Ok r /\
      delivers y n (k + 1 + p - 1) f /\ delivers r n (k + 1 + p - 1) g /\
      forall i, (k + 1 + p - 1 <= i < n)%nat ->
        num_in (-100) 100 (f i) /\
        (f i = NaN <-> forall j, (since p (k + 1)%nat i <= j <= i)%nat -> x j = x (j - 1)%nat) /\
        f i = vsub (vmul (Fin 2) (g i)) (Fin 100).
Proof. exact cmo_all. Qed.
Print Assumptions C51_cmo.
Example C51_cmo_met := C51_cmo _ _ _ 10 0 _ 3 (proj1 C48_averages) oc_feeds ltac:(lia) ltac:(lia).
Theorem C51_mfi :
  forall (h l c v : lineR) n k p xh xl xc xv,
    feeds h n k (fin xh) -> feeds l n k (fin xl) -> feeds c n k (fin xc) -> feeds v n k (fin xv) ->
    (1 <= p)%nat ->
    let t := typical xh xl xc in
    (forall i, (k <= i < n)%nat -> 0 <= t i /\ 0 <= xv i) ->
    exists f, delivers (mfi p h l c v) n (k + p) f /\
      forall i, (k + p <= i < n)%nat ->
        let inn := Rsum (lastp (inflow t xv) i p) in
        let out := Rsum (lastp (outflow t xv) i p) in
        f i = quot (100 * inn) (inn + out) /\ num_in 0 100 (f i) /\
        (f i = NaN <-> forall j, (S i - p <= j <= i)%nat -> t j * xv j = 0 \/ t j = t (j - 1)%nat).
Proof. exact mfi_all. Qed.
Print Assumptions C51_mfi.
Example C51_run :
  cmo sumn_ 3 qc =
    Ok (mkLine 4 [NaN; NaN; NaN; Fin 50; Fin (300#7); Fin 25; Fin (-60#1); Fin (100#9); Fin 75; Fin 75])%Q /\
  mfi 2 qh ql qc qv =
    mkLine 3 [NaN; NaN; Fin (4800#97); Fin (7400#123); Fin 100; Fin (36900#709); Fin 0; Fin (10080#169); Fin 100; Fin (9100#187)]%Q.
Proof. split; vm_compute; reflexivity. Qed.
Example obig : forall i, (0 <= i < 10)%nat ->
  0 <= typical (fun i => nth i oh 0) (fun i => nth i ol 0) (fun i => nth i oc 0) i /\ 0 <= nth i ov 0.
Proof. intros i Hi. unfold typical. do 10 (destruct i as [|i]; [simpl; lra|]). lia. Qed.
Example C51_use : exists f,
  delivers (mfi 3 (raw (map Fin oh)) (raw (map Fin ol)) (raw (map Fin oc)) (raw (map Fin ov))) 10 3 f /\ num_in 0 100 (f 4%nat).
Proof.
  destruct (C51_mfi _ _ _ _ 10 0 3 _ _ _ _ oh_feeds ol_feeds oc_feeds ov_feeds ltac:(lia) obig) as (f & D & H).
  exists f. split; [exact D|]. apply (H 4%nat). simpl. lia.
Qed.

(** C65 *)
Theorem C65_ultimate_oscillator :
  forall (h l c : lineR) n k xh xl xc p1 p2 p3 f1 f2 f3,
    feeds h n k (fin xh) -> feeds l n k (fin xl) -> feeds c n k (fin xc) ->
    (forall i, (k <= i < n)%nat -> xl i <= xc i <= xh i) ->
    (1 <= p1)%nat -> (1 <= p2)%nat -> (1 <= p3)%nat ->
    0 <= f1 -> 0 <= f2 -> 0 <= f3 -> 0 < f1 + f2 + f3 ->
    let first := (k + Nat.max (Nat.max p1 p2) p3)%nat in
    let bp p i := Rsum (lastp (pressure xl xc) i p) in
    let tr p i := Rsum (lastp (true_range xh xl xc 1) i p) in
    exists y f, ultosc p1 p2 p3 (Fin f1) (Fin f2) (Fin f3) h l c = Ok y /\ delivers y n first f /\
      forall i, (first <= i < n)%nat ->
        num_in 0 100 (f i) /\
        (tr p1 i <> 0 -> tr p2 i <> 0 -> tr p3 i <> 0 ->
         f i = Fin (100 * wmean [f1; f2; f3] [bp p1 i / tr p1 i; bp p2 i / tr p2 i; bp p3 i / tr p3 i])).
Proof. exact uo_all. Qed.
Print Assumptions C65_ultimate_oscillator.
Theorem C65_zero_factors :
  forall p1 p2 p3 f1 f2 f3 (h l c : lineR),
    f1 + f2 + f3 = 0 -> ultosc p1 p2 p3 (Fin f1) (Fin f2) (Fin f3) h l c = Raise ZeroDivisionError.
Proof. exact ultosc_zero. Qed.
Print Assumptions C65_zero_factors.
Example C65_zero_factors_met := C65_zero_factors 7 14 28 1 1 (-2) (raw (map Fin oh)) (raw (map Fin ol)) (raw (map Fin oc)) ltac:(lra).
Theorem C65_balance_of_power :
  forall (o h l c : lineR) n k xo xh xl xc,
    feeds o n k (fin xo) -> feeds h n k (fin xh) -> feeds l n k (fin xl) -> feeds c n k (fin xc) ->
    (forall i, (k <= i < n)%nat -> xl i <= xo i <= xh i /\ xl i <= xc i <= xh i) ->
    exists f, delivers (bop o h l c) n k f /\
      forall i, (k <= i < n)%nat ->
        f i = quot (xc i - xo i) (xh i - xl i) /\ num_in (-1) 1 (f i) /\ (f i = NaN <-> xh i = xl i).
Proof. exact bop_all. Qed.
Print Assumptions C65_balance_of_power.
Example C65_run :
  bop qo qh ql qc = mkLine 1 [Fin (1#2); Fin (1#3); Fin (-2#3); Fin (3#4); Fin (1#3); Fin (-2#3); Fin (-1#3);
    Fin (4#5); Fin (1#2); Fin (-1#2)]%Q /\
  ultosc 1 2 3 (vofZ 4) (vofZ 2) (vofZ (-6)) qh ql qc = Raise ZeroDivisionError.
Proof. split; vm_compute; reflexivity. Qed.
Example C65_use : exists y,
  ultosc 1 2 3 (Fin 4) (Fin 2) (Fin 1) (raw (map Fin oh)) (raw (map Fin ol)) (raw (map Fin oc)) = Ok y.
Proof.
  destruct (C65_ultimate_oscillator _ _ _ 10 0 _ _ _ 1 2 3 4 2 1 oh_feeds ol_feeds oc_feeds obar ltac:(lia) ltac:(lia)
    ltac:(lia) ltac:(lra) ltac:(lra) ltac:(lra) ltac:(lra)) as (y & _ & E & _). now exists y.
Qed.

(** C75 *)
Theorem C75_stochrsi :
  forall (ma : ma_fun (ext R)) (a : lineR) n k x p philo pfast scale,
    keeps_range ma -> feeds a n k (fin x) -> (1 <= p)%nat -> (1 <= pfast)%nat -> 0 <= scale ->
    let w := if Nat.eqb philo 0 then p else philo in
    (k + p + w - 1 + pfast <= n)%nat ->
    exists s d, stochrsi p philo (Fin scale) a = Ok s /\
      stochrsi_talib p philo (Fin scale) ma pfast a = Ok (s, d) /\
      bounded s n (k + p + w - 1) 0 scale /\ bounded d n (k + p + w - 1 + pfast - 1) 0 scale.
Proof. exact stochrsi_talib_all. Qed.
Print Assumptions C75_stochrsi.
Example C75_run :
  exists s, stochrsi 2 3 (vofZ 1) qc = Ok (mkLine 5 s) /\ firstn 7 s = [NaN; NaN; NaN; NaN; Fin 1; Fin 0; Fin 0]%Q.
Proof. eexists; (split; [vm_compute; reflexivity|reflexivity]). Qed.
Example C75_use : exists s d, stochrsi_talib 2 3 (Fin 100) sma_ 2 (raw (map Fin oc)) = Ok (s, d) /\ bounded s 10 4 0 100.
Proof.
  destruct (C75_stochrsi sma_ _ 10 0 _ 2 3 2 100 keeps_sma oc_feeds ltac:(lia) ltac:(lia) ltac:(lra) ltac:(simpl; lia))
    as (s & d & _ & E & B & _). now exists s, d.
Qed.
