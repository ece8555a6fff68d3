(** Property theorems C57-C61, C66, C67 and C70: price transforms, pointwise math, window
    extremes, rates of change, the MACD family and cross detection.  Models: IndBasic.v.

    [feeds a n k (fin x)]: line [a] has n bars and delivers the real numbers x i from bar k
    on; [delivers] also says that it holds NaN before bar k. *)
From Coq Require Import ZArith QArith List Bool Reals Lra Lia.
From Verif Require Import Num Series Line Spec RSpec LineFacts RFacts OpFacts IndMA MAFacts
  RLineFacts IndBasic BasicFacts CrossFacts PropLinesFacts PropBasicFacts.
Import ListNotations.
Local Open Scope R_scope.

(** concrete inputs *)
Definition bx : list R := [1; 5; 2; 4; 3; 7; 6; 9].
Example bx_feeds : feeds (raw (map Fin bx)) 8 0 (fin (fun i => nth i bx 0)).
Proof. exact (raw_fin_feeds bx). Qed.
Definition by_ : list R := [2; 3; 3; 4; 2; 8; 6; 1].
Example by_feeds : feeds (raw (map Fin by_)) 8 0 (fin (fun i => nth i by_ 0)).
Proof. exact (raw_fin_feeds by_). Qed.
Example bx3_feeds : feeds (sma 3 (raw (map Fin bx))) 8 2
  (fin (fun i => Rmean (lastp (fun i => nth i bx 0) i 3))).
Proof. exact (delivers_feeds (@sma_fin _ 8 0 _ 3 bx_feeds ltac:(lia))). Qed.
Definition qx : line (ext Q) := raw (map Fin [1; 5; 2; 4; 3; 7; 6; 9]%Q).
Definition qy : line (ext Q) := raw (map Fin [2; 3; 3; 4; 2; 8; 6; 1]%Q).

(** C57: any averages *)
Theorem C57_macd_apo :
  forall (ma masig : ma_fun (ext R)) (a : lineR) n k x pfast pslow psig,
    averages ma -> averages masig -> feeds a n k (fin x) ->
    (1 <= pfast <= pslow)%nat -> (1 <= psig)%nat -> (k + (pslow - 1) + psig <= n)%nat ->
    exists yf ys f s m sg h g,
      ma pfast a = Ok yf /\ delivers yf n (k + pfast - 1) (fin f) /\
      ma pslow a = Ok ys /\ delivers ys n (k + pslow - 1) (fin s) /\
      macd ma masig pfast pslow psig a = Ok (m, sg, h) /\
      apo ma pfast pslow a = Ok m /\
      masig psig m = Ok sg /\
      delivers m n (k + pslow - 1) (fin (fun i => f i - s i)) /\
      delivers sg n (k + pslow - 1 + psig - 1) (fin g) /\
      delivers h n (k + pslow - 1 + psig - 1) (fin (fun i => (f i - s i) - g i)).
Proof. exact macd_fin. Qed.
Print Assumptions C57_macd_apo.
Example C57_averages : averages sma_ /\ averages ema /\ averages smma.
Proof. exact (conj averages_sma (conj averages_ema averages_smma)). Qed.

(** C57: the default exponential averages *)
Theorem C57_macd_ema :
  forall (a : lineR) n k x pfast pslow psig,
    feeds a n k (fin x) ->
    (1 <= pfast <= pslow)%nat -> (1 <= psig)%nat -> (k + (pslow - 1) + psig <= n)%nat ->
    exists m sg h f s g,
      macd ema ema pfast pslow psig a = Ok (m, sg, h) /\
      is_ema pfast k x f /\ is_ema pslow k x s /\
      is_ema psig (k + pslow - 1) (fun i => f i - s i) g /\
      delivers m n (k + pslow - 1) (fin (fun i => f i - s i)) /\
      delivers sg n (k + pslow - 1 + psig - 1) (fin g) /\
      delivers h n (k + pslow - 1 + psig - 1) (fin (fun i => (f i - s i) - g i)).
Proof. exact macd_ema_fin. Qed.
Print Assumptions C57_macd_ema.
Example C57_macd_ema_met := C57_macd_ema _ 8 0 _ 2 3 2 bx_feeds ltac:(lia) ltac:(lia) ltac:(lia).

(** C57: the ta-lib variant seeds the fast average later, with the [pfast] values that end
    where the first slow average ends *)
Theorem C57_macd_talib :
  forall (a : lineR) n k x pfast pslow psig,
    feeds a n k (fin x) ->
    (1 <= pfast <= pslow)%nat -> (1 <= psig)%nat -> (k + (pslow - 1) + psig <= n)%nat ->
    exists m sg h f s g,
      macd_talib pfast pslow psig a = Ok (m, sg, h) /\
      is_ema_at pfast (k + pslow - 1) x f /\ is_ema pslow k x s /\
      is_ema psig (k + pslow - 1) (fun i => f i - s i) g /\
      delivers m n (k + pslow - 1) (fin (fun i => f i - s i)) /\
      delivers sg n (k + pslow - 1 + psig - 1) (fin g) /\
      delivers h n (k + pslow - 1 + psig - 1) (fin (fun i => (f i - s i) - g i)).
Proof. exact macd_talib_fin. Qed.
Print Assumptions C57_macd_talib.
Example C57_macd_talib_met := C57_macd_talib _ 8 2 _ 2 3 2 bx3_feeds ltac:(lia) ltac:(lia) ltac:(lia).

(** C57: ppo, for any averages with a non-zero slow average *)
Theorem C57_ppo :
  forall (ma masig : ma_fun (ext R)) (a : lineR) n k x pfast pslow psig,
    averages ma -> averages masig -> feeds a n k (fin x) ->
    (1 <= pfast <= pslow)%nat -> (1 <= psig)%nat -> (k + (pslow - 1) + psig <= n)%nat ->
    exists yf ys f s,
      ma pfast a = Ok yf /\ delivers yf n (k + pfast - 1) (fin f) /\
      ma pslow a = Ok ys /\ delivers ys n (k + pslow - 1) (fin s) /\
      ((forall i, (k + pslow - 1 <= i < n)%nat -> s i <> 0) ->
       exists m sg h g,
         ppo ma masig pfast pslow psig a = Ok (m, sg, h) /\ masig psig m = Ok sg /\
         delivers m n (k + pslow - 1) (fin (fun i => 100 * (f i / s i - 1))) /\
         delivers sg n (k + pslow - 1 + psig - 1) (fin g) /\
         delivers h n (k + pslow - 1 + psig - 1) (fin (fun i => 100 * (f i / s i - 1) - g i))).
Proof.
  intros ma masig a n k x p1 p2 p3 H1 H2 H3 H4 H5 H6.
  destruct (@ppo_fin ma masig a n k x p1 p2 p3 H1 H2 H3 H4 H5 H6) as (yf & ys & f & s & A & B & C & D & E & _).
  exists yf, ys, f, s. tauto.
Qed.
Print Assumptions C57_ppo.
Example C57_ppo_met := C57_ppo _ _ _ 8 2 _ 2 3 2 averages_ema averages_sma bx3_feeds ltac:(lia) ltac:(lia) ltac:(lia).
(** and with positive prices no further condition is needed *)
Theorem C57_ppo_positive :
  forall (a : lineR) n k x pfast pslow psig,
    feeds a n k (fin x) -> (forall i, (k <= i)%nat -> 0 < x i) ->
    (1 <= pfast <= pslow)%nat -> (1 <= psig)%nat -> (k + (pslow - 1) + psig <= n)%nat ->
    exists m sg h f s g,
      ppo ema ema pfast pslow psig a = Ok (m, sg, h) /\
      is_ema pfast k x f /\ is_ema pslow k x s /\
      is_ema psig (k + pslow - 1) (fun i => 100 * (f i / s i - 1)) g /\
      delivers m n (k + pslow - 1) (fin (fun i => 100 * (f i / s i - 1))) /\
      delivers sg n (k + pslow - 1 + psig - 1) (fin g) /\
      delivers h n (k + pslow - 1 + psig - 1) (fin (fun i => 100 * (f i / s i - 1) - g i)).
Proof. exact ppo_ema_fin. Qed.
Print Assumptions C57_ppo_positive.
Example C57_run :
  macd sma_ sma_ 2 3 2 qx =
  Ok (mkLine 3 [NaN; NaN; Fin (5#6); Fin (-2#3); Fin (1#2); Fin (1#3); Fin (7#6); Fin (1#6)],
      mkLine 4 [NaN; NaN; NaN; Fin (1#12); Fin (-1#12); Fin (5#12); Fin (3#4); Fin (2#3)],
      mkLine 4 [NaN; NaN; NaN; Fin (-3#4); Fin (7#12); Fin (-1#12); Fin (5#12); Fin (-1#2)])%Q.
Proof. vm_compute. reflexivity. Qed.
Example C57_run_talib :
  exists m sg h, macd_talib 2 3 2 qx = Ok (m, sg, h) /\ lmp m = 3%Z /\ lmp sg = 4%Z /\ lmp h = 4%Z
    /\ nth_error (lser m) 2 = Some (Fin (5#6)%Q).
Proof. eexists _, _, _. split; [vm_compute; reflexivity|]. repeat split. Qed.

(** C58: ppofast delivers the negative of its documented formula 100 * (1 - slow / fast) *)
Theorem C58_ppofast_negated :
  forall (ma masig : ma_fun (ext R)) (a : lineR) n k x pfast pslow psig,
    averages ma -> averages masig -> feeds a n k (fin x) ->
    (1 <= pfast <= pslow)%nat -> (1 <= psig)%nat -> (k + (pslow - 1) + psig <= n)%nat ->
    exists yf ys f s,
      ma pfast a = Ok yf /\ delivers yf n (k + pfast - 1) (fin f) /\
      ma pslow a = Ok ys /\ delivers ys n (k + pslow - 1) (fin s) /\
      ((forall i, (k + pslow - 1 <= i < n)%nat -> f i <> 0) ->
       exists m sg h,
         ppofast ma masig pfast pslow psig a = Ok (m, sg, h) /\
         delivers m n (k + pslow - 1) (fin (fun i => - (100 * (1 - s i / f i))))).
Proof. exact ppofast_negated. Qed.
Print Assumptions C58_ppofast_negated.
Example C58_ppofast_negated_met := C58_ppofast_negated _ _ _ 8 0 _ 2 3 2 averages_smma averages_ema bx_feeds ltac:(lia) ltac:(lia) ltac:(lia).
(** a rising market: the documented value is positive, the delivered one negative *)
Theorem C58_ppofast_refuted :
  exists m sg h,
    ppofast sma_ sma_ 1 2 1 (raw (map Fin [1; 3]%Q)) = Ok (m, sg, h) /\
    nth_error (lser (sma 1 (raw (map Fin [1; 3]%Q)))) 1 = Some (Fin 3%Q) /\
    nth_error (lser (sma 2 (raw (map Fin [1; 3]%Q)))) 1 = Some (Fin 2%Q) /\
    nth_error (lser m) 1 = Some (Fin (-100#3)%Q) /\
    (Qred (100 * (1 - 2 / 3)) = 100#3)%Q.
Proof.
  eexists _, _, _. split; [vm_compute; reflexivity|]. repeat split; vm_compute; reflexivity.
Qed.
Print Assumptions C58_ppofast_refuted.

(** C59 *)
Theorem C59_mom :
  forall (a : lineR) n k x p,
    feeds a n k (fin x) -> delivers (mom p a) n (k + p) (fin (fun i => x i - x (i - p)%nat)).
Proof. exact mom_fin. Qed.
Print Assumptions C59_mom.
Example C59_mom_met := C59_mom _ 8 2 _ 3 bx3_feeds.
Theorem C59_roc_family :
  forall (a : lineR) n k x p,
    feeds a n k (fin x) -> (1 <= p)%nat ->
    (forall i, (k + p <= i < n)%nat -> x (i - p)%nat <> 0) ->
    delivers (rocr p a) n (k + p) (fin (fun i => x i / x (i - p)%nat)) /\
    delivers (rocp p a) n (k + p) (fin (fun i => (x i - x (i - p)%nat) / x (i - p)%nat)) /\
    delivers (roc p a) n (k + p) (fin (fun i => 100 * ((x i - x (i - p)%nat) / x (i - p)%nat))) /\
    delivers (rocr100 p a) n (k + p) (fin (fun i => 100 * (x i / x (i - p)%nat))).
Proof. exact roc_family. Qed.
Print Assumptions C59_roc_family.
Example C59_roc_family_met := C59_roc_family _ 8 0 _ 2 bx_feeds ltac:(lia)
  ltac:(intros i Hi; do 8 (destruct i as [|i]; [try lia; cbn; lra|]); lia).
(** after a price of zero: an infinity or NaN at that bar only *)
Theorem C59_roc_zero :
  forall (a : lineR) n k x p i,
    feeds a n k (fin x) -> (1 <= p)%nat -> (k + p <= i < n)%nat -> x (i - p)%nat = 0 ->
    nth_error (lser (rocr p a)) i =
    Some (if Rlt_dec 0 (x i) then PInf else if Rlt_dec (x i) 0 then NInf else NaN).
Proof. exact roc_zero. Qed.
Print Assumptions C59_roc_zero.
Example C59_run :
  mom 2 qx = mkLine 3 [NaN; NaN; Fin 1; Fin (-1); Fin 1; Fin 3; Fin 3; Fin 2]%Q /\
  roc 2 qx = mkLine 3 [NaN; NaN; Fin 100; Fin (-20); Fin 50; Fin 75; Fin 100; Fin (200#7)]%Q.
Proof. split; vm_compute; reflexivity. Qed.

(** C60 *)
Theorem C60_crossup :
  forall (strict : bool) (a b : lineR) n ka kb x y,
    feeds a n ka (fin x) -> feeds b n kb (fin y) ->
    let k := Nat.max ka kb in
    exists g, delivers (crossup strict a b) n (S k) (fin g) /\
      forall i, (S k <= i < n)%nat ->
        (up_spec strict k x y i /\ g i = 1) \/ (~ up_spec strict k x y i /\ g i = 0).
Proof. exact crossup_fin. Qed.
Print Assumptions C60_crossup.
Example C60_crossup_met := C60_crossup false _ _ 8 0 2 _ _ by_feeds bx3_feeds.
(** crossing down is the other line crossing up, signalled by -1 *)
Theorem C60_crossdown :
  forall (strict : bool) (a b : lineR) n ka kb x y,
    feeds a n ka (fin x) -> feeds b n kb (fin y) ->
    let k := Nat.max ka kb in
    exists g, delivers (crossdown strict a b) n (S k) (fin g) /\
      forall i, (S k <= i < n)%nat ->
        (up_spec strict k y x i /\ g i = -1) \/ (~ up_spec strict k y x i /\ g i = 0).
Proof. exact crossdown_fin. Qed.
Print Assumptions C60_crossdown.
Example C60_crossdown_met := C60_crossdown true _ _ 8 0 2 _ _ by_feeds bx3_feeds.
Theorem C60_exclusive :
  forall strict k x y i, ~ (up_spec strict k x y i /\ up_spec strict k y x i).
Proof. intros strict k x y i. unfold up_spec, crosses_up_strict, crosses_up. destruct strict; intros [[? _] [? _]]; lra. Qed.
Print Assumptions C60_exclusive.
Example C60_run :
  crossup false qx qy = mkLine 2 [NaN; Fin 1; Fin 0; Fin 0; Fin 1; Fin 0; Fin 0; Fin 1]%Q /\
  crossup true qx qy = mkLine 2 [NaN; Fin 1; Fin 0; Fin 0; Fin 0; Fin 0; Fin 0; Fin 0]%Q /\
  crossdown false qx qy = mkLine 2 [NaN; Fin 0; Fin (-1); Fin 0; Fin 0; Fin (-1); Fin 0; Fin 0]%Q.
Proof. repeat split; vm_compute; reflexivity. Qed.

(** C61: crossover always raises *)
Theorem C61_crossover_refuted :
  forall (V : Type) (N : Num V) strict (a b : line V), crossover strict a b = Raise TypeError.
Proof. reflexivity. Qed.
Print Assumptions C61_crossover_refuted.

(** C66 *)
Theorem C66_extremes :
  forall (a : lineR) n k x p,
    feeds a n k (fin x) -> (1 <= p)%nat ->
    delivers (max_ind p a) n (k + p - 1) (fin (fun i => lmax (lastp x i p))) /\
    delivers (min_ind p a) n (k + p - 1) (fin (fun i => lmin (lastp x i p))) /\
    minmax p a = (min_ind p a, max_ind p a) /\
    forall i, is_max (lmax (lastp x i p)) (lastp x i p) /\ is_min (lmin (lastp x i p)) (lastp x i p).
Proof. exact extremes_spec. Qed.
Print Assumptions C66_extremes.
Example C66_extremes_met := C66_extremes _ 8 2 _ 3 bx3_feeds ltac:(lia).
Theorem C66_midprice :
  forall (h l : lineR) n kh kl xh xl p,
    feeds h n kh (fin xh) -> feeds l n kl (fin xl) -> (1 <= p)%nat ->
    delivers (midprice p h l) n (Nat.max kh kl + p - 1)
      (fin (fun i => (lmax (lastp xh i p) + lmin (lastp xl i p)) / 2)).
Proof. exact midprice_fin. Qed.
Print Assumptions C66_midprice.
Example C66_midprice_met := C66_midprice _ _ 8 2 0 _ _ 3 bx3_feeds by_feeds ltac:(lia).
Theorem C66_midpoint :
  forall (a : lineR) n k x p,
    feeds a n k (fin x) -> (1 <= p)%nat ->
    delivers (midpoint p a) n (k + p - 1)
      (fin (fun i => (lmax (lastp x i p) + lmin (lastp x i p)) / 2)).
Proof. exact midpoint_spec. Qed.
Print Assumptions C66_midpoint.
Example C66_midpoint_met := C66_midpoint _ 8 2 _ 3 bx3_feeds ltac:(lia).
(** the index counts from the first bar of the window; ties go to the oldest bar *)
Theorem C66_maxindex :
  forall (a : lineR) n k x p,
    feeds a n k (fin x) -> (1 <= p)%nat ->
    exists m, delivers (maxindex p a) n (k + p - 1) (fin (fun i => INR (m i - (S i - p)))) /\
      forall i, (k + p - 1 <= i)%nat -> top_bar x i p (m i).
Proof. exact maxindex_spec. Qed.
Print Assumptions C66_maxindex.
Example C66_maxindex_met := C66_maxindex _ 8 2 _ 3 bx3_feeds ltac:(lia).
Theorem C66_minindex :
  forall (a : lineR) n k x p,
    feeds a n k (fin x) -> (1 <= p)%nat ->
    exists m, delivers (minindex p a) n (k + p - 1) (fin (fun i => INR (m i - (S i - p)))) /\
      forall i, (k + p - 1 <= i)%nat -> bottom_bar x i p (m i).
Proof. exact minindex_spec. Qed.
Print Assumptions C66_minindex.
Example C66_minindex_met := C66_minindex _ 8 2 _ 3 bx3_feeds ltac:(lia).
(** minmaxindex has the two indices as outputs *)
Theorem C66_minmaxindex :
  forall (a : lineR) n k x p,
    feeds a n k (fin x) -> (1 <= p)%nat ->
    exists lo hi,
      delivers (fst (minmaxindex p false a)) n (k + p - 1) (fin (fun i => INR (lo i - (S i - p)))) /\
      delivers (snd (minmaxindex p false a)) n (k + p - 1) (fin (fun i => INR (hi i - (S i - p)))) /\
      forall i, (k + p - 1 <= i)%nat -> bottom_bar x i p (lo i) /\ top_bar x i p (hi i).
Proof. exact minmaxindex_spec. Qed.
Print Assumptions C66_minmaxindex.
Example C66_run :
  max_ind 3 qx = mkLine 3 [NaN; NaN; Fin 5; Fin 5; Fin 4; Fin 7; Fin 7; Fin 9]%Q /\
  min_ind 3 qx = mkLine 3 [NaN; NaN; Fin 1; Fin 2; Fin 2; Fin 3; Fin 3; Fin 6]%Q /\
  maxindex 3 qx = mkLine 3 [NaN; NaN; Fin 1; Fin 0; Fin 1; Fin 2; Fin 1; Fin 2]%Q /\
  midpoint 3 qx = mkLine 3 [NaN; NaN; Fin 3; Fin (7#2); Fin 3; Fin 5; Fin 5; Fin (15#2)]%Q.
Proof. repeat split; vm_compute; reflexivity. Qed.

(** C67: with [_absidx] the delivered index is the bar of the extreme minus the warm-up of
    the input: right for raw data (k = 0) only; bars before are 0 *)
Theorem C67_maxindex_abs_partial :
  forall (a : lineR) n k x p,
    feeds a n k (fin x) -> (1 <= p)%nat ->
    exists m, (forall i, (k + p - 1 <= i)%nat -> top_bar x i p (m i)) /\
      let y := maxindex_abs p a in
      lmp y = 1%Z /\ length (lser y) = n /\
      (forall i, (i < k + p - 1)%nat -> (i < n)%nat -> nth_error (lser y) i = Some (Fin 0)) /\
      (forall i, (k + p - 1 <= i < n)%nat -> nth_error (lser y) i = Some (Fin (INR (m i) - INR k))).
Proof. exact maxindex_abs_spec. Qed.
Print Assumptions C67_maxindex_abs_partial.
Example C67_maxindex_abs_partial_met := C67_maxindex_abs_partial _ 8 0 _ 3 bx_feeds ltac:(lia).
Theorem C67_minindex_abs_partial :
  forall (a : lineR) n k x p,
    feeds a n k (fin x) -> (1 <= p)%nat ->
    exists m, (forall i, (k + p - 1 <= i)%nat -> bottom_bar x i p (m i)) /\
      let y := minindex_abs p a in
      lmp y = 1%Z /\ length (lser y) = n /\
      (forall i, (i < k + p - 1)%nat -> (i < n)%nat -> nth_error (lser y) i = Some (Fin 0)) /\
      (forall i, (k + p - 1 <= i < n)%nat -> nth_error (lser y) i = Some (Fin (INR (m i) - INR k))).
Proof. exact minindex_abs_spec. Qed.
Print Assumptions C67_minindex_abs_partial.
Example C67_minindex_abs_partial_met := C67_minindex_abs_partial _ 8 0 _ 3 bx_feeds ltac:(lia).
Theorem C67_minmaxindex_abs_partial :
  forall (a : lineR) n k x p,
    feeds a n k (fin x) -> (1 <= p)%nat ->
    exists lo hi, (forall i, (k + p - 1 <= i)%nat -> bottom_bar x i p (lo i) /\ top_bar x i p (hi i)) /\
      forall i, (k + p - 1 <= i < n)%nat ->
        nth_error (lser (fst (minmaxindex p true a))) i = Some (Fin (INR (lo i) - INR k)) /\
        nth_error (lser (snd (minmaxindex p true a))) i = Some (Fin (INR (hi i) - INR k)).
Proof. exact minmaxindex_abs_spec. Qed.
Print Assumptions C67_minmaxindex_abs_partial.
Example C67_minmaxindex_abs_partial_met := C67_minmaxindex_abs_partial _ 8 0 _ 3 bx_feeds ltac:(lia).
Theorem C67_maxindex_abs_refuted :
  forall (a : lineR) n k x p,
    feeds a n k (fin x) -> (1 <= p)%nat -> (1 <= k)%nat ->
    forall i m, (k + p - 1 <= i < n)%nat -> top_bar x i p m ->
      nth_error (lser (maxindex_abs p a)) i <> Some (Fin (INR m)).
Proof. exact maxindex_abs_wrong. Qed.
Print Assumptions C67_maxindex_abs_refuted.
Example C67_run :
  maxindex_abs 3 qx = mkLine 1 [Fin 0; Fin 0; Fin 1; Fin 1; Fin 3; Fin 5; Fin 5; Fin 7]%Q /\
  maxindex_abs 2 (sma 3 qx) =   (* 8/3 11/3 3 14/3 16/3 22/3 from bar 2 *)
    mkLine 1 [Fin 0; Fin 0; Fin 0; Fin 1; Fin 1; Fin 3; Fin 4; Fin 5]%Q.
Proof. split; vm_compute; reflexivity. Qed.

(** C70 *)
Theorem C70_prices :
  forall (o h l c : lineR) n k xo xh xl xc,
    feeds o n k (fin xo) -> feeds h n k (fin xh) -> feeds l n k (fin xl) -> feeds c n k (fin xc) ->
    exists av ty wc md,
      delivers (avgprice (vofZ 4) o h l c) n k (fin av) /\
      delivers (typprice (vofZ 3) h l c) n k (fin ty) /\
      delivers (wclprice (vofZ 2) (vofZ 4) h l c) n k (fin wc) /\
      delivers (medprice (vofZ 2) h l) n k (fin md) /\
      forall i,
        av i = (xo i + xh i + xl i + xc i) / 4 /\ ty i = (xh i + xl i + xc i) / 3 /\
        wc i = (xh i + xl i + 2 * xc i) / 4 /\ md i = (xh i + xl i) / 2 /\
        (xl i <= xo i <= xh i -> xl i <= xc i <= xh i ->
         xl i <= av i <= xh i /\ xl i <= ty i <= xh i /\ xl i <= wc i <= xh i /\ xl i <= md i <= xh i).
Proof. exact prices_within. Qed.
Print Assumptions C70_prices.
Example C70_prices_met := C70_prices _ _ _ _ 8 0 _ _ _ _ bx_feeds by_feeds bx_feeds by_feeds.
(** the two-input operators, for any values (NaN and infinities included) *)
Theorem C70_two_inputs :
  forall (V : Type) (N : Num V) (a b : line V) n ka kb f g,
    feeds a n ka f -> feeds b n kb g ->
    delivers (add_ind a b) n (Nat.max ka kb) (fun i => vadd (f i) (g i)) /\
    delivers (sub_ind a b) n (Nat.max ka kb) (fun i => vsub (f i) (g i)) /\
    delivers (mult_ind a b) n (Nat.max ka kb) (fun i => vmul (f i) (g i)) /\
    delivers (div_ind a b) n (Nat.max ka kb) (fun i => vdiv (f i) (g i)).
Proof. exact @two_inputs. Qed.
Print Assumptions C70_two_inputs.
Example C70_two_inputs_met := C70_two_inputs _ _ _ _ 8 2 0 _ _ bx3_feeds by_feeds.
(** the one-input functions (sin ... log10), with the optional conversion from degrees *)
Theorem C70_math :
  forall (a : lineR) n k f (func : ext R -> ext R),
    feeds a n k f ->
    delivers (mathrad func false a) n k (fun i => func (f i)) /\
    delivers (mathrad func true a) n k (fun i => func (vdiv (vmul (f i) (Fin PI)) (Fin 180))) /\
    delivers (mathapply func a) n k (fun i => func (f i)).
Proof. exact math_pointwise. Qed.
Print Assumptions C70_math.
Example C70_math_met := C70_math _ 8 2 _ vabs bx3_feeds.
Theorem C70_sqrt :
  forall (a : lineR) n k f,
    feeds a n k f ->
    delivers (sqrt_ind a) n k (fun i =>
      match f i with
      | Fin r => if Rlt_dec r 0 then NaN else Fin (sqrt r)
      | NaN => NaN
      | PInf | NInf => PInf
      end).
Proof. exact sqrt_spec. Qed.
Print Assumptions C70_sqrt.
Example C70_run :
  typprice (vofZ 3) qx qy qx =
  mkLine 1 [Fin (4#3); Fin (13#3); Fin (7#3); Fin 4; Fin (8#3); Fin (22#3); Fin 6; Fin (19#3)]%Q.
Proof. vm_compute. reflexivity. Qed.
