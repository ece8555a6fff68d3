(** Lemmas behind the property theorems C48-C51, C65 and C75. *)
From Coq Require Import ZArith QArith List Bool Lia Arith Reals Lra Psatz.
From Verif Require Import Num Series Line Spec RSpec BoundSpec RangeSpec OscSpec LineFacts ScanFacts RFacts OpFacts
  IndMA MAFacts RLineFacts IndBasic BasicFacts StatFacts BoundFacts IndRange RangeFacts RangeFacts2 IndOsc OscFacts OscFacts2 PropMAFacts.
Import ListNotations.
Set Implicit Arguments.
Local Open Scope R_scope.

Lemma mfi_all (h l c v : lineR) n k p xh xl xc xv :
  feeds h n k (fin xh) -> feeds l n k (fin xl) -> feeds c n k (fin xc) -> feeds v n k (fin xv) ->
  (1 <= p)%nat ->
  let t := typical xh xl xc in
  (forall i, (k <= i < n)%nat -> 0 <= t i /\ 0 <= xv i) ->
  exists f, delivers (mfi p h l c v) n (k + p) f /\
    forall i, (k + p <= i < n)%nat ->
      let inn := Rsum (lastp (inflow t xv) i p) in
      let out := Rsum (lastp (outflow t xv) i p) in
      f i = quot (100 * inn) (inn + out) /\ num_in 0 100 (f i) /\
      (f i = NaN <-> forall j, (S i - p <= j <= i)%nat -> t j * xv j = 0 \/ t j = t (j - 1)%nat).
Proof.
  intros Hh Hl Hc Hv Hp t Hpos.
  destruct (@mfi_core h l c v n k p xh xl xc xv Hh Hl Hc Hv Hp Hpos) as (P & D & Dy & EP & ED & H).
  eexists. split; [exact Dy|]. intros i Hi inn out. cbv beta.
  destruct (H i Hi) as [[P0 PZ] [D0 DZ]].
  split; [unfold strength_of; now rewrite EP, ED|]. split; [now apply strength_in|].
  rewrite strength_nan, PZ, DZ by assumption. fold t. unfold inflow, outflow. split.
  - intros [A B] j Hj. specialize (A j Hj). specialize (B j Hj).
    destruct (Rlt_dec (t (j - 1)%nat) (t j)) as [L|L]; [left; exact A|].
    destruct (Rlt_dec (t j) (t (j - 1)%nat)) as [G|G]; [left; exact B|]. right. lra.
  - intro A. split; intros j Hj; destruct (A j Hj) as [Z|Z].
    + destruct (Rlt_dec (t (j - 1)%nat) (t j)); [exact Z|reflexivity].
    + destruct (Rlt_dec (t (j - 1)%nat) (t j)); [lra|reflexivity].
    + destruct (Rlt_dec (t j) (t (j - 1)%nat)); [exact Z|reflexivity].
    + destruct (Rlt_dec (t j) (t (j - 1)%nat)); [lra|reflexivity].
Qed.

Lemma stoch_all (h l c : lineR) n k p xh xl xc :
  feeds h n k (fin xh) -> feeds l n k (fin xl) -> feeds c n k (fin xc) -> (1 <= p)%nat ->
  (forall i, (k <= i < n)%nat -> xl i <= xc i <= xh i) ->
  exists kf wf,
    (forall ma pfast y d, stochf ma p pfast h l c = Ok (y, d) -> delivers y n (k + p - 1) kf) /\
    delivers (williamsr p h l c) n (k + p - 1) wf /\
    forall i, (k + p - 1 <= i < n)%nat ->
      let hh := highest xh p i in let ll := lowest xl p i in
      kf i = quot (100 * (xc i - ll)) (hh - ll) /\
      wf i = vsub (kf i) (Fin 100) /\
      num_in 0 100 (kf i) /\ num_in (-100) 0 (wf i) /\
      (kf i = NaN <-> hh = ll) /\ (wf i = NaN <-> hh = ll).
Proof.
  intros Hh Hl Hc Hp Hb. exists (kval p xh xl xc), (fun i => vsub (kval p xh xl xc i) (Fin 100)).
  split.
  { intros ma pfast y d E. unfold stochf in E. destruct (ma pfast (stoch_k p h l c)); [|discriminate].
    injection E as <- _. now apply stoch_k_fin. }
  split; [now apply williamsr_fin with (xh := xh) (xl := xl) (xc := xc)|].
  intros i Hi hh ll. destruct (@kval_in n k p xh xl xc Hp Hb i Hi) as (A & B & _).
  split; [reflexivity|]. split; [reflexivity|]. split; [exact A|]. split.
  { replace (-100) with (0 - 100) by lra. replace 0 with (100 - 100) at 2 by lra. now apply num_in_shift. }
  split; [exact B|]. unfold hh, ll. rewrite <- B. destruct A as [->|(r & -> & _)]; [reflexivity|].
  rewrite vsub_fin. split; discriminate.
Qed.

Lemma stochastic_bounds (ma maslow : ma_fun (ext R)) (h l c : lineR) n k p pfast pslow xh xl xc :
  keeps_range ma -> keeps_range maslow ->
  feeds h n k (fin xh) -> feeds l n k (fin xl) -> feeds c n k (fin xc) ->
  (1 <= p)%nat -> (1 <= pfast)%nat -> (1 <= pslow)%nat -> (k + p - 1 + (pfast - 1) + pslow <= n)%nat ->
  (forall i, (k <= i < n)%nat -> xl i <= xc i <= xh i) ->
  exists y d dd,
    stochf ma p pfast h l c = Ok (y, d) /\ stochastic ma maslow p pfast pslow h l c = Ok (d, dd) /\
    maslow pslow d = Ok dd /\
    bounded y n (k + p - 1) 0 100 /\
    bounded d n (k + p - 1 + pfast - 1) 0 100 /\
    bounded dd n (k + p - 1 + pfast - 1 + pslow - 1) 0 100.
Proof.
  intros M1 M2 Hh Hl Hc Hp Hf Hs Hn Hb.
  destruct (@stochastic_all h l c n k p xh xl xc Hh Hl Hc Hp Hb ma maslow pfast pslow M1 M2 Hf Hs Hn)
    as (d & dd & E & E1 & E2 & B1 & B2).
  exists (stoch_k p h l c), d, dd. split; [exact E1|]. split; [exact E|]. split; [exact E2|]. split; [|split; [exact B1|exact B2]].
  exists (kval p xh xl xc). split; [now apply stoch_k_fin|]. intros i Hi. now apply (@kval_in n k p xh xl xc Hp Hb i Hi).
Qed.

Lemma aroon_all (h l : lineR) n k p xh xl :
  feeds h n k (fin xh) -> feeds l n k (fin xl) -> (1 <= p)%nat ->
  exists dn up dl du,
    aroon p h l = (dn, up) /\
    delivers up n (k + p) (fin (fun i => 100 * (INR p - INR (du i)) / INR p)) /\
    delivers dn n (k + p) (fin (fun i => 100 * (INR p - INR (dl i)) / INR p)) /\
    delivers (aroonosc p h l) n (k + p) (fin (fun i => 100 * (INR (dl i) - INR (du i)) / INR p)) /\
    forall i, (k + p <= i < n)%nat ->
      bars_since_high xh (p + 1) i (du i) /\ bars_since_low xl (p + 1) i (dl i) /\
      0 <= 100 * (INR p - INR (du i)) / INR p <= 100 /\
      0 <= 100 * (INR p - INR (dl i)) / INR p <= 100 /\
      -100 <= 100 * (INR (dl i) - INR (du i)) / INR p <= 100.
Proof.
  intros Hh Hl Hp. destruct (@aroon_up_fin h n k p xh Hh Hp) as (du & Du & Su).
  destruct (@aroon_dn_fin l n k p xl Hl Hp) as (dl & Dl & Sl).
  exists (aroon_dn p l), (aroon_up p h), dl, du. split; [reflexivity|]. split; [exact Du|]. split; [exact Dl|]. split.
  - unfold aroonosc. assert (P := INR_pos Hp). eapply fin_ext; [| |eapply lsub_fin; eapply delivers_feeds; [exact Du|exact Dl]].
    + lia.
    + intros i _. cbv beta. field. lra.
  - intros i Hi. specialize (Su i Hi). specialize (Sl i Hi). split; [exact Su|]. split; [exact Sl|].
    destruct Su as [Su _]. destruct Sl as [Sl _].
    assert (A := @aroon_range p (du i) Hp Su). assert (B := @aroon_range p (dl i) Hp Sl).
    split; [exact A|]. split; [exact B|]. assert (P := INR_pos Hp).
    replace (100 * (INR (dl i) - INR (du i)) / INR p) with
      (100 * (INR p - INR (du i)) / INR p - 100 * (INR p - INR (dl i)) / INR p) by (field; lra). lra.
Qed.

Lemma since_high_ex x i w : (1 <= w)%nat -> (w <= S i)%nat -> exists! d, bars_since_high x w i d.
Proof.
  intros Hw Hi. exists (argmax (map (@Fin R) (rev (lastp x i w)))). split; [now apply since_high|].
  intros d Hd. eapply since_high_unique; [now apply since_high|exact Hd].
Qed.

Lemma uo_all (h l c : lineR) n k xh xl xc p1 p2 p3 f1 f2 f3 :
  feeds h n k (fin xh) -> feeds l n k (fin xl) -> feeds c n k (fin xc) ->
  (forall i, (k <= i < n)%nat -> xl i <= xc i <= xh i) ->
  (1 <= p1)%nat -> (1 <= p2)%nat -> (1 <= p3)%nat ->
  0 <= f1 -> 0 <= f2 -> 0 <= f3 -> 0 < f1 + f2 + f3 ->
  let first := (k + Nat.max (Nat.max p1 p2) p3)%nat in
  let bp p i := Rsum (lastp (pressure xl xc) i p) in
  let tr p i := Rsum (lastp (true_range xh xl xc 1) i p) in
  exists y f, ultosc p1 p2 p3 (Fin f1) (Fin f2) (Fin f3) h l c = Ok y /\ delivers y n first f /\
    forall i, (first <= i < n)%nat ->
      num_in 0 100 (f i) /\
      (tr p1 i <> 0 -> tr p2 i <> 0 -> tr p3 i <> 0 ->
       f i = Fin (100 * wmean [f1; f2; f3] [bp p1 i / tr p1 i; bp p2 i / tr p2 i; bp p3 i / tr p3 i])).
Proof.
  intros Hh Hl Hc Hb H1 H2 H3 F1 F2 F3 FS first bp tr.
  destruct (@ultosc_all h l c n k xh xl xc p1 p2 p3 f1 f2 f3 Hh Hl Hc H1 H2 H3 ltac:(lra)) as (y & E & D).
  exists y. eexists. split; [exact E|]. split; [exact D|]. intros i Hi. cbv beta. split.
  - apply blend_in; auto; eapply share_in; eauto; lia.
  - intros T1 T2 T3. unfold share. fold (bp p1 i) (bp p2 i) (bp p3 i) (tr p1 i) (tr p2 i) (tr p3 i).
    rewrite !quot_fin by assumption. apply blend_fin. lra.
Qed.

Lemma bop_all (o h l c : lineR) n k xo xh xl xc :
  feeds o n k (fin xo) -> feeds h n k (fin xh) -> feeds l n k (fin xl) -> feeds c n k (fin xc) ->
  (forall i, (k <= i < n)%nat -> xl i <= xo i <= xh i /\ xl i <= xc i <= xh i) ->
  exists f, delivers (bop o h l c) n k f /\
    forall i, (k <= i < n)%nat ->
      f i = quot (xc i - xo i) (xh i - xl i) /\ num_in (-1) 1 (f i) /\ (f i = NaN <-> xh i = xl i).
Proof.
  intros Ho Hh Hl Hc Hb. eexists. split; [apply bop_fin; eassumption|].
  intros i Hi. cbv beta. destruct (Hb i Hi) as [A B]. split; [reflexivity|].
  split; [apply quot_in; lra|]. rewrite quot_nan by lra. lra.
Qed.

Lemma stochrsi_talib_all (ma : ma_fun (ext R)) (a : lineR) n k x p philo pfast scale :
  keeps_range ma -> feeds a n k (fin x) -> (1 <= p)%nat -> (1 <= pfast)%nat -> 0 <= scale ->
  let w := if Nat.eqb philo 0 then p else philo in
  (k + p + w - 1 + pfast <= n)%nat ->
  exists s d, stochrsi p philo (Fin scale) a = Ok s /\
    stochrsi_talib p philo (Fin scale) ma pfast a = Ok (s, d) /\
    bounded s n (k + p + w - 1) 0 scale /\ bounded d n (k + p + w - 1 + pfast - 1) 0 scale.
Proof.
  intros Hma Ha Hp Hf Hs w Hn.
  assert (Hw : (1 <= w)%nat). { unfold w. destruct (Nat.eqb_spec philo 0); lia. }
  destruct (@stochrsi_all a n k x p philo scale Ha Hp Hs) as (s & E & B); [fold w; lia|]. fold w in B.
  assert (B' := B). destruct B' as (f & D & R).
  destruct (Hma pfast s n (k + p + w - 1)%nat f 0 scale (delivers_feeds D) Hf ltac:(lia) R) as (d & Ed & Bd).
  exists s, d. split; [exact E|]. split; [unfold stochrsi_talib; rewrite E; simpl; now rewrite Ed|]. split; assumption.
Qed.

(** too few bars *)
Lemma rsi_short (a : lineR) n k x p q :
  feeds a n k (fin x) -> (1 <= p)%nat -> (n < k + q + p)%nat -> rsi smma p q a = Raise IndexError.
Proof.
  intros Ha Hp Hn. unfold rsi.
  assert (U := delivers_feeds (@updays_fin a n k q x Ha)).
  now rewrite (proj2 (@ema_short _ _ _ n (k + q) _ p U Hp ltac:(lia))).
Qed.
