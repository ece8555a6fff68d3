(** Money flow, stochastics, Williams' %R, aroon, ultimate oscillator, balance of power and
    stochastic RSI on finite lines. *)
From Coq Require Import ZArith QArith List Bool Lia Arith Reals Lra Psatz.
From Verif Require Import Num Series Line Spec RSpec BoundSpec RangeSpec OscSpec LineFacts ScanFacts RFacts OpFacts
  IndMA MAFacts RLineFacts IndBasic BasicFacts StatFacts BoundFacts IndRange RangeFacts RangeFacts2 IndOsc OscFacts.
Import ListNotations.
Set Implicit Arguments.
Local Open Scope R_scope.

Lemma quot_nan a b : (b = 0 -> a = 0) -> (quot a b = NaN <-> b = 0).
Proof.
  intro H. split.
  - intro E. destruct (Req_EM_T b 0) as [Z|Z]; [exact Z|]. rewrite quot_fin in E by exact Z. discriminate.
  - intro Z. rewrite (H Z), Z. apply quot_00.
Qed.

(** ** mfi *)
Section MFI.
  Variables (h l c v : lineR) (n k p : nat) (xh xl xc xv : nat -> R).
  Hypothesis Hh : feeds h n k (fin xh).
  Hypothesis Hl : feeds l n k (fin xl).
  Hypothesis Hc : feeds c n k (fin xc).
  Hypothesis Hv : feeds v n k (fin xv).
  Hypothesis Hp : (1 <= p)%nat.

  Let t := typical xh xl xc.
  Let tprice := binop_s vdiv (ladd (ladd h l) c) (vofZ 3).

  Lemma tprice_fin : delivers tprice n k (fin t).
  Proof.
    unfold tprice. rewrite vofZ_fin. eapply fin_ext; [| |apply divs_fin; [lra|eapply delivers_feeds, ladd_fin;
      [eapply delivers_feeds, ladd_fin; [exact Hh|exact Hl]|exact Hc]]]; [lia|]. reflexivity.
  Qed.

  Lemma flow_fin (rel : ext R -> ext R -> bool) (g : nat -> R) :
    (forall i, vmul (Fin (t i * xv i)) (vofbool (rel (Fin (t i)) (Fin (t (i - 1)%nat)))) = Fin (g i)) ->
    delivers (sumn p (mul_b (lmul tprice v) (cmpop rel tprice (at_ago tprice (-1))))) n (k + p)
      (fin (fun i => Rsum (lastp g i p))).
  Proof.
    intro Hg. assert (T := delivers_feeds tprice_fin).
    eapply fin_ext; [| |apply sumn_fin; [|exact Hp]].
    3:{ eapply delivers_feeds, del_ext; [| |eapply mul_b_delivers;
          [eapply delivers_feeds, lmul_fin; [exact T|exact Hv]
          |eapply bdelivers_bfeeds, cmpop_bdelivers; [exact T|eapply delivers_feeds, (@ago_fin n tprice k t 1); [exact T|lia]]]].
        - reflexivity.
        - intros i _. apply Hg. }
    - lia.
    - reflexivity.
  Qed.

  Lemma flow_nonneg g i :
    (k + p <= i < n)%nat -> (forall j, (k < j < n)%nat -> 0 <= g j) ->
    0 <= Rsum (lastp g i p) /\
    (Rsum (lastp g i p) = 0 <-> forall j, (S i - p <= j <= i)%nat -> g j = 0).
  Proof. intros Hi Hg. apply (@lastp_zero_iff g (S k) n i p); try lia. intros j Hj. apply Hg. lia. Qed.

  Lemma mfi_core :
    (forall i, (k <= i < n)%nat -> 0 <= t i /\ 0 <= xv i) ->
    exists P D, delivers (mfi p h l c v) n (k + p) (fun i => strength_of (P i) (D i)) /\
      (forall i, P i = Rsum (lastp (inflow t xv) i p)) /\ (forall i, D i = Rsum (lastp (outflow t xv) i p)) /\
      forall i, (k + p <= i < n)%nat ->
        (0 <= P i /\ (P i = 0 <-> forall j, (S i - p <= j <= i)%nat -> inflow t xv j = 0)) /\
        (0 <= D i /\ (D i = 0 <-> forall j, (S i - p <= j <= i)%nat -> outflow t xv j = 0)).
  Proof.
    intro Hpos. exists (fun i => Rsum (lastp (inflow t xv) i p)), (fun i => Rsum (lastp (outflow t xv) i p)).
    assert (H : forall i, (k + p <= i < n)%nat ->
        (0 <= Rsum (lastp (inflow t xv) i p) /\
          (Rsum (lastp (inflow t xv) i p) = 0 <-> forall j, (S i - p <= j <= i)%nat -> inflow t xv j = 0)) /\
        (0 <= Rsum (lastp (outflow t xv) i p) /\
          (Rsum (lastp (outflow t xv) i p) = 0 <-> forall j, (S i - p <= j <= i)%nat -> outflow t xv j = 0))).
    { intros i Hi. split; apply flow_nonneg; auto; intros j Hj; unfold inflow, outflow;
        destruct (Hpos j ltac:(lia)); [destruct (Rlt_dec (t (j - 1)%nat) (t j))|destruct (Rlt_dec (t j) (t (j - 1)%nat))];
        try lra; now apply Rmult_le_pos. }
    split; [|split; [reflexivity|split; [reflexivity|exact H]]].
    apply strength_delivers.
    - apply flow_fin. intro i. rewrite vltb_fin, vmul_bool. f_equal. unfold inflow.
      destruct (Rltb_spec (t (i - 1)%nat) (t i)), (Rlt_dec (t (i - 1)%nat) (t i)); try lra; reflexivity.
    - apply flow_fin. intro i. rewrite vltb_fin, vmul_bool. f_equal. unfold outflow.
      destruct (Rltb_spec (t i) (t (i - 1)%nat)), (Rlt_dec (t i) (t (i - 1)%nat)); try lra; reflexivity.
    - intros i Hi. destruct (H i Hi) as [[A _] [B _]]. now split.
  Qed.
End MFI.

(** ** Stochastics *)

Lemma lastp_in x i p v : In v (lastp x i p) <-> exists j, (S i - p <= j < S i - p + p)%nat /\ v = x j.
Proof. unfold lastp. apply in_win. Qed.

Lemma highest_ge x p i j : (1 <= p)%nat -> (p <= S i)%nat -> (S i - p <= j <= i)%nat -> x j <= highest x p i.
Proof.
  intros Hp Hpi Hj. apply (lmax_is (@lastp_nonnil x i p Hp)). apply lastp_in. exists j. split; [lia|reflexivity].
Qed.
Lemma lowest_le x p i j : (1 <= p)%nat -> (p <= S i)%nat -> (S i - p <= j <= i)%nat -> lowest x p i <= x j.
Proof.
  intros Hp Hpi Hj. apply (lmin_is (@lastp_nonnil x i p Hp)). apply lastp_in. exists j. split; [lia|reflexivity].
Qed.

Section Stoch.
  Variables (h l c : lineR) (n k p : nat) (xh xl xc : nat -> R).
  Hypothesis Hh : feeds h n k (fin xh).
  Hypothesis Hl : feeds l n k (fin xl).
  Hypothesis Hc : feeds c n k (fin xc).
  Hypothesis Hp : (1 <= p)%nat.
  Hypothesis Hbar : forall i, (k <= i < n)%nat -> xl i <= xc i <= xh i.

  Definition kval i := rank_of 100 (lowest xl p i) (highest xh p i) (xc i).

  Lemma range_bar i : (k + p - 1 <= i < n)%nat -> lowest xl p i <= xc i <= highest xh p i.
  Proof.
    intro Hi. assert (A := @lowest_le xl p i i Hp ltac:(lia) ltac:(lia)).
    assert (B := @highest_ge xh p i i Hp ltac:(lia) ltac:(lia)). assert (C := Hbar (i:=i) ltac:(lia)). lra.
  Qed.

  Lemma stoch_k_fin : delivers (stoch_k p h l c) n (k + p - 1) kval.
  Proof.
    unfold stoch_k. cbv zeta. rewrite vofZ_fin.
    assert (HH := delivers_feeds (max_ind_fin Hh Hp)). assert (LL := delivers_feeds (min_ind_fin Hl Hp)).
    eapply del_ext; [| |eapply ldiv_quot;
      [eapply delivers_feeds, rmuls_fin, delivers_feeds, lsub_fin; [exact Hc|exact LL]
      |eapply delivers_feeds, lsub_fin; [exact HH|exact LL]]]; [lia|]. reflexivity.
  Qed.
  Lemma kval_in i : (k + p - 1 <= i < n)%nat ->
    num_in 0 100 (kval i) /\ (kval i = NaN <-> highest xh p i = lowest xl p i) /\
    (kval i = Fin 100 <-> xc i = highest xh p i /\ highest xh p i <> lowest xl p i) /\
    (kval i = Fin 0 <-> xc i = lowest xl p i /\ highest xh p i <> lowest xl p i).
  Proof.
    intro Hi. assert (B := range_bar Hi). unfold kval, rank_of.
    split; [apply quot_in; lra|]. split; [rewrite quot_nan by lra; lra|].
    destruct (Req_EM_T (highest xh p i - lowest xl p i) 0) as [Z|Z].
    - replace (xc i - lowest xl p i) with 0 by lra. rewrite Z, Rmult_0_r, quot_00.
      split; (split; [discriminate|lra]).
    - rewrite quot_fin by exact Z. split.
      + split.
        * intro E. injection E as E. assert (100 * (xc i - lowest xl p i) = 100 * (highest xh p i - lowest xl p i)).
          { rewrite <- E at 2. field. exact Z. } lra.
        * intros [-> _]. f_equal. field. exact Z.
      + split.
        * intro E. injection E as E. assert (100 * (xc i - lowest xl p i) = 0 * (highest xh p i - lowest xl p i)).
          { rewrite <- E. field. exact Z. } lra.
        * intros [-> _]. f_equal. field. exact Z.
  Qed.

  Lemma williamsr_fin : delivers (williamsr p h l c) n (k + p - 1) (fun i => vsub (kval i) (Fin 100)).
  Proof.
    unfold williamsr. cbv zeta. rewrite vofZ_fin.
    assert (HH := delivers_feeds (max_ind_fin Hh Hp)). assert (LL := delivers_feeds (min_ind_fin Hl Hp)).
    eapply del_ext; [| |eapply ldiv_quot;
      [eapply delivers_feeds, rmuls_fin, delivers_feeds, lsub_fin; [exact HH|exact Hc]
      |eapply delivers_feeds, lsub_fin; [exact HH|exact LL]]]; [lia|].
    intros i Hi. cbv beta. assert (B := range_bar Hi). unfold kval, rank_of.
    fold (highest xh p i). fold (lowest xl p i).
    destruct (Req_EM_T (highest xh p i - lowest xl p i) 0) as [Z|Z].
    - replace (xc i - lowest xl p i) with 0 by lra. replace (highest xh p i - xc i) with 0 by lra.
      rewrite Z, !Rmult_0_r, quot_00. reflexivity.
    - rewrite !quot_fin by exact Z. rewrite vsub_fin. f_equal. field. exact Z.
  Qed.
  Lemma num_in_shift lo hi d v : num_in lo hi v -> num_in (lo - d) (hi - d) (vsub v (Fin d)).
  Proof.
    intros [->|(r & -> & H)]; [left; reflexivity|]. rewrite vsub_fin. apply num_in_fin. lra.
  Qed.

  Lemma stochf_all ma pfast :
    keeps_range ma -> (1 <= pfast)%nat -> (k + p - 1 + pfast <= n)%nat ->
    exists d, stochf ma p pfast h l c = Ok (stoch_k p h l c, d) /\
      bounded d n (k + p - 1 + pfast - 1) 0 100.
  Proof.
    intros Hma Hpf Hn.
    destruct (Hma pfast _ n (k + p - 1)%nat kval 0 100 (delivers_feeds stoch_k_fin) Hpf Hn) as (d & E & B).
    { intros i Hi. now apply kval_in. }
    exists d. split; [unfold stochf; now rewrite E|exact B].
  Qed.
  Lemma stochastic_all ma maslow pfast pslow :
    keeps_range ma -> keeps_range maslow -> (1 <= pfast)%nat -> (1 <= pslow)%nat ->
    (k + p - 1 + (pfast - 1) + pslow <= n)%nat ->
    exists kf d, stochastic ma maslow p pfast pslow h l c = Ok (kf, d) /\
      stochf ma p pfast h l c = Ok (stoch_k p h l c, kf) /\
      maslow pslow kf = Ok d /\
      bounded kf n (k + p - 1 + pfast - 1) 0 100 /\
      bounded d n (k + p - 1 + pfast - 1 + pslow - 1) 0 100.
  Proof.
    intros Hma Hms Hpf Hps Hn.
    destruct (@stochf_all ma pfast Hma Hpf ltac:(lia)) as (kf & E & B).
    assert (B' := B). destruct B' as (f & Df & Rf).
    destruct (Hms pslow kf n (k + p - 1 + pfast - 1)%nat f 0 100 (delivers_feeds Df) Hps ltac:(lia)) as (d & Ed & Bd).
    { exact Rf. }
    exists kf, d. split; [unfold stochastic; rewrite E; simpl; now rewrite Ed|].
    split; [exact E|]. split; [exact Ed|]. split; [exact B|exact Bd].
  Qed.
End Stoch.

(** ** Aroon *)

Lemma nth_rev_lastp x i w j : (j < w)%nat -> (w <= S i)%nat -> nth_error (rev (lastp x i w)) j = Some (x (i - j)%nat).
Proof.
  intros Hj Hw. unfold lastp, win. rewrite <- map_rev.
  rewrite nth_error_map. rewrite (nth_error_nth' (rev (seq (S i - w) w)) 0%nat) by (rewrite rev_length, seq_length; lia).
  rewrite rev_nth by (rewrite seq_length; lia). rewrite seq_length, seq_nth by lia. cbn [option_map]. do 2 f_equal. lia.
Qed.

Lemma since_high x i w : (1 <= w)%nat -> (w <= S i)%nat ->
  bars_since_high x w i (argmax (map (@Fin R) (rev (lastp x i w)))).
Proof.
  intros Hw Hi. assert (L : length (rev (lastp x i w)) = w) by (rewrite rev_length; apply win_length).
  assert (Hne : rev (lastp x i w) <> []) by (intro Z; rewrite Z in L; simpl in L; lia).
  destruct (argmax_spec Hne) as (v & Hv & [_ Hm] & Hf). set (d := argmax _) in *.
  assert (Hd : (d < w)%nat). { rewrite <- L. apply nth_error_Some. congruence. }
  rewrite nth_rev_lastp in Hv by assumption. injection Hv as <-.
  split; [exact Hd|]. split.
  - intros j Hj. apply Hm. apply nth_error_In with j. now apply nth_rev_lastp.
  - intros j Hj. apply (Hf j); [exact Hj|]. apply nth_rev_lastp; lia.
Qed.
Lemma since_low x i w : (1 <= w)%nat -> (w <= S i)%nat ->
  bars_since_low x w i (argmin (map (@Fin R) (rev (lastp x i w)))).
Proof.
  intros Hw Hi. assert (L : length (rev (lastp x i w)) = w) by (rewrite rev_length; apply win_length).
  assert (Hne : rev (lastp x i w) <> []) by (intro Z; rewrite Z in L; simpl in L; lia).
  destruct (argmin_spec Hne) as (v & Hv & [_ Hm] & Hf). set (d := argmin _) in *.
  assert (Hd : (d < w)%nat). { rewrite <- L. apply nth_error_Some. congruence. }
  rewrite nth_rev_lastp in Hv by assumption. injection Hv as <-.
  split; [exact Hd|]. split.
  - intros j Hj. apply Hm. apply nth_error_In with j. now apply nth_rev_lastp.
  - intros j Hj. apply (Hf j); [exact Hj|]. apply nth_rev_lastp; lia.
Qed.
Lemma since_high_unique x i w d d' : bars_since_high x w i d -> bars_since_high x w i d' -> d = d'.
Proof.
  intros (A & B & C) (A' & B' & C'). destruct (Nat.lt_trichotomy d d') as [H|[H|H]]; [|exact H|].
  - assert (P := C' d H). assert (Q := B d' A'). lra.
  - assert (P := C d' H). assert (Q := B' d A). lra.
Qed.
Lemma since_low_unique x i w d d' : bars_since_low x w i d -> bars_since_low x w i d' -> d = d'.
Proof.
  intros (A & B & C) (A' & B' & C'). destruct (Nat.lt_trichotomy d d') as [H|[H|H]]; [|exact H|].
  - assert (P := C' d H). assert (Q := B d' A'). lra.
  - assert (P := C d' H). assert (Q := B' d A). lra.
Qed.

Lemma aroon_from_fin (F : list (ext R) -> ext R) (m : list R -> nat) (a : lineR) n k x p :
  (forall l, length l = (p + 1)%nat -> F (map Fin l) = Fin (INR (m l))) ->
  feeds a n k (fin x) -> (1 <= p)%nat ->
  delivers (aroon_from F p a) n (k + p)
    (fin (fun i => 100 * (INR p - INR (m (lastp x i (p + 1)))) / INR p)).
Proof.
  intros HF Ha Hp. unfold aroon_from. cbv zeta. rewrite !vofZ_fin, vofnat_fin.
  assert (P := INR_pos Hp).
  eapply fin_ext; [| |apply rsubs_fin; eapply delivers_feeds, divs_fin; [|eapply delivers_feeds, rmuls_fin, delivers_feeds,
     (@rolling_fin F (fun l => INR (m l))); [exact HF|exact Ha|lia]]].
  - lia.
  - intros i _. cbv beta. field. lra.
  - lra.
Qed.

Section Aroon.
  Variables (h l : lineR) (n k p : nat) (xh xl : nat -> R).
  Hypothesis Hh : feeds h n k (fin xh).
  Hypothesis Hl : feeds l n k (fin xl).
  Hypothesis Hp : (1 <= p)%nat.

  Lemma aroon_up_fin : exists d, delivers (aroon_up p h) n (k + p) (fin (fun i => 100 * (INR p - INR (d i)) / INR p)) /\
    forall i, (k + p <= i < n)%nat -> bars_since_high xh (p + 1) i (d i).
  Proof.
    exists (fun i => argmax (map (@Fin R) (rev (lastp xh i (p + 1))))). split.
    - refine (@aroon_from_fin first_idx_highest (fun l => argmax (map (@Fin R) (rev l))) h n k xh p _ Hh Hp).
      intros s _. unfold first_idx_highest. rewrite vofnat_fin, map_rev. reflexivity.
    - intros i Hi. apply since_high; lia.
  Qed.
  Lemma aroon_dn_fin : exists d, delivers (aroon_dn p l) n (k + p) (fin (fun i => 100 * (INR p - INR (d i)) / INR p)) /\
    forall i, (k + p <= i < n)%nat -> bars_since_low xl (p + 1) i (d i).
  Proof.
    exists (fun i => argmin (map (@Fin R) (rev (lastp xl i (p + 1))))). split.
    - refine (@aroon_from_fin first_idx_lowest (fun l => argmin (map (@Fin R) (rev l))) l n k xl p _ Hl Hp).
      intros s _. unfold first_idx_lowest. rewrite vofnat_fin, map_rev. reflexivity.
    - intros i Hi. apply since_low; lia.
  Qed.
End Aroon.

Lemma aroon_range p d : (1 <= p)%nat -> (d < p + 1)%nat -> 0 <= 100 * (INR p - INR d) / INR p <= 100.
Proof.
  intros Hp Hd. assert (P := INR_pos Hp). assert (D : INR d <= INR p) by (apply le_INR; lia).
  assert (D0 := pos_INR d). assert (I : 0 < / INR p) by now apply Rinv_0_lt_compat.
  unfold Rdiv. split.
  - apply Rmult_le_pos; [|lra]. apply Rmult_le_pos; lra.
  - apply Rmult_le_reg_r with (INR p); [exact P|]. rewrite Rmult_assoc, Rinv_l by lra. lra.
Qed.
Lemma aroon_100 p d : (1 <= p)%nat -> (100 * (INR p - INR d) / INR p = 100 <-> d = 0%nat).
Proof.
  intros Hp. assert (P := INR_pos Hp). split.
  - intro E. assert (X : 100 * (INR p - INR d) = 100 * INR p). { rewrite <- E at 2. field. lra. }
    apply INR_eq. simpl. lra.
  - intros ->. simpl. field. lra.
Qed.
Lemma aroon_0 p d : (1 <= p)%nat -> (100 * (INR p - INR d) / INR p = 0 <-> d = p).
Proof.
  intros Hp. assert (P := INR_pos Hp). split.
  - intro E. assert (X : 100 * (INR p - INR d) = 0 * INR p). { rewrite <- E. field. lra. }
    apply INR_eq. lra.
  - intros ->. field. lra.
Qed.

(** ** Ultimate oscillator and balance of power *)

Lemma pressure_range h l c i :
  l i <= c i <= h i -> 0 <= pressure l c i <= true_range h l c 1 i.
Proof.
  intro H. unfold pressure, true_range, Rmin, Rmax.
  destruct (Rle_dec (l i) (c (i - 1)%nat)), (Rle_dec (h i) (c (i - 1)%nat)); lra.
Qed.

Section UO.
  Variables (h l c : lineR) (n k : nat) (xh xl xc : nat -> R).
  Hypothesis Hh : feeds h n k (fin xh).
  Hypothesis Hl : feeds l n k (fin xl).
  Hypothesis Hc : feeds c n k (fin xc).
  Hypothesis Hbar : forall i, (k <= i < n)%nat -> xl i <= xc i <= xh i.

  Definition share (p i : nat) : ext R :=
    quot (Rsum (lastp (pressure xl xc) i p)) (Rsum (lastp (true_range xh xl xc 1) i p)).

  Lemma av_fin p : (1 <= p)%nat ->
    delivers (ldiv (sumn p (lsub c (truelow 1 l c))) (sumn p (truerange 1 h l c))) n (k + p) (share p).
  Proof.
    intro Hp.
    assert (B : delivers (lsub c (truelow 1 l c)) n (k + 1) (fin (pressure xl xc))).
    { eapply fin_ext; [| |eapply lsub_fin; [exact Hc|eapply delivers_feeds, (@truelow_fin l c n k 1 xl xc); [lia|exact Hl|exact Hc]]];
      [lia|reflexivity]. }
    assert (T := @truerange_fin h l c n k 1 xh xl xc (le_n 1) Hh Hl Hc).
    eapply del_ext; [| |eapply ldiv_quot; eapply delivers_feeds, sumn_fin;
      [eapply delivers_feeds, B|exact Hp|eapply delivers_feeds, T|exact Hp]]; [lia|reflexivity].
  Qed.
  Lemma share_in p i : (1 <= p)%nat -> (k + p <= i < n)%nat -> num_in 0 1 (share p i).
  Proof.
    intros Hp Hi. unfold share.
    assert (M := @lastp_mono (pressure xl xc) (true_range xh xl xc 1) (k + 1) n i p ltac:(lia) ltac:(lia)).
    destruct M as [A B]. { intros j Hj. apply pressure_range. apply Hbar. lia. }
    apply quot_in; lra.
  Qed.
End UO.

(** a weighted mean of shares *)
Definition blend (f1 f2 f3 : R) (a b c : ext R) : ext R :=
  vadd (vadd (vmul (Fin (f1 * (100 / (f1 + f2 + f3)))) a) (vmul (Fin (f2 * (100 / (f1 + f2 + f3)))) b))
       (vmul (Fin (f3 * (100 / (f1 + f2 + f3)))) c).

Lemma blend_fin f1 f2 f3 a b c : f1 + f2 + f3 <> 0 ->
  blend f1 f2 f3 (Fin a) (Fin b) (Fin c) = Fin (100 * wmean [f1; f2; f3] [a; b; c]).
Proof.
  intro H. unfold blend. rewrite !vmul_fin, !vadd_fin. f_equal. unfold wmean, Rdot. simpl. field. lra.
Qed.
Lemma blend_in f1 f2 f3 a b c :
  0 <= f1 -> 0 <= f2 -> 0 <= f3 -> 0 < f1 + f2 + f3 ->
  num_in 0 1 a -> num_in 0 1 b -> num_in 0 1 c -> num_in 0 100 (blend f1 f2 f3 a b c).
Proof.
  intros H1 H2 H3 HS Ha Hb Hc.
  destruct Ha as [->|(ra & -> & Ha)]; [left; unfold blend; rewrite nan_mul; reflexivity|].
  destruct Hb as [->|(rb & -> & Hb)]; [left; unfold blend; rewrite nan_mul, nan_add; reflexivity|].
  destruct Hc as [->|(rc & -> & Hc)]; [left; unfold blend; rewrite nan_mul, nan_add; reflexivity|].
  rename ra into a, rb into b, rc into c.
  rewrite blend_fin by lra. apply num_in_fin. unfold wmean, Rdot. simpl.
  assert (I : 0 < / (f1 + f2 + f3)) by now apply Rinv_0_lt_compat.
  assert (0 <= f1 * a + f2 * b + f3 * c <= f1 + f2 + f3) by (split; nra).
  replace (100 * ((f1 * a + (f2 * b + (f3 * c + 0))) / (f1 + (f2 + (f3 + 0))))) with
    (100 * (f1 * a + f2 * b + f3 * c) * / (f1 + f2 + f3)) by (field; lra).
  split.
  - apply Rmult_le_pos; lra.
  - apply Rmult_le_reg_r with (f1 + f2 + f3); [exact HS|]. rewrite Rmult_assoc, Rinv_l by lra. lra.
Qed.

Lemma ultosc_all (h l c : lineR) n k xh xl xc p1 p2 p3 f1 f2 f3 :
  feeds h n k (fin xh) -> feeds l n k (fin xl) -> feeds c n k (fin xc) ->
  (1 <= p1)%nat -> (1 <= p2)%nat -> (1 <= p3)%nat -> f1 + f2 + f3 <> 0 ->
  exists y, ultosc p1 p2 p3 (Fin f1) (Fin f2) (Fin f3) h l c = Ok y /\
    delivers y n (k + Nat.max (Nat.max p1 p2) p3)
      (fun i => blend f1 f2 f3 (share xh xl xc p1 i) (share xh xl xc p2 i) (share xh xl xc p3 i)).
Proof.
  intros Hh Hl Hc H1 H2 H3 HS. unfold ultosc. cbv zeta.
  rewrite !vadd_fin, v0_fin, veqb_fin. destruct (beqb_spec (f1 + f2 + f3) 0) as [Z|Z]; [contradiction|].
  rewrite vofZ_fin, vdiv_fin by exact HS. rewrite !vmul_fin.
  eexists. split; [reflexivity|].
  eapply del_ext; [| |eapply binop_delivers; [eapply delivers_feeds, binop_delivers|];
     eapply delivers_feeds, rbinop_s_delivers, delivers_feeds, (@av_fin h l c n k xh xl xc Hh Hl Hc); assumption].
  - lia.
  - intros i _. reflexivity.
Qed.
Lemma ultosc_zero p1 p2 p3 f1 f2 f3 (h l c : lineR) :
  f1 + f2 + f3 = 0 -> ultosc p1 p2 p3 (Fin f1) (Fin f2) (Fin f3) h l c = Raise ZeroDivisionError.
Proof.
  intro Z. unfold ultosc. cbv zeta. rewrite !vadd_fin, v0_fin, veqb_fin.
  destruct (beqb_spec (f1 + f2 + f3) 0); [reflexivity|contradiction].
Qed.

Lemma bop_fin (o h l c : lineR) n k xo xh xl xc :
  feeds o n k (fin xo) -> feeds h n k (fin xh) -> feeds l n k (fin xl) -> feeds c n k (fin xc) ->
  delivers (bop o h l c) n k (fun i => quot (xc i - xo i) (xh i - xl i)).
Proof.
  intros Ho Hh Hl Hc. unfold bop. eapply del_ext; [| |eapply ldiv_quot; eapply delivers_feeds, lsub_fin;
    [exact Hc|exact Ho|exact Hh|exact Hl]]; [lia|reflexivity].
Qed.

(** ** Stochastic RSI *)

Lemma guard_win_nan G (l : list (ext R)) : In NaN l -> guard_win G l = NaN.
Proof.
  intro H. unfold guard_win.
  replace (existsb visnan (map prep l)) with true; [reflexivity|].
  symmetry. apply existsb_exists. exists NaN. split; [|reflexivity].
  apply in_map_iff. exists NaN. split; [reflexivity|exact H].
Qed.

Lemma num_list lo hi l : (forall v, In v l -> num_in lo hi v) ->
  In NaN l \/ exists m, l = map (@Fin R) m /\ forall r, In r m -> lo <= r <= hi.
Proof.
  induction l as [|v l IH]; intro H; [right; exists []; split; [reflexivity|intros r []]|].
  destruct IH as [Hn|(m & -> & Hm)]; [intros; apply H; now right|left; now right|].
  destruct (H v (or_introl eq_refl)) as [->|(r & -> & Hr)].
  - left. now left.
  - right. exists (r :: m). split; [reflexivity|]. intros s [<-|Hs]; [exact Hr|now apply Hm].
Qed.

Lemma rank_num f i w lo hi scale :
  (1 <= w)%nat -> (w <= S i)%nat -> 0 <= scale ->
  (forall v, In v (win f i w) -> num_in lo hi v) ->
  num_in 0 scale
    (vmul (vdiv (vsub (f i) (guard_win win_min (win f i w)))
                (vsub (guard_win win_max (win f i w)) (guard_win win_min (win f i w)))) (Fin scale)).
Proof.
  intros Hw Hi Hs H. assert (Hin : In (f i) (win f i w)).
  { apply in_win. exists i. split; [lia|reflexivity]. }
  destruct (@num_list lo hi (win f i w) H) as [Hn|(m & E & Hm)].
  - rewrite !guard_win_nan by exact Hn. rewrite nan_sub. left. reflexivity.
  - assert (Hm0 : m <> []). { intros ->. rewrite E in Hin. destruct Hin. }
    rewrite E in Hin |- *. apply in_map_iff in Hin. destruct Hin as (r & <- & Hr).
    rewrite !guard_win_fin, win_min_fin, win_max_fin by exact Hm0.
    destruct (lmax_is Hm0) as [_ A]. destruct (lmin_is Hm0) as [_ B].
    specialize (A r Hr). specialize (B r Hr). rewrite !vsub_fin, vdiv_quot.
    destruct (Req_EM_T (lmax m - lmin m) 0) as [Z|Z].
    + replace (r - lmin m) with 0 by lra. rewrite Z, quot_00. left. reflexivity.
    + rewrite quot_fin by exact Z. rewrite vmul_fin. apply num_in_fin.
      assert (P : 0 < lmax m - lmin m) by lra. assert (J : 0 < / (lmax m - lmin m)) by now apply Rinv_0_lt_compat.
      assert (Q : 0 <= (r - lmin m) / (lmax m - lmin m) <= 1).
      { unfold Rdiv. split; [apply Rmult_le_pos; lra|].
        apply Rmult_le_reg_r with (lmax m - lmin m); [exact P|]. rewrite Rmult_assoc, Rinv_l by lra. lra. }
      nra.
Qed.

Lemma stochrsi_all (a : lineR) n k x p philo scale :
  feeds a n k (fin x) -> (1 <= p)%nat -> 0 <= scale ->
  let w := if Nat.eqb philo 0 then p else philo in
  (k + p + w <= n)%nat ->
  exists y, stochrsi p philo (Fin scale) a = Ok y /\ bounded y n (k + p + w - 1) 0 scale.
Proof.
  intros Ha Hp Hs w Hn. assert (Hw : (1 <= w)%nat). { unfold w. destruct (Nat.eqb_spec philo 0); lia. }
  destruct (@rsi_all smma all_bars a n k x p 1 acc_smma Ha Hp ltac:(lia)) as (r & f & E & D & H).
  replace (k + 1 + p - 1)%nat with (k + p)%nat in * by lia.
  unfold stochrsi. fold w. cbv zeta. rewrite E. simpl bind. eexists. split; [reflexivity|].
  assert (F := delivers_feeds D).
  assert (MX : feeds (max_ind w r) n (k + p + w - 1) (fun i => guard_win win_max (win f i w))).
  { apply delivers_feeds. now apply rolling_delivers. }
  assert (MN : feeds (min_ind w r) n (k + p + w - 1) (fun i => guard_win win_min (win f i w))).
  { apply delivers_feeds. now apply rolling_delivers. }
  exists (fun i => vmul (vdiv (vsub (f i) (guard_win win_min (win f i w)))
                (vsub (guard_win win_max (win f i w)) (guard_win win_min (win f i w)))) (Fin scale)).
  split.
  - eapply del_ext; [| |eapply binop_s_delivers, delivers_feeds, binop_delivers; eapply delivers_feeds, binop_delivers;
      [exact F|exact MN|exact MX|exact MN]]; [lia|reflexivity].
  - intros i Hi. apply rank_num with (lo := 0) (hi := 100); try lia; try lra.
    intros v Hv. destruct (@in_win_range _ f (k + p)%nat n i w v ltac:(lia) ltac:(lia) Hv) as (j & Hj & ->).
    now apply H.
Qed.
