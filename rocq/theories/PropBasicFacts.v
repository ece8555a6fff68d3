(** Lemmas used to close the theorems of Prop_Basic.v. *)
From Coq Require Import ZArith QArith List Bool Lia Arith Reals Lra.
From Verif Require Import Num Series Line Spec RSpec LineFacts ScanFacts RFacts OpFacts
  IndMA MAFacts RLineFacts IndBasic BasicFacts CrossFacts.
Import ListNotations.
Set Implicit Arguments.
Local Open Scope R_scope.

(** bar [m] holds the first largest (smallest) of the last [p] values up to bar [i] *)
Definition top_bar (x : nat -> R) (i p m : nat) : Prop :=
  (S i - p <= m <= i)%nat /\
  (forall j, (S i - p <= j <= i)%nat -> x j <= x m) /\
  (forall j, (S i - p <= j < m)%nat -> x j < x m).
Definition bottom_bar (x : nat -> R) (i p m : nat) : Prop :=
  (S i - p <= m <= i)%nat /\
  (forall j, (S i - p <= j <= i)%nat -> x m <= x j) /\
  (forall j, (S i - p <= j < m)%nat -> x m < x j).

Lemma nth_error_win {A} (x : nat -> A) i p m v :
  nth_error (win x i p) m = Some v -> (m < p)%nat /\ v = x (S i - p + m)%nat.
Proof.
  intro H. assert (Hm : (m < p)%nat).
  { assert (nth_error (win x i p) m <> None) as Hn by congruence.
    apply nth_error_Some in Hn. now rewrite win_length in Hn. }
  split; auto. unfold win in H. rewrite nth_error_map_seq in H by auto. congruence.
Qed.

Lemma first_max_top x i p m :
  (p <= S i)%nat -> first_max m (lastp x i p) -> top_bar x i p (S i - p + m).
Proof.
  intros Hp (v & H1 & (_ & H2) & H3). apply nth_error_win in H1. destruct H1 as [Hm ->].
  split; [lia|]. split.
  - intros j Hj. apply H2. apply in_win. exists j. split; [lia|auto].
  - intros j Hj. apply (H3 (j - (S i - p))%nat); [lia|].
    unfold lastp, win. rewrite nth_error_map_seq by lia. do 2 f_equal. lia.
Qed.
Lemma first_min_bottom x i p m :
  (p <= S i)%nat -> first_min m (lastp x i p) -> bottom_bar x i p (S i - p + m).
Proof.
  intros Hp (v & H1 & (_ & H2) & H3). apply nth_error_win in H1. destruct H1 as [Hm ->].
  split; [lia|]. split.
  - intros j Hj. apply H2. apply in_win. exists j. split; [lia|auto].
  - intros j Hj. apply (H3 (j - (S i - p))%nat); [lia|].
    unfold lastp, win. rewrite nth_error_map_seq by lia. do 2 f_equal. lia.
Qed.
Lemma top_bar_unique x i p m m' : top_bar x i p m -> top_bar x i p m' -> m = m'.
Proof.
  intros (H1 & H2 & H3) (H1' & H2' & H3').
  destruct (Nat.lt_trichotomy m m') as [H|[H|H]]; auto.
  - specialize (H3' m ltac:(lia)). specialize (H2 m' ltac:(lia)). lra.
  - specialize (H3 m' ltac:(lia)). specialize (H2' m ltac:(lia)). lra.
Qed.

Lemma maxindex_spec (a : lineR) n k x p :
  feeds a n k (fin x) -> (1 <= p)%nat ->
  exists m, delivers (maxindex p a) n (k + p - 1) (fin (fun i => INR (m i - (S i - p)))) /\
    forall i, (k + p - 1 <= i)%nat -> top_bar x i p (m i).
Proof.
  intros Ha Hp. destruct (maxindex_fin Ha Hp) as (m & D & H).
  exists (fun i => S i - p + m i)%nat. split.
  - eapply delivers_ext; [|exact D]. intros i Hi. unfold fin. do 2 f_equal. lia.
  - intros i Hi. apply first_max_top; [lia|auto].
Qed.
Lemma minindex_spec (a : lineR) n k x p :
  feeds a n k (fin x) -> (1 <= p)%nat ->
  exists m, delivers (minindex p a) n (k + p - 1) (fin (fun i => INR (m i - (S i - p)))) /\
    forall i, (k + p - 1 <= i)%nat -> bottom_bar x i p (m i).
Proof.
  intros Ha Hp. destruct (minindex_fin Ha Hp) as (m & D & H).
  exists (fun i => S i - p + m i)%nat. split.
  - eapply delivers_ext; [|exact D]. intros i Hi. unfold fin. do 2 f_equal. lia.
  - intros i Hi. apply first_min_bottom; [lia|auto].
Qed.

Lemma maxindex_abs_spec (a : lineR) n k x p :
  feeds a n k (fin x) -> (1 <= p)%nat ->
  exists m, (forall i, (k + p - 1 <= i)%nat -> top_bar x i p (m i)) /\
    let y := maxindex_abs p a in
    lmp y = 1%Z /\ length (lser y) = n /\
    (forall i, (i < k + p - 1)%nat -> (i < n)%nat -> nth_error (lser y) i = Some (Fin 0)) /\
    (forall i, (k + p - 1 <= i < n)%nat -> nth_error (lser y) i = Some (Fin (INR (m i) - INR k))).
Proof.
  intros Ha Hp.
  destruct (@absidx_fin (@argmax (ext R) _) a n k x p Ha Hp) as (H1 & H2 & H3 & H4).
  exists (fun i => S i - p + argmax (map Fin (lastp x i p)))%nat. split.
  - intros i Hi. apply first_max_top; [lia|]. apply argmax_spec. now apply lastp_nonnil.
  - cbv zeta. repeat (split; [assumption|]). intros i Hi. unfold maxindex_abs, minindex_abs. rewrite (H4 i Hi). do 2 f_equal.
    rewrite <- minus_INR by lia. f_equal. lia.
Qed.
Lemma minindex_abs_spec (a : lineR) n k x p :
  feeds a n k (fin x) -> (1 <= p)%nat ->
  exists m, (forall i, (k + p - 1 <= i)%nat -> bottom_bar x i p (m i)) /\
    let y := minindex_abs p a in
    lmp y = 1%Z /\ length (lser y) = n /\
    (forall i, (i < k + p - 1)%nat -> (i < n)%nat -> nth_error (lser y) i = Some (Fin 0)) /\
    (forall i, (k + p - 1 <= i < n)%nat -> nth_error (lser y) i = Some (Fin (INR (m i) - INR k))).
Proof.
  intros Ha Hp.
  destruct (@absidx_fin (@argmin (ext R) _) a n k x p Ha Hp) as (H1 & H2 & H3 & H4).
  exists (fun i => S i - p + argmin (map Fin (lastp x i p)))%nat. split.
  - intros i Hi. apply first_min_bottom; [lia|]. apply argmin_spec. now apply lastp_nonnil.
  - cbv zeta. repeat (split; [assumption|]). intros i Hi. unfold maxindex_abs, minindex_abs. rewrite (H4 i Hi). do 2 f_equal.
    rewrite <- minus_INR by lia. f_equal. lia.
Qed.

Lemma maxindex_abs_wrong (a : lineR) n k x p :
  feeds a n k (fin x) -> (1 <= p)%nat -> (1 <= k)%nat ->
  forall i m, (k + p - 1 <= i < n)%nat -> top_bar x i p m ->
    nth_error (lser (maxindex_abs p a)) i <> Some (Fin (INR m)).
Proof.
  intros Ha Hp Hk i m Hi Hm E.
  destruct (maxindex_abs_spec Ha Hp) as (m' & Hm' & _ & _ & _ & Hv).
  rewrite (Hv i Hi) in E. injection E as E.
  rewrite (top_bar_unique (Hm' i ltac:(lia)) Hm) in E.
  assert (0 < INR k) by (apply INR_pos; auto). lra.
Qed.

Lemma extremes_spec (a : lineR) n k x p :
  feeds a n k (fin x) -> (1 <= p)%nat ->
  delivers (max_ind p a) n (k + p - 1) (fin (fun i => lmax (lastp x i p))) /\
  delivers (min_ind p a) n (k + p - 1) (fin (fun i => lmin (lastp x i p))) /\
  minmax p a = (min_ind p a, max_ind p a) /\
  forall i, is_max (lmax (lastp x i p)) (lastp x i p) /\ is_min (lmin (lastp x i p)) (lastp x i p).
Proof.
  intros Ha Hp. split; [now apply max_ind_fin|]. split; [now apply min_ind_fin|].
  split; [reflexivity|]. intro i.
  split; [apply lmax_is|apply lmin_is]; now apply lastp_nonnil.
Qed.

Lemma midpoint_spec (a : lineR) n k x p :
  feeds a n k (fin x) -> (1 <= p)%nat ->
  delivers (midpoint p a) n (k + p - 1)
    (fin (fun i => (lmax (lastp x i p) + lmin (lastp x i p)) / 2)).
Proof.
  intros Ha Hp. unfold midpoint. eapply fin_ext; [|reflexivity|eapply midprice_fin; eauto]. lia.
Qed.

Lemma roc_family (a : lineR) n k x p :
  feeds a n k (fin x) -> (1 <= p)%nat ->
  (forall i, (k + p <= i < n)%nat -> x (i - p)%nat <> 0) ->
  delivers (rocr p a) n (k + p) (fin (fun i => x i / x (i - p)%nat)) /\
  delivers (rocp p a) n (k + p) (fin (fun i => (x i - x (i - p)%nat) / x (i - p)%nat)) /\
  delivers (roc p a) n (k + p) (fin (fun i => 100 * ((x i - x (i - p)%nat) / x (i - p)%nat))) /\
  delivers (rocr100 p a) n (k + p) (fin (fun i => 100 * (x i / x (i - p)%nat))).
Proof.
  intros Ha Hp Hx. pose proof (rocbase_fin Ha Hp Hx) as D.
  unfold rocr, rocp, roc, rocr100. rewrite !vofZ_fin.
  assert (D2 : delivers (binop_s vsub (rocbase p a) (Fin 1)) n (k + p)
                 (fin (fun i => (x i - x (i - p)%nat) / x (i - p)%nat))).
  { eapply fin_ext; [reflexivity| |apply subs_fin, delivers_feeds, D].
    intros i Hi. cbv beta. field. auto. }
  split; [exact D|]. split; [exact D2|]. split.
  - apply rmuls_fin, delivers_feeds, D2.
  - apply rmuls_fin, delivers_feeds, D.
Qed.

Lemma roc_zero (a : lineR) n k x p i :
  feeds a n k (fin x) -> (1 <= p)%nat -> (k + p <= i < n)%nat -> x (i - p)%nat = 0 ->
  nth_error (lser (rocr p a)) i =
  Some (if Rlt_dec 0 (x i) then PInf else if Rlt_dec (x i) 0 then NInf else NaN).
Proof.
  intros Ha Hp Hi Hx. destruct (rocbase_quot Ha Hp) as [[_ [_ H]] _].
  unfold rocr. rewrite (H i Hi). f_equal. unfold quot. rewrite Hx.
  destruct (Req_EM_T 0 0); [reflexivity|lra].
Qed.

Lemma ppo_ema_fin (a : lineR) n k x pfast pslow psig :
  feeds a n k (fin x) -> (forall i, (k <= i)%nat -> 0 < x i) ->
  (1 <= pfast <= pslow)%nat -> (1 <= psig)%nat -> (k + (pslow - 1) + psig <= n)%nat ->
  exists m sg h f s g,
    ppo ema ema pfast pslow psig a = Ok (m, sg, h) /\
    is_ema pfast k x f /\ is_ema pslow k x s /\
    is_ema psig (k + pslow - 1) (fun i => 100 * (f i / s i - 1)) g /\
    delivers m n (k + pslow - 1) (fin (fun i => 100 * (f i / s i - 1))) /\
    delivers sg n (k + pslow - 1 + psig - 1) (fin g) /\
    delivers h n (k + pslow - 1 + psig - 1) (fin (fun i => 100 * (f i / s i - 1) - g i)).
Proof.
  intros Ha Hx Hp Hps Hn.
  destruct (@ema_fin a n k x pfast Ha ltac:(lia) ltac:(lia)) as (yf & f & Ef & If & Df).
  destruct (@ema_fin a n k x pslow Ha ltac:(lia) ltac:(lia)) as (ys & s & Es & Is & Ds).
  set (m := rbinop_s vmul (vofZ 100) (binop_s vsub (ldiv yf ys) (vofZ 1))).
  assert (Dm : delivers m n (k + pslow - 1) (fin (fun i => 100 * (f i / s i - 1)))).
  { eapply fin_ext; [|reflexivity|eapply ppo_line_fin; eauto using delivers_feeds]; [lia|].
    intros i Hi. assert (0 < s i); [|lra]. apply (@is_ema_pos pslow k x s); auto; lia. }
  destruct (@ema_fin m n (k + pslow - 1)%nat _ psig (delivers_feeds Dm) Hps ltac:(lia))
    as (sg & g & Eg & Ig & Dg).
  exists m, sg, (lsub m sg), f, s, g. unfold ppo, ppo_from, posc. rewrite Ef, Es. cbn [bind fst snd].
  fold m. rewrite Eg. cbn [bind]. repeat (split; [solve [auto]|]).
  eapply fin_ext; [|reflexivity|eapply lsub_fin; eauto using delivers_feeds]. lia.
Qed.

Lemma prices_within (o h l c : lineR) n k xo xh xl xc :
  feeds o n k (fin xo) -> feeds h n k (fin xh) -> feeds l n k (fin xl) -> feeds c n k (fin xc) ->
  exists av ty wc md,
    delivers (avgprice (vofZ 4) o h l c) n k (fin av) /\
    delivers (typprice (vofZ 3) h l c) n k (fin ty) /\
    delivers (wclprice (vofZ 2) (vofZ 4) h l c) n k (fin wc) /\
    delivers (medprice (vofZ 2) h l) n k (fin md) /\
    forall i,
      av i = (xo i + xh i + xl i + xc i) / 4 /\ ty i = (xh i + xl i + xc i) / 3 /\
      wc i = (xh i + xl i + 2 * xc i) / 4 /\ md i = (xh i + xl i) / 2 /\
      (xl i <= xo i <= xh i -> xl i <= xc i <= xh i ->
       xl i <= av i <= xh i /\ xl i <= ty i <= xh i /\ xl i <= wc i <= xh i /\ xl i <= md i <= xh i).
Proof.
  intros Ho Hh Hl Hc.
  eexists _, _, _, _. rewrite !vofZ_fin.
  split; [eapply (@avgprice_fin o h l c n k xo xh xl xc 4); eauto; lra|].
  split; [eapply (@typprice_fin h l c n k xh xl xc 3); eauto; lra|].
  split; [eapply (@wclprice_fin h l c n k xh xl xc 2 4); eauto; lra|].
  split; [eapply (@medprice_fin h l n k xh xl 2); eauto; lra|].
  intro i. cbv beta. repeat split; try lra.
Qed.

Lemma two_inputs {V} {N : Num V} (a b : line V) n ka kb f g :
  feeds a n ka f -> feeds b n kb g ->
  delivers (add_ind a b) n (Nat.max ka kb) (fun i => vadd (f i) (g i)) /\
  delivers (sub_ind a b) n (Nat.max ka kb) (fun i => vsub (f i) (g i)) /\
  delivers (mult_ind a b) n (Nat.max ka kb) (fun i => vmul (f i) (g i)) /\
  delivers (div_ind a b) n (Nat.max ka kb) (fun i => vdiv (f i) (g i)).
Proof.
  intros Ha Hb. split; [|split; [|split]].
  - now apply (@binop_delivers _ _ vadd).
  - now apply (@binop_delivers _ _ vsub).
  - now apply (@binop_delivers _ _ vmul).
  - now apply (@binop_delivers _ _ vdiv).
Qed.

Lemma math_pointwise (a : lineR) n k f (func : ext R -> ext R) :
  feeds a n k f ->
  delivers (mathrad func false a) n k (fun i => func (f i)) /\
  delivers (mathrad func true a) n k (fun i => func (vdiv (vmul (f i) (Fin PI)) (Fin 180))) /\
  delivers (mathapply func a) n k (fun i => func (f i)).
Proof.
  intro Ha. unfold mathrad, mathapply, to_radians. split; [|split].
  - now apply mapop_delivers.
  - eapply delivers_ext; [|apply mapop_delivers, delivers_feeds, mapop_delivers; eauto]. reflexivity.
  - now apply mapop_delivers.
Qed.
Lemma sqrt_spec (a : lineR) n k f :
  feeds a n k f ->
  delivers (sqrt_ind a) n k (fun i =>
    match f i with
    | Fin r => if Rlt_dec r 0 then NaN else Fin (sqrt r)
    | NaN => NaN
    | PInf | NInf => PInf
    end).
Proof.
  intro Ha. eapply delivers_ext; [|apply binop_s_delivers; eauto].
  intros i. cbv beta. intros; destruct (f i); reflexivity.
Qed.

Lemma ppofast_negated (ma masig : ma_fun (ext R)) (a : lineR) n k x pfast pslow psig :
  averages ma -> averages masig -> feeds a n k (fin x) ->
  (1 <= pfast <= pslow)%nat -> (1 <= psig)%nat -> (k + (pslow - 1) + psig <= n)%nat ->
  exists yf ys f s,
    ma pfast a = Ok yf /\ delivers yf n (k + pfast - 1) (fin f) /\
    ma pslow a = Ok ys /\ delivers ys n (k + pslow - 1) (fin s) /\
    ((forall i, (k + pslow - 1 <= i < n)%nat -> f i <> 0) ->
     exists m sg h,
       ppofast ma masig pfast pslow psig a = Ok (m, sg, h) /\
       delivers m n (k + pslow - 1) (fin (fun i => - (100 * (1 - s i / f i))))).
Proof.
  intros H1 H2 H3 H4 H5 H6.
  destruct (@ppo_fin ma masig a n k x pfast pslow psig H1 H2 H3 H4 H5 H6)
    as (yf & ys & f & s & A & B & C & D & _ & E).
  exists yf, ys, f, s. repeat (split; [solve [auto]|]). intro Hz.
  destruct (E Hz) as (m & sg & h & g & F1 & _ & F2 & _).
  exists m, sg, h. split; auto. eapply fin_ext; [reflexivity| |exact F2].
  intros i Hi. cbv beta. ring.
Qed.

Lemma minmaxindex_spec : forall (a : line (ext R)) n k x p,
    feeds a n k (fin x) -> (1 <= p)%nat ->
    exists lo hi,
      delivers (fst (minmaxindex p false a)) n (k + p - 1) (fin (fun i => INR (lo i - (S i - p)))) /\
      delivers (snd (minmaxindex p false a)) n (k + p - 1) (fin (fun i => INR (hi i - (S i - p)))) /\
      forall i, (k + p - 1 <= i)%nat -> bottom_bar x i p (lo i) /\ top_bar x i p (hi i).
Proof.
  intros a n k x p F Hp. destruct (maxindex_spec F Hp) as (hi & D & H). destruct (minindex_spec F Hp) as (lo & D' & H').
  exists lo, hi. split; [exact D'|]. split; [exact D|]. intros i Hi. auto.
Qed.

Lemma minmaxindex_abs_spec : forall (a : line (ext R)) n k x p,
    feeds a n k (fin x) -> (1 <= p)%nat ->
    exists lo hi, (forall i, (k + p - 1 <= i)%nat -> bottom_bar x i p (lo i) /\ top_bar x i p (hi i)) /\
      forall i, (k + p - 1 <= i < n)%nat ->
        nth_error (lser (fst (minmaxindex p true a))) i = Some (Fin (INR (lo i) - INR k)) /\
        nth_error (lser (snd (minmaxindex p true a))) i = Some (Fin (INR (hi i) - INR k)).
Proof.
  intros a n k x p F Hp. destruct (maxindex_abs_spec F Hp) as (hi & H & _ & _ & _ & D).
  destruct (minindex_abs_spec F Hp) as (lo & H' & _ & _ & _ & D').
  exists lo, hi. split; intros i Hi; split; auto.
Qed.
