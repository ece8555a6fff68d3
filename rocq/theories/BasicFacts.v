(** Facts about the indicators of IndBasic.v on finite lines. *)
From Coq Require Import ZArith QArith List Bool Lia Arith Reals Lra.
From Verif Require Import Num Series Line Spec RSpec LineFacts ScanFacts RFacts OpFacts
  IndMA MAFacts RLineFacts IndBasic.
Import ListNotations.
Set Implicit Arguments.
Local Open Scope R_scope.

Local Hint Resolve delivers_feeds : core.

Ltac feed := eauto using delivers_feeds.

(** ** price transforms *)

Lemma avgprice_fin (o h l c : lineR) n k xo xh xl xc d :
  feeds o n k (fin xo) -> feeds h n k (fin xh) -> feeds l n k (fin xl) -> feeds c n k (fin xc) ->
  d <> 0 ->
  delivers (avgprice (Fin d) o h l c) n k (fin (fun i => (xo i + xh i + xl i + xc i) / d)).
Proof.
  intros Ho Hh Hl Hc Hd. unfold avgprice. eapply fin_ext; [reflexivity|reflexivity|].
  eapply divs_fin; auto. eapply delivers_feeds.
  eapply fin_ext with (k := Nat.max (Nat.max (Nat.max k k) k) k); [lia|reflexivity|].
  eapply ladd_fin; feed. eapply delivers_feeds, ladd_fin; feed. eapply delivers_feeds, ladd_fin; feed.
Qed.

Lemma typprice_fin (h l c : lineR) n k xh xl xc d :
  feeds h n k (fin xh) -> feeds l n k (fin xl) -> feeds c n k (fin xc) -> d <> 0 ->
  delivers (typprice (Fin d) h l c) n k (fin (fun i => (xh i + xl i + xc i) / d)).
Proof.
  intros Hh Hl Hc Hd. unfold typprice. eapply divs_fin; auto. eapply delivers_feeds.
  eapply fin_ext with (k := Nat.max (Nat.max k k) k); [lia|reflexivity|].
  eapply ladd_fin; feed. eapply delivers_feeds, ladd_fin; feed.
Qed.

Lemma wclprice_fin (h l c : lineR) n k xh xl xc w d :
  feeds h n k (fin xh) -> feeds l n k (fin xl) -> feeds c n k (fin xc) -> d <> 0 ->
  delivers (wclprice (Fin w) (Fin d) h l c) n k (fin (fun i => (xh i + xl i + xc i * w) / d)).
Proof.
  intros Hh Hl Hc Hd. unfold wclprice. eapply divs_fin; auto. eapply delivers_feeds.
  eapply fin_ext with (k := Nat.max (Nat.max k k) k); [lia|reflexivity|].
  eapply ladd_fin; eapply delivers_feeds; [eapply ladd_fin; feed|eapply muls_fin; feed].
Qed.

Lemma medprice_fin (h l : lineR) n k xh xl d :
  feeds h n k (fin xh) -> feeds l n k (fin xl) -> d <> 0 ->
  delivers (medprice (Fin d) h l) n k (fin (fun i => (xh i + xl i) / d)).
Proof.
  intros Hh Hl Hd. unfold medprice. eapply divs_fin; auto. eapply delivers_feeds.
  eapply fin_ext with (k := Nat.max k k); [lia|reflexivity|]. eapply ladd_fin; feed.
Qed.

(** ** window extremes *)

Lemma max_ind_fin (a : lineR) n k x p :
  feeds a n k (fin x) -> (1 <= p)%nat ->
  delivers (max_ind p a) n (k + p - 1) (fin (fun i => lmax (lastp x i p))).
Proof.
  intros. apply (@rolling_fin win_max lmax); auto. intros l Hl. apply win_max_fin.
  destruct l; simpl in *; [lia|congruence].
Qed.
Lemma min_ind_fin (a : lineR) n k x p :
  feeds a n k (fin x) -> (1 <= p)%nat ->
  delivers (min_ind p a) n (k + p - 1) (fin (fun i => lmin (lastp x i p))).
Proof.
  intros. apply (@rolling_fin win_min lmin); auto. intros l Hl. apply win_min_fin.
  destruct l; simpl in *; [lia|congruence].
Qed.

Lemma lastp_nonnil x i p : (1 <= p)%nat -> lastp x i p <> [].
Proof. intro. now apply win_nonnil. Qed.

Lemma midprice_fin (h l : lineR) n kh kl xh xl p :
  feeds h n kh (fin xh) -> feeds l n kl (fin xl) -> (1 <= p)%nat ->
  delivers (midprice p h l) n (Nat.max kh kl + p - 1)
    (fin (fun i => (lmax (lastp xh i p) + lmin (lastp xl i p)) / 2)).
Proof.
  intros Hh Hl Hp. unfold midprice. rewrite vofZ_fin. eapply divs_fin; [lra|].
  eapply delivers_feeds, fin_ext; [|reflexivity|].
  2:{ eapply ladd_fin; eapply delivers_feeds; [eapply max_ind_fin|eapply min_ind_fin]; eauto. }
  lia.
Qed.

(** [m] is the position of the first largest (smallest) element of [l] *)
Definition first_max (m : nat) (l : list R) : Prop :=
  exists v, nth_error l m = Some v /\ is_max v l /\
            forall j w, (j < m)%nat -> nth_error l j = Some w -> w < v.
Definition first_min (m : nat) (l : list R) : Prop :=
  exists v, nth_error l m = Some v /\ is_min v l /\
            forall j w, (j < m)%nat -> nth_error l j = Some w -> v < w.

Lemma argmax_from_spec l : forall pre best bi,
  nth_error pre bi = Some best ->
  (forall w, In w pre -> w <= best) ->
  (forall j w, (j < bi)%nat -> nth_error pre j = Some w -> w < best) ->
  first_max (argbest_from (fun b y => vltb b y) (Fin best) bi (length pre) (map Fin l)) (pre ++ l).
Proof.
  induction l as [|a l IH]; intros pre best bi H1 H2 H3; simpl.
  - exists best. rewrite app_nil_r. repeat split; auto. eapply nth_error_In; eauto.
  - rewrite <- (app_nil_l (a :: l)), app_comm_cons, app_assoc || idtac.
    change (eltb (Fin best) (Fin a)) with (Rltb best a).
    replace (pre ++ a :: l) with ((pre ++ [a]) ++ l) by (rewrite <- app_assoc; reflexivity).
    assert (L : length (pre ++ [a]) = S (length pre)) by (rewrite app_length; simpl; lia).
    rewrite <- L. destruct (Rltb_spec best a) as [Hlt|Hge].
    + apply IH.
      * rewrite nth_error_app2, Nat.sub_diag by lia. reflexivity.
      * intros w Hw. apply in_app_or in Hw. destruct Hw as [Hw|[<-|[]]]; [|lra].
        specialize (H2 w Hw). lra.
      * intros j w Hj Hw. rewrite nth_error_app1 in Hw by lia.
        apply nth_error_In in Hw. specialize (H2 w Hw). lra.
    + apply IH.
      * rewrite nth_error_app1; auto. apply nth_error_Some. congruence.
      * intros w Hw. apply in_app_or in Hw. destruct Hw as [Hw|[<-|[]]]; [auto|lra].
      * intros j w Hj Hw. assert (Hb : (bi < length pre)%nat) by (apply nth_error_Some; congruence).
        rewrite nth_error_app1 in Hw by lia. eauto.
Qed.
Lemma argmin_from_spec l : forall pre best bi,
  nth_error pre bi = Some best ->
  (forall w, In w pre -> best <= w) ->
  (forall j w, (j < bi)%nat -> nth_error pre j = Some w -> best < w) ->
  first_min (argbest_from (fun b y => vltb y b) (Fin best) bi (length pre) (map Fin l)) (pre ++ l).
Proof.
  induction l as [|a l IH]; intros pre best bi H1 H2 H3; simpl.
  - exists best. rewrite app_nil_r. repeat split; auto. eapply nth_error_In; eauto.
  - change (eltb (Fin a) (Fin best)) with (Rltb a best).
    replace (pre ++ a :: l) with ((pre ++ [a]) ++ l) by (rewrite <- app_assoc; reflexivity).
    assert (L : length (pre ++ [a]) = S (length pre)) by (rewrite app_length; simpl; lia).
    rewrite <- L. destruct (Rltb_spec a best) as [Hlt|Hge].
    + apply IH.
      * rewrite nth_error_app2, Nat.sub_diag by lia. reflexivity.
      * intros w Hw. apply in_app_or in Hw. destruct Hw as [Hw|[<-|[]]]; [|lra].
        specialize (H2 w Hw). lra.
      * intros j w Hj Hw. rewrite nth_error_app1 in Hw by lia.
        apply nth_error_In in Hw. specialize (H2 w Hw). lra.
    + apply IH.
      * rewrite nth_error_app1; auto. apply nth_error_Some. congruence.
      * intros w Hw. apply in_app_or in Hw. destruct Hw as [Hw|[<-|[]]]; [auto|lra].
      * intros j w Hj Hw. assert (Hb : (bi < length pre)%nat) by (apply nth_error_Some; congruence).
        rewrite nth_error_app1 in Hw by lia. eauto.
Qed.
Lemma argmax_spec l : l <> [] -> first_max (argmax (map (@Fin R) l)) l.
Proof.
  destruct l as [|a l]; [congruence|]. intros _. unfold argmax. simpl.
  apply (argmax_from_spec l [a]); simpl; auto.
  - intros w [->|[]]; lra.
  - intros j w Hj. lia.
Qed.
Lemma argmin_spec l : l <> [] -> first_min (argmin (map (@Fin R) l)) l.
Proof.
  destruct l as [|a l]; [congruence|]. intros _. unfold argmin. simpl.
  apply (argmin_from_spec l [a]); simpl; auto.
  - intros w [->|[]]; lra.
  - intros j w Hj. lia.
Qed.
Lemma first_max_unique m m' l : first_max m l -> first_max m' l -> m = m'.
Proof.
  intros (v & H1 & H2 & H3) (v' & H1' & H2' & H3').
  assert (v = v') by (eapply is_max_unique; eauto). subst v'.
  destruct (Nat.lt_trichotomy m m') as [H|[H|H]]; auto.
  - specialize (H3' _ _ H H1). lra.
  - specialize (H3 _ _ H H1'). lra.
Qed.
Lemma first_min_unique m m' l : first_min m l -> first_min m' l -> m = m'.
Proof.
  intros (v & H1 & H2 & H3) (v' & H1' & H2' & H3').
  assert (v = v') by (eapply is_min_unique; eauto). subst v'.
  destruct (Nat.lt_trichotomy m m') as [H|[H|H]]; auto.
  - specialize (H3' _ _ H H1). lra.
  - specialize (H3 _ _ H H1'). lra.
Qed.

Lemma vofnat_fin m : vofnat m = Fin (INR m) :> ext R.
Proof. unfold vofnat. now rewrite vofZ_fin, IZR_nat. Qed.

Lemma maxindex_fin (a : lineR) n k x p :
  feeds a n k (fin x) -> (1 <= p)%nat ->
  exists m, delivers (maxindex p a) n (k + p - 1) (fin (fun i => INR (m i))) /\
    forall i, first_max (m i) (lastp x i p).
Proof.
  intros Ha Hp. exists (fun i => argmax (map Fin (lastp x i p))). split.
  - apply (@rolling_fin _ (fun l => INR (argmax (map Fin l)))); auto.
    intros l _. apply vofnat_fin.
  - intro i. apply argmax_spec. now apply lastp_nonnil.
Qed.
Lemma minindex_fin (a : lineR) n k x p :
  feeds a n k (fin x) -> (1 <= p)%nat ->
  exists m, delivers (minindex p a) n (k + p - 1) (fin (fun i => INR (m i))) /\
    forall i, first_min (m i) (lastp x i p).
Proof.
  intros Ha Hp. exists (fun i => argmin (map Fin (lastp x i p))). split.
  - apply (@rolling_fin _ (fun l => INR (argmin (map Fin l)))); auto.
    intros l _. apply vofnat_fin.
  - intro i. apply argmin_spec. now apply lastp_nonnil.
Qed.

(** ** stateful rolling functions *)

Lemma roll_count_fin w F x j m l : forall i0,
  (1 <= w)%nat -> (i0 + l <= m)%nat ->
  roll_count w F (map (fin x) (seq j m)) (seq i0 l) (i0 - (w - 1)) =
  map (fun i => if (S i <? w)%nat then vnan
                else F (i - (w - 1))%nat (map Fin (lastp x (j + i) w))) (seq i0 l).
Proof.
  induction l as [|l IH]; intros i0 Hw Hm; [reflexivity|].
  cbn [seq roll_count map]. destruct (Nat.ltb_spec (S i0) w) as [Hlt|Hge]; cbn [orb].
  - f_equal. replace (i0 - (w - 1))%nat with (S i0 - (w - 1))%nat at 1 by lia. apply IH; lia.
  - rewrite window_seq by lia.
    change (map (fin x) (seq (S (j + i0) - w) w)) with (win (fin x) (j + i0) w).
    rewrite win_fin, prep_map_fin, existsb_nan_fin. f_equal.
    replace (S (i0 - (w - 1))) with (S i0 - (w - 1))%nat by lia. apply IH; lia.
Qed.

Lemma rolling_count_fin w F (a : lineR) n k x :
  feeds a n k (fin x) -> (1 <= w)%nat ->
  delivers (rolling_count w F a) n (k + w - 1)
    (fun i => F (i - (k + w - 1))%nat (map Fin (lastp x i w))).
Proof.
  intros Ha Hw. unfold rolling_count.
  rewrite (feeds_mp Ha). replace (Z.of_nat (S k) - 1)%Z with (Z.of_nat k) by lia.
  rewrite (feeds_slice Ha (le_n k)), map_length, seq_length.
  pose proof (@roll_count_fin w F x k (n - k) (n - k) 0 Hw ltac:(lia)) as E.
  replace (0 - (w - 1))%nat with 0%nat in E by lia. rewrite E. clear E.
  assert (B : bars a = n) by (unfold bars; apply (feeds_len Ha)). rewrite B.
  set (g i := if (S i <? k + w)%nat then vnan
              else F (i - (k + w - 1))%nat (map Fin (lastp x i w))).
  replace (map _ (seq 0 (n - k))) with (map g (seq k (n - k))).
  2:{ apply nth_error_ext; rewrite ?map_length, ?seq_length; auto. intros i Hi.
      rewrite !nth_error_map_seq by lia. f_equal. unfold g. cbn [Nat.add].
      destruct (Nat.ltb_spec (S (k + i)) (k + w)), (Nat.ltb_spec (S i) w); try lia; auto.
      f_equal. lia. }
  replace (Z.max (Z.of_nat (S k) + (Z.of_nat w - 0 - 1)) 1)%Z with (Z.of_nat (S (k + w - 1))) by lia.
  rewrite clone_S. eapply delivers_ext; [|eapply delivers_mk with (k := (k + w - 1)%nat) (g := g)].
  - intros i Hi. unfold g. destruct (Nat.ltb_spec (S i) (k + w)); [lia|reflexivity].
  - lia.
  - intros i Hi _. unfold g. destruct (Nat.ltb_spec (S i) (k + w)); [reflexivity|lia].
Qed.

Lemma absidx_fin (pick : list (ext R) -> nat) (a : lineR) n k x p :
  feeds a n k (fin x) -> (1 <= p)%nat ->
  let y := raw (fillna0 (lser (rolling_count p (fun c l => vofnat (pick l + c * 1)) a))) in
  lmp y = 1%Z /\ length (lser y) = n /\
  (forall i, (i < k + p - 1)%nat -> (i < n)%nat -> nth_error (lser y) i = Some (Fin 0)) /\
  (forall i, (k + p - 1 <= i < n)%nat ->
     nth_error (lser y) i = Some (Fin (INR (pick (map Fin (lastp x i p)) + (i - (k + p - 1)))))).
Proof.
  intros Ha Hp y.
  pose proof (@rolling_count_fin p (fun c l => vofnat (pick l + c * 1)) a n k x Ha Hp) as [[Hm [Hl Hv]] Hn].
  split; [reflexivity|]. split; [|split].
  - unfold y, raw. simpl. unfold fillna0. now rewrite map_length.
  - intros i Hi Hin. unfold y, raw. simpl. unfold fillna0. rewrite nth_error_map, Hn by auto.
    reflexivity.
  - intros i Hi. unfold y, raw. simpl. unfold fillna0. rewrite nth_error_map, Hv by auto.
    cbn [option_map]. rewrite vofnat_fin. change (eisnan (Fin ?r)) with false. cbv iota.
    rewrite visnan_fin. rewrite Nat.mul_1_r. reflexivity.
Qed.

(** ** momentum *)

Lemma mom_fin (a : lineR) n k x p :
  feeds a n k (fin x) -> delivers (mom p a) n (k + p) (fin (fun i => x i - x (i - p)%nat)).
Proof. apply diff_fin. Qed.

Lemma rocbase_quot (a : lineR) n k x p :
  feeds a n k (fin x) -> (1 <= p)%nat ->
  delivers (rocbase p a) n (k + p) (fun i => quot (x i) (x (i - p)%nat)).
Proof.
  intros Ha Hp. unfold rocbase. eapply del_ext; [|reflexivity|].
  2:{ eapply ldiv_quot; [exact Ha|]. eapply delivers_feeds, ago_fin; eauto. }
  lia.
Qed.

Lemma rocbase_fin (a : lineR) n k x p :
  feeds a n k (fin x) -> (1 <= p)%nat ->
  (forall i, (k + p <= i < n)%nat -> x (i - p)%nat <> 0) ->
  delivers (rocbase p a) n (k + p) (fin (fun i => x i / x (i - p)%nat)).
Proof.
  intros Ha Hp Hx. eapply delivers_ext; [|apply rocbase_quot; eauto].
  intros i Hi. apply quot_fin. auto.
Qed.

(** ** MACD family *)

(** a moving average usable as [_ma]: it delivers numbers [p - 1] bars after its input *)
Definition averages (ma : ma_fun (ext R)) : Prop :=
  forall p a n k x, feeds a n k (fin x) -> (1 <= p)%nat -> (k + p <= n)%nat ->
    exists y e, ma p a = Ok y /\ delivers y n (k + p - 1) (fin e).

Lemma averages_sma : averages sma_.
Proof. intros p a n k x Ha Hp _. exists (sma p a), (fun i => Rmean (lastp x i p)). split; [reflexivity|]. eapply sma_fin; eauto. Qed.
Lemma averages_ema : averages ema.
Proof.
  intros p a n k x Ha Hp Hn. destruct (ema_fin Ha Hp Hn) as (y & e & H1 & _ & H2). eauto.
Qed.
Lemma averages_smma : averages smma.
Proof.
  intros p a n k x Ha Hp Hn. destruct (smma_fin Ha Hp Hn) as (y & e & H1 & _ & H2). eauto.
Qed.

Lemma is_ema_pos p k x e :
  (1 <= p)%nat -> is_ema p k x e -> (forall i, (k <= i)%nat -> 0 < x i) ->
  forall i, (k + p - 1 <= i)%nat -> 0 < e i.
Proof.
  intros Hp [H0 Hs] Hx i Hi. induction Hi as [|i Hi IH].
  - rewrite H0. unfold Rmean. apply Rmult_lt_0_compat.
    + unfold lastp, win. destruct p as [|p]; [lia|].
      assert (Hg : forall l, (forall j, In j l -> 0 < x j) -> 0 <= Rsum (map x l)).
      { induction l as [|j l IHl]; intro Hj; unfold Rsum; simpl; [lra|].
        assert (0 < x j) by (apply Hj; now left).
        assert (0 <= Rsum (map x l)) by (apply IHl; intros; apply Hj; now right).
        unfold Rsum in *. lra. }
      cbn [seq map]. unfold Rsum. cbn [fold_right]. 
      assert (0 < x (S (k + S p - 1) - S p)%nat) by (apply Hx; lia).
      assert (0 <= Rsum (map x (seq (S (S (k + S p - 1) - S p)) p))).
      { apply Hg. intros j Hj. apply in_seq in Hj. apply Hx. lia. }
      unfold Rsum in *. lra.
    + apply Rinv_0_lt_compat. unfold lastp. rewrite win_length. now apply INR_pos.
  - rewrite Hs by lia. assert (1 <= INR p) by (change 1 with (INR 1); apply le_INR; lia).
    assert (0 < 2 / (INR p + 1)) by (apply Rdiv_lt_0_compat; lra).
    assert (2 / (INR p + 1) <= 1).
    { apply Rmult_le_reg_r with (INR p + 1); [lra|]. unfold Rdiv.
      rewrite Rmult_assoc, Rinv_l by lra. lra. }
    assert (0 < x (S i)) by (apply Hx; lia). nra.
Qed.

Lemma macd_fin (ma masig : ma_fun (ext R)) (a : lineR) n k x pfast pslow psig :
  averages ma -> averages masig -> feeds a n k (fin x) ->
  (1 <= pfast <= pslow)%nat -> (1 <= psig)%nat -> (k + (pslow - 1) + psig <= n)%nat ->
  exists yf ys f s m sg h g,
    ma pfast a = Ok yf /\ delivers yf n (k + pfast - 1) (fin f) /\
    ma pslow a = Ok ys /\ delivers ys n (k + pslow - 1) (fin s) /\
    macd ma masig pfast pslow psig a = Ok (m, sg, h) /\
    apo ma pfast pslow a = Ok m /\
    masig psig m = Ok sg /\
    delivers m n (k + pslow - 1) (fin (fun i => f i - s i)) /\
    delivers sg n (k + pslow - 1 + psig - 1) (fin g) /\
    delivers h n (k + pslow - 1 + psig - 1) (fin (fun i => (f i - s i) - g i)).
Proof.
  intros Hma Hsig Ha Hp Hps Hn.
  destruct (Hma pfast a n k x Ha ltac:(lia) ltac:(lia)) as (yf & f & Ef & Df).
  destruct (Hma pslow a n k x Ha ltac:(lia) ltac:(lia)) as (ys & s & Es & Ds).
  assert (Dm : delivers (lsub yf ys) n (k + pslow - 1) (fin (fun i => f i - s i))).
  { eapply fin_ext; [|reflexivity|eapply lsub_fin; feed]. lia. }
  destruct (Hsig psig (lsub yf ys) n (k + pslow - 1)%nat _ (delivers_feeds Dm) Hps ltac:(lia))
    as (sg & g & Eg & Dg).
  exists yf, ys, f, s, (lsub yf ys), sg, (lsub (lsub yf ys) sg), g.
  unfold macd, macd_from, apo, posc. rewrite Ef, Es. cbn [bind fst snd]. rewrite Eg. cbn [bind].
  repeat (split; [solve [auto]|]).
  eapply fin_ext; [|reflexivity|eapply lsub_fin; feed]. lia.
Qed.

Lemma macd_ema_fin (a : lineR) n k x pfast pslow psig :
  feeds a n k (fin x) ->
  (1 <= pfast <= pslow)%nat -> (1 <= psig)%nat -> (k + (pslow - 1) + psig <= n)%nat ->
  exists m sg h f s g,
    macd ema ema pfast pslow psig a = Ok (m, sg, h) /\
    is_ema pfast k x f /\ is_ema pslow k x s /\
    is_ema psig (k + pslow - 1) (fun i => f i - s i) g /\
    delivers m n (k + pslow - 1) (fin (fun i => f i - s i)) /\
    delivers sg n (k + pslow - 1 + psig - 1) (fin g) /\
    delivers h n (k + pslow - 1 + psig - 1) (fin (fun i => (f i - s i) - g i)).
Proof.
  intros Ha Hp Hps Hn.
  destruct (@ema_fin a n k x pfast Ha ltac:(lia) ltac:(lia)) as (yf & f & Ef & If & Df).
  destruct (@ema_fin a n k x pslow Ha ltac:(lia) ltac:(lia)) as (ys & s & Es & Is & Ds).
  assert (Dm : delivers (lsub yf ys) n (k + pslow - 1) (fin (fun i => f i - s i))).
  { eapply fin_ext; [|reflexivity|eapply lsub_fin; feed]. lia. }
  destruct (@ema_fin (lsub yf ys) n (k + pslow - 1)%nat _ psig (delivers_feeds Dm) Hps ltac:(lia))
    as (sg & g & Eg & Ig & Dg).
  exists (lsub yf ys), sg, (lsub (lsub yf ys) sg), f, s, g.
  unfold macd, macd_from. rewrite Ef, Es. cbn [bind]. rewrite Eg. cbn [bind].
  repeat (split; [solve [auto]|]).
  eapply fin_ext; [|reflexivity|eapply lsub_fin; feed]. lia.
Qed.

(** the seed of the fast average of the ta-lib variant: the mean of the [p] values that end
    where the first slow average ends *)
Definition is_ema_at (p q : nat) (x e : nat -> R) : Prop :=
  e q = Rmean (lastp x q p) /\
  forall i, (q <= i)%nat ->
    e (S i) = (1 - 2 / (INR p + 1)) * e i + 2 / (INR p + 1) * x (S i).

Lemma slice_win (a : lineR) n k f q p :
  feeds a n k f -> (k + p <= S q)%nat -> (q < n)%nat ->
  slice (lser a) (Z.of_nat (S q) - Z.of_nat p) (Z.of_nat (S q)) = win f q p.
Proof.
  intros Ha Hk Hq. replace (Z.of_nat (S q) - Z.of_nat p)%Z with (Z.of_nat (S q - p)) by lia.
  rewrite slice_nat. rewrite (@feeds_skipn _ a n k f (S q - p) Ha) by lia.
  rewrite firstn_map, firstn_seq. unfold win. f_equal. f_equal. lia.
Qed.

Lemma ema_poffset_fin (a : lineR) n k x p po :
  feeds a n k (fin x) -> (1 <= p <= po)%nat -> (k + po <= n)%nat ->
  exists y e, ema_full p SEED_AVG (Z.of_nat po) a = Ok y /\
    is_ema_at p (k + po - 1) x e /\
    lmp y = Z.of_nat (S (k + p - 1)) /\
    lser y = map (fun i => if (i <? k + po - 1)%nat then NaN else Fin (e i)) (seq 0 n).
Proof.
  intros Ha Hp Hn.
  set (q := (k + po - 1)%nat). set (al := 2 / (INR p + 1)).
  set (e := fun i => es al (Rmean (lastp x q p)) x q (i - q)).
  assert (Hq : (q < n)%nat) by (unfold q; lia).
  destruct (@ewm_call_ok _ _ a n k (fin x) (Z.of_nat p) (Z.of_nat po) 0 1 SEED_AVG
              (fun t => Ok (ser_ewma (alpha_span (vofZ (Z.of_nat p))) false t))
              (Z.of_nat po) q (k + p - 1)%nat (fin e) Ha) as (y & Ey & My & Sy).
  - cbv zeta. assert (Z.of_nat po =? 0 = false)%Z as -> by (apply Z.eqb_neq; lia).
    assert (Z.of_nat po <? 1 = false)%Z as -> by (apply Z.ltb_ge; lia).
    now rewrite andb_false_r.
  - unfold q. lia.
  - exact Hq.
  - unfold q. lia.
  - lia.
  - cbn [seed_of]. rewrite (@slice_win a n k (fin x) q p Ha) by (unfold q; lia).
    rewrite win_fin, ser_mean_fin by (apply win_nonnil; lia).
    rewrite alpha_span_fin by lia. fold al.
    rewrite (@ser_ewma_seq _ _ (Fin al) false (Fin (Rmean (lastp x q p))) (fin x) q (n - S q)).
    f_equal. replace (S (n - S q)) with (n - q)%nat by lia. apply map_ext_seq. intros i Hi.
    rewrite prep_fin. unfold fin at 2, e. apply ewma_val_fin.
  - exists y, e. split; [exact Ey|]. split; [|split; [exact My|exact Sy]].
    split.
    + unfold e. now rewrite Nat.sub_diag.
    + intros i Hi. unfold e. replace (S i - q)%nat with (S (i - q)) by lia.
      cbn [es]. fold al. do 3 f_equal. lia.
Qed.

Lemma macd_talib_fin (a : lineR) n k x pfast pslow psig :
  feeds a n k (fin x) ->
  (1 <= pfast <= pslow)%nat -> (1 <= psig)%nat -> (k + (pslow - 1) + psig <= n)%nat ->
  exists m sg h f s g,
    macd_talib pfast pslow psig a = Ok (m, sg, h) /\
    is_ema_at pfast (k + pslow - 1) x f /\ is_ema pslow k x s /\
    is_ema psig (k + pslow - 1) (fun i => f i - s i) g /\
    delivers m n (k + pslow - 1) (fin (fun i => f i - s i)) /\
    delivers sg n (k + pslow - 1 + psig - 1) (fin g) /\
    delivers h n (k + pslow - 1 + psig - 1) (fin (fun i => (f i - s i) - g i)).
Proof.
  intros Ha Hp Hps Hn.
  destruct (@ema_poffset_fin a n k x pfast pslow Ha ltac:(lia) ltac:(lia)) as (yf & f & Ef & If & Mf & Sf).
  destruct (@ema_fin a n k x pslow Ha ltac:(lia) ltac:(lia)) as (ys & s & Es & Is & Ds).
  set (f' := fun i => if (i <? k + pslow - 1)%nat then NaN else Fin (f i)).
  assert (Ff : feeds yf n (k + pfast - 1) f').
  { split; [exact Mf|]. rewrite Sf, map_length, seq_length. split; [reflexivity|].
    intros i Hi. rewrite nth_error_map_seq by lia. reflexivity. }
  assert (Dm : delivers (lsub yf ys) n (k + pslow - 1) (fin (fun i => f i - s i))).
  { eapply del_ext; [| |eapply binop_delivers; [exact Ff|exact (delivers_feeds Ds)]]; [lia|].
    intros i Hi. unfold f'. destruct (Nat.ltb_spec i (k + pslow - 1)); [lia|]. reflexivity. }
  destruct (@ema_fin (lsub yf ys) n (k + pslow - 1)%nat _ psig (delivers_feeds Dm) Hps ltac:(lia))
    as (sg & g & Eg & Ig & Dg).
  exists (lsub yf ys), sg, (lsub (lsub yf ys) sg), f, s, g.
  unfold macd_talib, macd_from. rewrite Ef, Es. cbn [bind]. rewrite Eg. cbn [bind].
  repeat (split; [solve [auto]|]).
  eapply fin_ext; [|reflexivity|eapply lsub_fin; feed]. lia.
Qed.

Lemma ppo_line_fin (y1 y2 : lineR) n k1 k2 f s :
  feeds y1 n k1 (fin f) -> feeds y2 n k2 (fin s) ->
  (forall i, (Nat.max k1 k2 <= i < n)%nat -> s i <> 0) ->
  delivers (rbinop_s vmul (vofZ 100) (binop_s vsub (ldiv y1 y2) (vofZ 1))) n (Nat.max k1 k2)
    (fin (fun i => 100 * (f i / s i - 1))).
Proof.
  intros H1 H2 Hs. rewrite !vofZ_fin. eapply rmuls_fin, delivers_feeds.
  eapply subs_fin, delivers_feeds. now apply ldiv_fin.
Qed.

Lemma ppo_fin (ma masig : ma_fun (ext R)) (a : lineR) n k x pfast pslow psig :
  averages ma -> averages masig -> feeds a n k (fin x) ->
  (1 <= pfast <= pslow)%nat -> (1 <= psig)%nat -> (k + (pslow - 1) + psig <= n)%nat ->
  exists yf ys f s,
    ma pfast a = Ok yf /\ delivers yf n (k + pfast - 1) (fin f) /\
    ma pslow a = Ok ys /\ delivers ys n (k + pslow - 1) (fin s) /\
    ((forall i, (k + pslow - 1 <= i < n)%nat -> s i <> 0) ->
     exists m sg h g,
       ppo ma masig pfast pslow psig a = Ok (m, sg, h) /\ masig psig m = Ok sg /\
       delivers m n (k + pslow - 1) (fin (fun i => 100 * (f i / s i - 1))) /\
       delivers sg n (k + pslow - 1 + psig - 1) (fin g) /\
       delivers h n (k + pslow - 1 + psig - 1) (fin (fun i => 100 * (f i / s i - 1) - g i))) /\
    ((forall i, (k + pslow - 1 <= i < n)%nat -> f i <> 0) ->
     exists m sg h g,
       ppofast ma masig pfast pslow psig a = Ok (m, sg, h) /\ masig psig m = Ok sg /\
       delivers m n (k + pslow - 1) (fin (fun i => 100 * (s i / f i - 1))) /\
       delivers sg n (k + pslow - 1 + psig - 1) (fin g) /\
       delivers h n (k + pslow - 1 + psig - 1) (fin (fun i => 100 * (s i / f i - 1) - g i))).
Proof.
  intros Hma Hsig Ha Hp Hps Hn.
  destruct (Hma pfast a n k x Ha ltac:(lia) ltac:(lia)) as (yf & f & Ef & Df).
  destruct (Hma pslow a n k x Ha ltac:(lia) ltac:(lia)) as (ys & s & Es & Ds).
  exists yf, ys, f, s. repeat (split; [solve [auto]|]). split; intro Hz.
  - set (m := rbinop_s vmul (vofZ 100) (binop_s vsub (ldiv yf ys) (vofZ 1))).
    assert (Dm : delivers m n (k + pslow - 1) (fin (fun i => 100 * (f i / s i - 1)))).
    { eapply fin_ext; [|reflexivity|eapply ppo_line_fin; feed]; [lia|].
      intros i Hi. apply Hz. lia. }
    destruct (Hsig psig m n (k + pslow - 1)%nat _ (delivers_feeds Dm) Hps ltac:(lia))
      as (sg & g & Eg & Dg).
    exists m, sg, (lsub m sg), g. unfold ppo, ppo_from, posc. rewrite Ef, Es. cbn [bind fst snd].
    fold m. rewrite Eg. cbn [bind]. repeat (split; [solve [auto]|]).
    eapply fin_ext; [|reflexivity|eapply lsub_fin; feed]. lia.
  - set (m := rbinop_s vmul (vofZ 100) (binop_s vsub (ldiv ys yf) (vofZ 1))).
    assert (Dm : delivers m n (k + pslow - 1) (fin (fun i => 100 * (s i / f i - 1)))).
    { eapply fin_ext; [|reflexivity|eapply ppo_line_fin; feed]; [lia|].
      intros i Hi. apply Hz. lia. }
    destruct (Hsig psig m n (k + pslow - 1)%nat _ (delivers_feeds Dm) Hps ltac:(lia))
      as (sg & g & Eg & Dg).
    exists m, sg, (lsub m sg), g. unfold ppofast, ppo_from, posc. rewrite Ef, Es. cbn [bind fst snd].
    fold m. rewrite Eg. cbn [bind]. repeat (split; [solve [auto]|]).
    eapply fin_ext; [|reflexivity|eapply lsub_fin; feed]. lia.
Qed.
