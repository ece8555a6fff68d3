(** Minimum periods and warm-up of every indicator of the catalogue. *)
From Coq Require Import ZArith List Bool Lia Arith.
From Coq Require QArith.
From Verif Require Import Num Series Line Spec LineFacts ScanFacts Expr CausalFacts WarmFacts
  IndMA IndBasic IndStat IndRange IndOsc IndVol Apply IndSar IndHT IndMama Catalog CatalogSpec
  CatalogR CatalogR2.
Import ListNotations.
Set Implicit Arguments.
Arguments skipn : simpl never.
Arguments firstn : simpl never.

Section W1.
  Context {V : Type} {N : Num V}.
  Hypothesis HN : nan_laws N.
  Variable n : nat.
  Notation line := (line V).
  Notation W := (@W V N n).
  Notation BW := (@BW n).

  Lemma W_to m m' b b' l : W m b l -> m = m' -> (b' = true -> b = true) -> W m' b' l.
  Proof. intros (A & B & C & D) <- Hb. split; [auto|split; [auto|split; [auto|]]]. intros E. apply D; auto. Qed.
  Lemma W_mp1 m b l : W m b l -> (1 <= m)%Z. Proof. now intros (_ & H & _). Qed.
  Lemma W_mp m b l : W m b l -> lmp l = m. Proof. now intros (H & _). Qed.

  Lemma W_rolling1 w G l mp b : 1 <= w -> W mp b l -> W (mp + (Z.of_nat w - 1)) true (rolling w G l).
  Proof.
    intros Hw H. destruct w; [lia|]. eapply W_to; [eapply W_rolling; eauto|lia|auto].
  Qed.
  Lemma W_ewm_mean1 p adj l mp b : 1 <= p -> W mp b l -> W (mp + (Z.of_nat p - 1)) false (ewm_mean p adj l).
  Proof.
    intros Hw H. destruct p; [lia|]. eapply W_to; [eapply W_ewm_mean; eauto|lia|auto].
  Qed.
  Lemma W_mapop f l mp b : W mp b l -> W mp true (mapop f l).
  Proof. intro H. eapply W_stdop; eauto. apply causal_map. Qed.
  Lemma W_cumsum l mp b : W mp b l -> W mp true (stdop ser_cumsum l).
  Proof. intro H. eapply W_stdop; eauto. apply causal_cumsum. Qed.
  Lemma W_repl0 l mp b : W mp b l -> W mp true (stdop ser_replace0_ffill l).
  Proof. intro H. eapply W_stdop; eauto. apply causal_repl0. Qed.
  Lemma W_shift p l mp b : W mp b l -> W (mp + Z.of_nat p) true (shift l (Z.of_nat p)).
  Proof. intro H. eapply W_kwop_p; eauto; [apply causal_shift|apply warm_shift]. Qed.
  Lemma W_diff p l mp b : W mp b l -> W (mp + Z.of_nat p) true (diff l (Z.of_nat p)).
  Proof. intro H. eapply W_kwop_p; eauto; [apply causal_diff|now apply warm_diff]. Qed.
  Lemma W_pct p l mp b : W mp b l -> W (mp + Z.of_nat p) true (pct_change l (Z.of_nat p)).
  Proof. intro H. eapply W_kwop_p; eauto; [apply causal_pct|now apply warm_pct]. Qed.
  Lemma W_filled l mp b c : W mp b l -> W mp false (filled l c).
  Proof.
    intros (A & B & C & D). unfold filled, bars. repeat split; cbn [lmp lser]; auto.
    - rewrite repeat_length. auto.
    - discriminate.
  Qed.
  Lemma W_at_ago p l mp b : (0 <= p)%Z -> W mp b l -> W (mp + p) true (at_ago l (- p)).
  Proof.
    intros Hp H. unfold at_ago. destruct (Z.eqb_spec (- p) 0).
    - assert (p = 0)%Z by lia. subst p. rewrite Z.add_0_r. destruct H as (A & B & C & D).
      unfold filled, bars. repeat split; cbn [lmp lser]; auto.
      + rewrite repeat_length. auto.
      + intros _ i _ Hi. apply nth_error_repeat_ok. lia.
    - rewrite Z.opp_involutive. rewrite <- (Z2Nat.id p) by lia. eapply W_shift; eauto.
  Qed.
  Lemma W_at_ago1 k l mp b : W mp b l -> W (mp + Z.pos k) true (at_ago l (Z.neg k)).
  Proof. intro H. eapply (@W_at_ago (Z.pos k)); eauto. lia. Qed.
  Lemma W_lclip_lo t l mp b : W mp b l -> W mp true (lclip_lo l t).
  Proof. intro H. exact (@W_binop_s V N n (fun x c => clip_lo c x) l t mp b H). Qed.
  Lemma W_lclip_hi t l mp b : W mp b l -> W mp true (lclip_hi l t).
  Proof. intro H. exact (@W_binop_s V N n (fun x c => clip_hi c x) l t mp b H). Qed.
  Lemma W_lclip_lo_l a b ma mb ba bb : W ma ba a -> W mb bb b -> W (Z.max ma mb) true (lclip_lo_l a b).
  Proof. intros. eapply (@W_binop V N n (fun x y => clip_lo y x)); eauto. Qed.
  Lemma W_lclip_hi_l a b ma mb ba bb : W ma ba a -> W mb bb b -> W (Z.max ma mb) true (lclip_hi_l a b).
  Proof. intros. eapply (@W_binop V N n (fun x y => clip_hi y x)); eauto. Qed.
  Lemma W_pow2 l mp b : W mp b l -> W mp true (pow2 l).
  Proof. intro H. eapply W_binop_s; eauto. Qed.

  Lemma plc_W2 mp k r :
    (1 <= mp)%Z -> (mp - 1 <= Z.of_nat k)%Z -> length r = n - k ->
    W mp true (mkLine mp (plc vnan n k r)).
  Proof.
    intros H1 Hk Hr. split; [auto|split; [auto|split]]; cbn [lmp lser].
    - now apply plc_length.
    - intros _ i Hi Hn. rewrite nth_plc by auto. destruct (Nat.ltb_spec i k); auto. lia.
  Qed.

  Lemma W_rolling2 w G a b ma mb ba bb :
    1 <= w -> W ma ba a -> W mb bb b -> W (ma + (Z.of_nat w - 1)) true (rolling2 w G a b).
  Proof.
    intros Hw (A1 & A2 & A3 & _) (B1 & B2 & B3 & _). unfold rolling2, bars. rewrite A1, A3.
    destruct (@mi_nat ma) as [k Hk]; auto. rewrite Hk, !slice_from_nat, clone_pos by lia.
    replace (Z.max (ma + (Z.of_nat w - 0 - 1)) 1) with (ma + (Z.of_nat w - 1))%Z by lia.
    split; [auto|split; [lia|split]]; cbn [lmp lser].
    - apply (@plc_length V). rewrite map_length, seq_length, skipn_length. lia.
    - intros _ i Hi Hn. unfold nans.
      match goal with |- context [set_from (repeat vnan n) (Z.of_nat k) ?r] =>
        change (set_from (repeat vnan n) (Z.of_nat k) r) with (plc vnan n k r) end.
      rewrite nth_plc by auto. destruct (Nat.ltb_spec i k); auto.
      rewrite nth_error_map_seq by (rewrite skipn_length; lia).
      match goal with |- context [S ?j <? w] => destruct (Nat.ltb_spec (S j) w); auto; lia end.
  Qed.

  Lemma W_rolling_count_raw w F f l mp b :
    1 <= w -> W mp b l -> W 1 true (raw (map f (lser (rolling_count w F l)))).
  Proof.
    intros Hw (A & B & C & _). unfold rolling_count, bars.
    destruct (@mi_nat mp) as [k Hk]; auto. rewrite A, Hk, clone_pos by lia.
    split; [auto|split; [lia|split]]; cbn [raw lmp lser].
    - rewrite map_length. unfold nans. rewrite C. apply (@plc_length V).
      rewrite roll_count_length, seq_length, slice_from_nat, skipn_length. lia.
    - intros _ i Hi. lia.
  Qed.

  Lemma W_period_none inc l mp b : (0 <= inc)%Z -> W mp b l -> W (mp + inc) false (period_ l inc false None).
  Proof.
    intros Hi H. pose proof H as (A & B & C & _). unfold period_. rewrite Z.sub_0_r.
    destruct (Z.eqb_spec inc 0) as [->|]; [eapply W_to; [exact H|lia|discriminate]|].
    split; [|split; [lia|split]]; cbn [lmp lser]; auto; [lia|discriminate].
  Qed.
  Lemma W_period_nan inc l mp b :
    (0 <= inc)%Z -> W mp b l -> W (mp + inc) b (period_ l inc false (Some vnan)).
  Proof.
    intros Hi H. pose proof H as (A & B & C & D). unfold period_. rewrite Z.sub_0_r.
    destruct (Z.eqb_spec inc 0) as [->|]; [eapply W_to; [exact H|lia|auto]|].
    rewrite A. destruct (Z.ltb_spec (mp - 1 + inc) (mp - 1)); [lia|].
    destruct (@mi_nat mp) as [k Hk]; auto. rewrite Hk.
    replace (Z.of_nat k + inc)%Z with (Z.of_nat (k + Z.to_nat inc)) by lia.
    split; [|split; [lia|split]]; cbn [lmp lser]; auto.
    - rewrite set_slice_length; auto. rewrite !slice_lo_nat. lia.
    - intros Hb i Hi' Hn. rewrite nth_error_set_slice by lia. rewrite C.
      destruct (Nat.ltb_spec i n); [|lia].
      destruct (Nat.leb_spec k i), (Nat.ltb_spec i (k + Z.to_nat inc)); cbn [andb]; auto; try lia.
      all: apply D; auto; lia.
  Qed.
  Lemma W_period_back v l mp b :
    (2 <= mp)%Z -> W mp b l -> W (mp - 1) b (period_ l (-1) false (Some v)).
  Proof.
    intros Hi H. pose proof H as (A & B & C & D). unfold period_. change (-1 - 0 =? 0)%Z with false. cbv iota.
    rewrite A. destruct (Z.ltb_spec (mp - 1 + (-1 - 0)) (mp - 1)); [|lia].
    destruct (@mi_nat mp) as [k Hk]; auto. rewrite Hk.
    replace (Z.of_nat k + (-1 - 0))%Z with (Z.of_nat (k - 1)) by lia.
    split; [cbn [lmp]; lia|split; [lia|split]]; cbn [lmp lser]; auto.
    - rewrite set_slice_length; auto. rewrite !slice_lo_nat. lia.
    - intros Hb i Hi' Hn. rewrite nth_error_set_slice by lia. rewrite C.
      destruct (Nat.ltb_spec i n); [|lia].
      destruct (Nat.leb_spec (k - 1) i); [lia|]. cbn [andb]. apply D; auto. lia.
  Qed.

  Lemma W_lmask a c v ma mc ba : W ma ba a -> BW mc c -> W (Z.max ma mc) true (lmask a c v).
  Proof.
    intros (A1 & A2 & A3 & _) (B1 & B2 & B3). unfold lmask, bars. rewrite A1, B1, A3.
    replace (Z.max (Z.max ma mc) 1) with (Z.max ma mc) by lia.
    destruct (@mi_nat (Z.max ma mc)) as [k Hk]; [lia|].
    rewrite Hk, !slice_from_nat, clone_pos by lia.
    apply (@plc_W2 (Z.max ma mc) k); [lia|lia|]. rewrite map2_length, !skipn_length. lia.
  Qed.
  Lemma W_lfillna v l mp b : W mp b l -> W mp true (lfillna l v).
  Proof. apply W_mapop. Qed.

  (** seeded smoothings *)
  Lemma W_ewm_gen a pval poffset pearly alphap sd q F y mp b :
    W mp b a ->
    (mp - 1 + po_of pval poffset alphap - pearly = Z.of_nat (S q))%Z ->
    (1 <= Z.max (mp + (pval - pearly - 1)) alphap)%Z ->
    (forall t r, length t = n - q -> F t = Ok r -> length r = length t) ->
    (Z.max (mp + (pval - pearly - 1)) alphap - 1 <= Z.of_nat q \/
     Z.max (mp + (pval - pearly - 1)) alphap - 1 <= Z.of_nat (S q) /\
     (forall t r, F t = Ok r -> nth_error r 0 = Some vnan))%Z ->
    ewm_call a pval poffset pearly alphap sd F = Ok y ->
    W (Z.max (mp + (pval - pearly - 1)) alphap) true y.
  Proof.
    intros (A1 & A2 & A3 & _) Hp2 Hmp HF Hq Hy. rewrite <- A1 in Hp2.
    rewrite (@ewm_call_eq V N n n (le_n n) a pval poffset pearly alphap sd q F Hp2), A1, A3 in Hy.
    destruct (_ || _) in Hy; [|discriminate].
    apply bind_ok in Hy. destruct Hy as (r & Hr & Hy). injection Hy as <-.
    rewrite clone_pos by lia.
    assert (L : length r = n - q) by (erewrite HF; eauto; rewrite (trail_length (le_n n)); lia).
    destruct Hq as [Hq|[Hq Hn]]; [now apply plc_W2|].
    split; [auto|split; [lia|split]]; cbn [lmp lser].
    - now apply plc_length.
    - intros _ i Hi Hin. rewrite nth_plc by auto. destruct (Nat.ltb_spec i q); auto.
      replace (i - Nat.min q n) with 0 by lia. eauto.
  Qed.

  Lemma W_ewm_span p po sd a y mp b :
    1 <= p -> (po = 0 \/ Z.of_nat p <= po)%Z -> W mp b a -> ewm_span p po sd a = Ok y ->
    W (mp + (Z.of_nat p - 1)) true y.
  Proof.
    intros Hp Hpo HW Hy. pose proof HW as (A1 & A2 & _). unfold ewm_span in Hy.
    assert (Hpo' : (Z.of_nat p <= po_of (Z.of_nat p) po 1)%Z).
    { destruct Hpo as [->|Hpo]; [rewrite (po_same (le_n n))|rewrite (po_off (le_n n))]; lia. }
    eapply W_to; [eapply (@W_ewm_gen a (Z.of_nat p) po 0 1 sd
        (Z.to_nat (mp - 1 + po_of (Z.of_nat p) po 1 - 1))); eauto; try lia| |auto].
    - intros t r _ [= <-]. apply causal_ewma.
    - lia.
  Qed.
  Lemma W_ewm_com p sd a y mp b :
    1 <= p -> W mp b a -> ewm_com p sd a = Ok y -> W (mp + (Z.of_nat p - 1)) true y.
  Proof.
    intros Hp HW Hy. pose proof HW as (A1 & A2 & _). unfold ewm_com in Hy.
    eapply W_to; [eapply (@W_ewm_gen a (Z.of_nat p - 1 + 1) 0 0 1 sd
        (Z.to_nat (mp - 1 + Z.of_nat p - 1))); eauto; try rewrite (po_same (le_n n)); try lia| |auto].
    - intros t r _ [= <-]. apply causal_ewma.
    - lia.
  Qed.
  Lemma W_smacc p pe sd a y mp b :
    1 <= p -> (pe = true -> (2 <= mp)%Z) -> W mp b a -> smacc p pe sd a = Ok y ->
    W (mp + (Z.of_nat p - 1) - (if pe then 1 else 0)) true y.
  Proof.
    intros Hp Hpe HW Hy. pose proof HW as (A1 & A2 & _). unfold smacc in Hy.
    assert (Hpe' : ((if pe then 1 else 0) <= mp - 1 /\ 0 <= (if pe then 1 else 0))%Z).
    { destruct pe; [specialize (Hpe eq_refl)|]; lia. }
    match type of Hy with ewm_call _ _ _ ?e _ _ _ = _ =>
      eapply W_to; [eapply (@W_ewm_gen a (Z.of_nat p) 0 e 1 sd
        (Z.to_nat (mp - 1 + Z.of_nat p - e - 1))); eauto; try rewrite (po_same (le_n n)); try lia| |auto] end.
    - intros t r _ [= <-]. apply causal_lfilter.
    - lia.
  Qed.

  Lemma dyn_from_length x al s r : dyn_from x al s = Ok r -> length r = length s.
  Proof.
    revert x s r; induction al as [|b al IH]; intros x [|y s] r Hr; cbn [dyn_from] in Hr; try discriminate;
      try (injection Hr as <-; reflexivity).
    apply bind_ok in Hr. destruct Hr as (r1 & Hr1 & Hr). injection Hr as <-. simpl. f_equal. eauto.
  Qed.
  Lemma W_ewm_dyn p al sd a y mp b mal bal :
    W mal bal al -> W mp b a -> (0 <= p)%Z ->
    (if (p =? 0)%Z then mal <= mp /\ 2 <= mp else p + 1 <= mal)%Z ->
    ewm_dyn p al sd a = Ok y -> W (Z.max (mp + (p - 1)) mal) true y.
  Proof.
    intros (L1 & L2 & _) HW Hp Hc Hy. pose proof HW as (A1 & A2 & _). unfold ewm_dyn in Hy. rewrite L1 in Hy.
    assert (Hpo : (mal <= mp + po_of p 0 mal /\ p <= po_of p 0 mal /\ 2 <= mp + po_of p 0 mal)%Z).
    { unfold po_of. cbn [Z.eqb]. destruct (Z.eqb_spec p 0) as [->|Hz]; cbn [negb andb]; [lia|].
      destruct (Z.ltb_spec p mal); lia. }
    eapply W_to; [eapply (@W_ewm_gen a p 0 0 mal sd
        (Z.to_nat (mp - 1 + po_of p 0 mal - 1))); eauto; try lia| |auto].
    - intros t r _ Hr. unfold dyn_mean in Hr. destruct t as [|x t]; [discriminate|]. cbn [map] in Hr.
      apply bind_ok in Hr. destruct Hr as (r1 & Hr1 & Hr). injection Hr as <-.
      apply dyn_from_length in Hr1. rewrite map_length in Hr1. simpl. now rewrite Hr1.
    - right. split; [lia|]. intros t r Hr. unfold dyn_mean in Hr. destruct (map prep t); [discriminate|].
      apply bind_ok in Hr. destruct Hr as (r1 & Hr1 & Hr). now injection Hr as <-.
    - lia.
  Qed.

  (** functions applied to whole series *)
  Definition Flen (F : list V -> list (list V) -> res (list V)) : Prop :=
    forall s ss r, Forall (fun x => length x = length s) ss -> F s ss = Ok r -> length r = length s.
  Lemma args_len args k :
    Forall (fun l : line => length (lser l) = n) args ->
    Forall (fun x => length x = n - k) (map (fun x => slice_from (lser x) (Z.of_nat k)) args).
  Proof.
    intro H. apply Forall_forall. intros x Hx. apply in_map_iff in Hx. destruct Hx as (l & <- & Hl).
    rewrite Forall_forall in H. rewrite slice_from_nat, skipn_length, (H l Hl). reflexivity.
  Qed.
  Lemma W_apply F a args y m :
    Flen F -> length (lser a) = n -> Forall (fun l : line => length (lser l) = n) args ->
    max_mp a args = m -> (1 <= m)%Z -> apply_ F a args = Ok y ->
    W m true y /\
    exists r, F (skipn (Z.to_nat (m - 1)) (lser a)) (map (fun x => skipn (Z.to_nat (m - 1)) (lser x)) args) = Ok r /\
              lser y = plc vnan n (Z.to_nat (m - 1)) r.
  Proof.
    intros HF Ha Hargs Hm H1 Hy. unfold apply_ in Hy. rewrite Hm in Hy.
    destruct (@mi_nat m) as [k Hk]; auto. rewrite Hk in *. rewrite Nat2Z.id, slice_from_nat in *.
    apply bind_ok in Hy. destruct Hy as (r & Hr & Hy). injection Hy as <-. rewrite clone_pos by lia.
    assert (L : length r = n - k).
    { apply HF in Hr; [rewrite Hr, skipn_length; lia|]. rewrite skipn_length, Ha. now apply args_len. }
    unfold nans. rewrite Ha. split; [apply (@plc_W2 m k); auto; lia|].
    exists r. split; [|reflexivity]. rewrite <- Hr. f_equal. apply map_ext. intro x. now rewrite slice_from_nat.
  Qed.
  Definition FlenM (F : list V -> list (list V) -> res (list (list V))) : Prop :=
    forall s ss r, F s ss = Ok r -> Forall (fun x => length x = length s) r.
  Lemma W_applymulti F a args y m :
    FlenM F -> length (lser a) = n -> max_mp a args = m -> (1 <= m)%Z -> applymulti_ F a args = Ok y ->
    Forall (W m true) y.
  Proof.
    intros HF Ha Hm H1 Hy. unfold applymulti_ in Hy. rewrite Hm in Hy.
    destruct (@mi_nat m) as [k Hk]; auto. rewrite Hk, slice_from_nat in *.
    apply bind_ok in Hy. destruct Hy as (r & Hr & Hy). injection Hy as <-.
    apply HF in Hr. apply Forall_forall. intros l Hl. apply in_map_iff in Hl. destruct Hl as (x & <- & Hx).
    rewrite clone_pos by lia. rewrite Forall_forall in Hr. unfold nans. rewrite Ha.
    apply (@plc_W2 m k); auto; [lia|]. rewrite (Hr x Hx), skipn_length. lia.
  Qed.
End W1.
