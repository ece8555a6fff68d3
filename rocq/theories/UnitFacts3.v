(** Change of unit: the indicators with loops, the catalogue and sessions. *)
From Coq Require Import ZArith QArith List Bool Reals Lia Lra.
From Verif Require Import Num Series Line LineFacts RFacts UnitSpec UnitFacts UnitFacts2 IndMA IndBasic IndStat
  IndRange IndOsc IndVol Apply IndSar IndHT IndMama Catalog.
Import ListNotations.
Local Open Scope R_scope.
Arguments skipn : simpl never.
Arguments firstn : simpl never.
Local Notation V := (ext R).
Notation tl_ u := (map (times u)).

Lemma max_mp_in u (a : line V) args args' :
  map (@lmp V) args = map (@lmp V) args' -> max_mp (in_unit u a) args = max_mp a args'.
Proof.
  unfold max_mp. cbn [lmp in_unit]. generalize (lmp a). revert args'. induction args as [|x args IH]; intros [|y args'] m E;
    try discriminate; [reflexivity|]. cbn in E. injection E as E1 E2. cbn [fold_left]. rewrite E1. now apply IH.
Qed.

Lemma in_period_nan u (a : line V) n r : period_ (in_unit u a) n r (Some vnan) = in_unit u (period_ a n r (Some vnan)).
Proof. exact (in_period u a n r (Some vnan)). Qed.

(** ** parabolic stop and reverse *)
Section Sar.
  Variable u : R.
  Hypothesis Hu : 0 < u.

  Lemma t_pymax x y : pymax (times u x) (times u y) = times u (pymax x y).
  Proof. unfold pymax. rewrite times_ltb by assumption. now destruct (vltb x y). Qed.
  Lemma t_pymin x y : pymin (times u x) (times u y) = times u (pymin x y).
  Proof. unfold pymin. rewrite times_ltb by assumption. now destruct (vltb y x). Qed.
  Lemma t_start_trend a b c d : start_trend (times u a) (times u b) (times u c) (times u d) = start_trend a b c d.
  Proof.
    unfold start_trend. rewrite !times_sub by assumption. pose proof (t_pymax (vsub b d) v0) as Q. rewrite times_0 in Q.
    now rewrite Q, times_ltb, times_mul_l, times_0ltb by assumption.
  Qed.
  Definition t_st (s : sarst (V:=V)) : sarst :=
    mkSar (s_trend s) (times u (s_ep s)) (times u (s_sar s)) (s_af s) (times u (s_hi s)) (times u (s_lo s)).
  Lemma t_sar_step AF AX s hi lo :
    sar_step AF AX (t_st s) (times u hi) (times u lo) = (t_st (fst (sar_step AF AX s hi lo)), times u (snd (sar_step AF AX s hi lo))).
  Proof.
    destruct s as [tr ep sr af h1 l1]. unfold sar_step, t_st. cbn [s_trend s_ep s_sar s_af s_hi s_lo].
    rewrite !times_leb, !times_ltb by assumption.
    destruct tr; [destruct (vleb lo sr)|destruct (vleb sr hi)]; cbn [fst snd s_trend s_ep s_sar s_af s_hi s_lo];
      try (destruct (vltb ep hi)); try (destruct (vltb lo ep)); cbn [fst snd s_trend s_ep s_sar s_af s_hi s_lo];
      repeat rewrite ?times_sub, ?times_mul_r, ?times_add, ?t_pymax, ?t_pymin by assumption; reflexivity.
  Qed.
  Lemma t_sar_loop AF AX h : forall l s, sar_loop AF AX (t_st s) (tl_ u h) (tl_ u l) = tl_ u (sar_loop AF AX s h l).
  Proof.
    induction h as [|hi h IH]; intros [|lo l] s; try reflexivity. cbn [sar_loop map]. rewrite t_sar_step.
    destruct (sar_step AF AX s hi lo) as [s' x]. cbn [fst snd map]. now rewrite IH.
  Qed.
  Lemma tl_map {A B} (f : A -> B) l : tl (map f l) = map f (tl l).
  Proof. now destruct l. Qed.
  Lemma t_sarize AF AX h l : sarize AF AX (tl_ u h) (tl_ u l) = converted (tl_ u) (sarize AF AX h l).
  Proof.
    destruct h as [|h1 [|hi h]], l as [|l1 [|lo l]]; try reflexivity. unfold sarize. cbn [map tl converted].
    rewrite t_start_trend. change (times u hi :: tl_ u h) with (tl_ u (hi :: h)). change (times u lo :: tl_ u l) with (tl_ u (lo :: l)).
    destruct (start_trend h1 l1 hi lo); cbn [converted map]; f_equal; f_equal; rewrite <- t_sar_loop; reflexivity.
  Qed.
  Lemma in_apply F G a args args' :
    map (@lmp V) args' = map (@lmp V) args ->
    (forall i, F (tl_ u (slice_from (lser a) i)) (map (fun x => slice_from (lser x) i) args') =
               converted (tl_ u) (G (slice_from (lser a) i) (map (fun x => slice_from (lser x) i) args))) ->
    apply_ F (in_unit u a) args' = converted (in_unit u) (apply_ G a args).
  Proof.
    intros E H. unfold apply_. rewrite (max_mp_in u a args' args E). cbn [lser in_unit]. rewrite slice_from_map, H, map_length.
    destruct (G _ _); [|reflexivity]. cbn [bind converted]. rewrite set_nans. reflexivity.
  Qed.
  Lemma in_sar AF AX h l : sar AF AX (in_unit u h) (in_unit u l) = converted (in_unit u) (sar AF AX h l).
  Proof.
    unfold sar. match goal with |- context [apply_ ?F (in_unit u h) _] => rewrite (in_apply F F h [l] [in_unit u l]); [|reflexivity|] end.
    - destruct (apply_ _ h [l]); [|reflexivity]. reflexivity.
    - intro i. cbn [map]. cbn [lser in_unit]. rewrite slice_from_map. apply t_sarize.
  Qed.

  Definition t_stx (s : sarxst (V:=V)) : sarxst :=
    mkSarx (x_trend s) (times u (x_ep s)) (times u (x_sar s)) (x_afl s) (x_afs s) (times u (x_hi s)) (times u (x_lo s)).
  Lemma t_neg x : vneg (times u x) = times u (vneg x).
  Proof. unfold vneg. rewrite <- (times_0 u) at 1. apply times_sub. Qed.
  Lemma t_sarx_step P s hi lo :
    sarx_step P (t_stx s) (times u hi) (times u lo) = (t_stx (fst (sarx_step P s hi lo)), times u (snd (sarx_step P s hi lo))).
  Proof.
    destruct s as [tr ep sr afl afs h1 l1]. unfold sarx_step, t_stx. cbn [x_trend x_ep x_sar x_afl x_afs x_hi x_lo].
    rewrite !times_leb, !times_ltb by assumption.
    destruct tr; [destruct (vleb lo sr)|destruct (vleb sr hi)]; cbn [fst snd x_trend x_ep x_sar x_afl x_afs x_hi x_lo];
      try (destruct (vltb ep hi)); try (destruct (vltb lo ep)); cbn [fst snd x_trend x_ep x_sar x_afl x_afs x_hi x_lo];
      repeat rewrite ?times_mul_l, ?times_sub, ?times_mul_r, ?times_add, ?t_pymax, ?t_pymin, ?t_neg by assumption; reflexivity.
  Qed.
  Lemma t_sarx_loop P h : forall l s, sarx_loop P (t_stx s) (tl_ u h) (tl_ u l) = tl_ u (sarx_loop P s h l).
  Proof.
    induction h as [|hi h IH]; intros [|lo l] s; try reflexivity. cbn [sarx_loop map]. rewrite t_sarx_step.
    destruct (sarx_step P s hi lo) as [s' x]. cbn [fst snd map]. now rewrite IH.
  Qed.
  Lemma eq00 : veqb (Fin 0 : V) v0 = true.
  Proof. cbn. destruct (beqb_spec 0 0); [reflexivity|lra]. Qed.
  Lemma t_sarxize P h l : sarxize (Fin 0) P (tl_ u h) (tl_ u l) = converted (tl_ u) (sarxize (Fin 0) P h l).
  Proof.
    destruct h as [|h1 [|hi h]], l as [|l1 [|lo l]]; try reflexivity. unfold sarxize. rewrite eq00. cbn [map tl converted].
    rewrite t_start_trend. change (times u hi :: tl_ u h) with (tl_ u (hi :: h)). change (times u lo :: tl_ u l) with (tl_ u (lo :: l)).
    destruct (start_trend h1 l1 hi lo); cbn [converted map]; f_equal; f_equal; rewrite <- t_sarx_loop; reflexivity.
  Qed.
  Lemma in_sarext P h l : sarext (Fin 0) P (in_unit u h) (in_unit u l) = converted (in_unit u) (sarext (Fin 0) P h l).
  Proof.
    unfold sarext. match goal with |- context [apply_ ?F (in_unit u h) _] => rewrite (in_apply F F h [l] [in_unit u l]); [|reflexivity|] end.
    - destruct (apply_ _ h [l]); [|reflexivity]. reflexivity.
    - intro i. cbn [map]. cbn [lser in_unit]. rewrite slice_from_map. apply t_sarxize.
  Qed.
End Sar.

(** ** Hilbert transform *)
Section HT.
  Variable u : R.
  Hypothesis Hu : 0 < u.
  Let Huu : 0 < u * u := pos_prod u u Hu Hu.

  Definition t7 (d : deque7 V) : deque7 V :=
    D7 (times u (x0 d)) (times u (x1 d)) (times u (x2 d)) (times u (x3 d)) (times u (x4 d)) (times u (x5 d)) (times u (x6 d)).
  Lemma t7_append d x : dappend (t7 d) (times u x) = t7 (dappend d x).
  Proof. reflexivity. Qed.
  Lemma t7_zero : t7 dzero = dzero.
  Proof. unfold t7, dzero. cbn [x0 x1 x2 x3 x4 x5 x6]. now rewrite times_0. Qed.
  Lemma t_ht d adj : ht_ (t7 d) adj = times u (ht_ d adj).
  Proof. unfold ht_, t7. cbn [x0 x2 x4 x6]. rewrite !times_mul_r, times_add, !times_sub, times_mul_l by assumption. reflexivity. Qed.
  Lemma t_mix w a x b y : 0 < w -> mix a (times w x) b (times w y) = times w (mix a x b y).
  Proof. intro H. unfold mix. now rewrite !times_mul_r, times_add. Qed.
  Lemma t_truthy w x : 0 < w -> truthy (times w x) = truthy x.
  Proof. intro H. unfold truthy. now rewrite times_eqb0. Qed.
  Lemma t_raw_period w re im p1 : 0 < w -> raw_period (times w re) (times w im) p1 = raw_period re im p1.
  Proof. intro H. unfold raw_period. now rewrite !t_truthy, times_ratio. Qed.
  Definition t_htst (s : htst V) : htst V :=
    mkHt (t7 (h_price s)) (t7 (h_det s)) (t7 (h_i1 s)) (t7 (h_q1 s)) (times u (h_i2 s)) (times u (h_q2 s))
      (times (u * u) (h_re s)) (times (u * u) (h_im s)) (h_period s) (h_sp s).
  Lemma t_ht_step s p : ht_step (t_htst s) (times u p) = t_htst (ht_step s p).
  Proof.
    unfold ht_step. cbv zeta. cbn [t_htst h_price h_det h_i1 h_q1 h_i2 h_q2 h_re h_im h_period h_sp].
    set (adj := vadd _ _). rewrite !t7_append, !t_ht, !t7_append.
    set (price := dappend (h_price s) p). set (det := dappend (h_det s) (ht_ price adj)).
    replace (x3 (t7 det)) with (times u (x3 det)) by reflexivity.
    rewrite !t7_append, !t_ht.
    set (i1 := dappend (h_i1 s) (x3 det)). rewrite t7_append, t_ht. set (q1 := dappend (h_q1 s) (ht_ det adj)).
    rewrite times_sub, times_add, !t_mix by assumption. rewrite !times_mul, times_add, times_sub, !t_mix, t_raw_period by assumption.
    reflexivity.
  Qed.
  Lemma t_ht0 : t_htst ht0 = ht0.
  Proof. unfold t_htst, ht0. cbn [h_price h_det h_i1 h_q1 h_i2 h_q2 h_re h_im h_period h_sp]. now rewrite t7_zero, !times_0. Qed.
  Definition t_in (i : ht_in V) : ht_in V :=
    match i with HLine a => HLine (in_unit u a) | HHighLow h l => HHighLow (in_unit u h) (in_unit u l) end.
  Lemma in_p0 i : ht_p0 (t_in i) = in_unit u (ht_p0 i).
  Proof. destruct i; cbn [ht_p0 t_in]; [reflexivity|]. now rewrite in_add, in_div_s. Qed.
  Lemma in_p0smooth a : ht_p0smooth (in_unit u a) = in_unit u (ht_p0smooth a).
  Proof.
    unfold ht_p0smooth. rewrite !in_at_ago, !in_rmul_s, !in_add, in_div_s by assumption. apply (in_period u _ 3 false None).
  Qed.
  Lemma t_buffered n l r : buffered n (tl_ u l) (tl_ u r) = tl_ u (buffered n l r).
  Proof. unfold buffered. now rewrite map_length, map_app, map_repeat', times_0. Qed.
  Lemma t_buffered_free n l r : buffered n (tl_ u l) r = buffered n l r.
  Proof. unfold buffered. now rewrite map_length. Qed.

  Lemma t_dcp s l : dcp_loop (t_htst s) (tl_ u l) = dcp_loop s l.
  Proof. revert s. induction l as [|p l IH]; intro s; [reflexivity|]. cbn [dcp_loop map]. now rewrite t_ht_step, IH. Qed.
  Lemma t_dcperiodize l : dcperiodize (tl_ u l) = dcperiodize l.
  Proof. unfold dcperiodize. rewrite t_buffered_free, skipn_map. rewrite <- t_ht0 at 1. now rewrite t_dcp. Qed.

  (** results that are pure numbers *)
  Lemma in_apply_free F G a args args' :
    map (@lmp V) args' = map (@lmp V) args ->
    (forall i, F (tl_ u (slice_from (lser a) i)) (map (fun x => slice_from (lser x) i) args') =
               G (slice_from (lser a) i) (map (fun x => slice_from (lser x) i) args)) ->
    apply_ F (in_unit u a) args' = apply_ G a args.
  Proof.
    intros E H. unfold apply_. rewrite (max_mp_in u a args' args E). cbn [lser in_unit]. rewrite slice_from_map, H, map_length.
    reflexivity.
  Qed.
  Lemma in_applymulti F G a args args' :
    map (@lmp V) args' = map (@lmp V) args ->
    (forall i, F (tl_ u (slice_from (lser a) i)) (map (fun x => slice_from (lser x) i) args') =
               converted (map (tl_ u)) (G (slice_from (lser a) i) (map (fun x => slice_from (lser x) i) args))) ->
    applymulti_ F (in_unit u a) args' = converted (map (in_unit u)) (applymulti_ G a args).
  Proof.
    intros E H. unfold applymulti_. rewrite (max_mp_in u a args' args E). cbn [lser in_unit]. rewrite slice_from_map, H, map_length.
    destruct (G _ _); [|reflexivity]. cbn [bind converted]. f_equal. rewrite !map_map. apply map_ext. intro r. now rewrite set_nans.
  Qed.
  Lemma in_applymulti_free F G a args args' :
    map (@lmp V) args' = map (@lmp V) args ->
    (forall i, F (tl_ u (slice_from (lser a) i)) (map (fun x => slice_from (lser x) i) args') =
               G (slice_from (lser a) i) (map (fun x => slice_from (lser x) i) args)) ->
    applymulti_ F (in_unit u a) args' = applymulti_ G a args.
  Proof.
    intros E H. unfold applymulti_. rewrite (max_mp_in u a args' args E). cbn [lser in_unit]. rewrite slice_from_map, H, map_length.
    reflexivity.
  Qed.
  Lemma in_filled0 a : filled (in_unit u a) v0 = in_unit u (filled a v0).
  Proof. rewrite <- (times_0 u) at 1. apply in_filled. Qed.

  Lemma in_dcperiod i : ht_dcperiod (t_in i) = ht_dcperiod i.
  Proof.
    unfold ht_dcperiod. rewrite in_p0, in_p0smooth. erewrite in_apply_free; [reflexivity|reflexivity|].
    intro k. cbn beta. now rewrite t_dcperiodize.
  Qed.
  Lemma t_phasor s l : phasor_loop (t_htst s) (tl_ u l) = map (fun q => (times u (fst q), times u (snd q))) (phasor_loop s l).
  Proof. revert s. induction l as [|p l IH]; intro s; [reflexivity|]. cbn [phasor_loop map]. now rewrite t_ht_step, IH. Qed.
  Lemma t_phasorize l : phasorize (tl_ u l) = map (tl_ u) (phasorize l).
  Proof.
    unfold phasorize. rewrite skipn_map. rewrite <- t_ht0 at 1 2. rewrite t_phasor. cbn [map].
    rewrite <- !t_buffered, !map_map. reflexivity.
  Qed.
  Lemma in_phasor_lines a :
    applymulti_ (fun price _ => Ok (phasorize price)) (in_unit u a) [filled (in_unit u a) v0; filled (in_unit u a) v0] =
    converted (map (in_unit u)) (applymulti_ (fun price _ => Ok (phasorize price)) a [filled a v0; filled a v0]).
  Proof. apply in_applymulti; [reflexivity|]. intro k. cbn [converted]. now rewrite t_phasorize. Qed.
  Lemma in_phasor i : ht_phasor (t_in i) = converted (In2 u) (ht_phasor i).
  Proof.
    unfold ht_phasor. rewrite in_p0, in_p0smooth, in_phasor_lines. cbv zeta.
    destruct (applymulti_ _ _ _) as [ls|e]; [|reflexivity]. cbn [bind converted].
    destruct ls as [|a [|b [|]]]; try reflexivity. cbn [map converted]. f_equal. unfold In2. cbn [fst snd].
    f_equal; apply in_period_nan.
  Qed.

  Lemma t_dft pr i dc dcis : forall re im, dft_from (tl_ u pr) i dc dcis (times u re) (times u im) =
    match dft_from pr i dc dcis re im with Ok q => Ok (times u (fst q), times u (snd q)) | Raise e => Raise e end.
  Proof.
    induction dcis as [|k dcis IH]; intros re im; [reflexivity|]. cbn [dft_from]. rewrite getitem_map.
    destruct (getitem pr (i - Z.of_nat k)); [|reflexivity]. cbn [bind]. now rewrite !times_mul_r, !times_add, IH by assumption.
  Qed.
  Lemma t_next_phase ph re im sp : next_phase ph (times u re) (times u im) sp = next_phase ph re im sp.
  Proof.
    unfold next_phase. rewrite times_abs, times_0ltb, times_ratio, !times_ltb0, times_0ltb by assumption.
    assert (E : vltb v0 (vabs im) = false -> vleb (times u (vabs im)) (vofQ (1 # 100)) = vleb (vabs im) (vofQ (1 # 100))).
    { destruct im as [| | |a]; try reflexivity. assert (Q : vabs (Fin a : V) = if Rltb a 0 then Fin (- a) else Fin a).
      { cbn. unfold bneg, b0. cbn. destruct (Rltb a 0); f_equal. lra. }
      rewrite Q.
      destruct (Rltb_spec a 0) as [L|L].
      - change (vltb (v0 : V) (Fin (- a))) with (Rltb 0 (- a)). destruct (Rltb_spec 0 (- a)); [discriminate|]. lra.
      - change (vltb (v0 : V) (Fin a)) with (Rltb 0 a). destruct (Rltb_spec 0 a); [discriminate|]. intros _.
        replace a with 0 by lra. cbn [times]. now rewrite Rmult_0_r. }
    destruct (vltb v0 (vabs im)); [reflexivity|]. now rewrite E.
  Qed.
  Lemma t_phase_at pr i sp ph : phase_at (tl_ u pr) i sp ph = phase_at pr i sp ph.
  Proof.
    unfold phase_at. destruct (pyint _) as [dc|]; [|reflexivity]. cbn [bind]. unfold dft.
    rewrite <- (times_0 u) at 1 2. rewrite t_dft. destruct (dft_from _ _ _ _ _ _) as [[re im]|]; [|reflexivity].
    cbn [bind fst snd]. now rewrite t_next_phase.
  Qed.
  Lemma t_phase_loop pr rest : forall i s ph,
    phase_loop (tl_ u pr) i (t_htst s) ph (tl_ u rest) = phase_loop pr i s ph rest.
  Proof.
    induction rest as [|p rest IH]; intros i s ph; [reflexivity|]. cbn [phase_loop map]. rewrite t_ht_step, t_phase_at.
    cbn [t_htst h_sp]. destruct (phase_at pr i _ ph); [|reflexivity]. cbn [bind]. now rewrite IH.
  Qed.
  Lemma t_zeroed n l : zeroed n (tl_ u l) = tl_ u (zeroed n l).
  Proof. unfold zeroed. rewrite <- (times_0 u) at 1. apply set_slice_map. Qed.
  Lemma t_phases l : phase_loop (zeroed 31 (tl_ u l)) 31 ht0 v0 (skipn 31 (tl_ u l)) =
                     phase_loop (zeroed 31 l) 31 ht0 v0 (skipn 31 l).
  Proof. rewrite t_zeroed, skipn_map. rewrite <- t_ht0 at 1. apply t_phase_loop. Qed.
  Lemma in_dcphase i : ht_dcphase (t_in i) = ht_dcphase i.
  Proof.
    unfold ht_dcphase. rewrite in_p0, in_p0smooth. erewrite in_apply_free; [reflexivity|reflexivity|].
    intro k. cbn beta. unfold dcphasize. rewrite t_phases. destruct (phase_loop _ _ _ _ _); [|reflexivity]. cbn [bind].
    now rewrite t_buffered_free.
  Qed.
  Lemma in_sine i : ht_sine (t_in i) = ht_sine i.
  Proof.
    unfold ht_sine. rewrite in_p0, in_p0smooth. erewrite in_applymulti_free; [reflexivity|reflexivity|].
    intro k. cbn beta. unfold sinize. rewrite t_phases. destruct (phase_loop _ _ _ _ _); [|reflexivity]. cbn [bind].
    now rewrite !t_buffered_free.
  Qed.
  Lemma t_it_at pr i dc : it_at (tl_ u pr) i dc = times u (it_at pr i dc).
  Proof. unfold it_at. rewrite slice_map, t_vsum by assumption. destruct (0 <? dc)%Z; [|reflexivity]. now apply times_div_s. Qed.
  Lemma t_trend4 a b c d : trend4 (times u a) (times u b) (times u c) (times u d) = times u (trend4 a b c d).
  Proof. unfold trend4. now rewrite !times_mul_r, !times_add, times_div_s. Qed.
  Lemma t_trend_loop pr rest : forall i s a b c,
    trend_loop (tl_ u pr) i (t_htst s) (times u a) (times u b) (times u c) (tl_ u rest) =
    converted (tl_ u) (trend_loop pr i s a b c rest).
  Proof.
    induction rest as [|p rest IH]; intros i s a b c; [reflexivity|]. cbn [trend_loop map]. rewrite t_ht_step.
    cbn [t_htst h_sp]. destruct (pyint _) as [dc|]; [|reflexivity]. cbn [bind]. rewrite t_it_at, IH.
    destruct (trend_loop _ _ _ _ _ _ _); [|reflexivity]. cbn [bind converted map]. now rewrite t_trend4.
  Qed.
  Lemma in_trendline i : ht_trendline (t_in i) = converted (in_unit u) (ht_trendline i).
  Proof.
    unfold ht_trendline. rewrite in_p0, in_p0smooth. cbv zeta.
    match goal with |- context [apply_ ?F (in_unit u ?a) [in_unit u ?b; ?c]] =>
      rewrite (in_apply u F F a [b; filled a v0] [in_unit u b; c]); [|reflexivity|] end.
    - cbv zeta. destruct (apply_ _ _ _); [|reflexivity]. cbn [bind converted]. f_equal. apply in_period_nan.
    - intro k. cbn [map lser in_unit]. rewrite slice_from_map. unfold trendlinize. rewrite skipn_map.
      pose proof (t_trend_loop (slice_from (lser (ht_p0 i)) k) (skipn 31 (slice_from (lser (ht_p0smooth (ht_p0 i))) k)) 31 ht0 v0 v0 v0) as Q.
      rewrite t_ht0, times_0 in Q. rewrite Q. clear Q. destruct (trend_loop (slice_from (lser (ht_p0 i)) k) _ _ _ _ _ _); [|reflexivity].
      cbn [bind converted]. now rewrite t_buffered.
  Qed.

  Definition t_tm (s : tmst V) : tmst V :=
    mkTm (times u (t_it1 s)) (times u (t_it2 s)) (times u (t_it3 s)) (t_days s) (t_phase s) (t_sine s) (t_lead s).
  Lemma t_mode a b c d e f g tr p days : mode_at a b c d e f g (times u tr) (times u p) days = mode_at a b c d e f g tr p days.
  Proof. unfold mode_at. now rewrite t_truthy, times_ratio. Qed.
  Lemma t_tm_step pr pr0 i sp p s :
    tm_step (tl_ u pr) (tl_ u pr0) i sp (times u p) (t_tm s) =
    match tm_step pr pr0 i sp p s with Ok q => Ok (t_tm (fst q), snd q) | Raise e => Raise e end.
  Proof.
    unfold tm_step. rewrite t_phase_at. cbn [t_tm t_phase t_it1 t_it2 t_it3 t_days t_sine t_lead].
    destruct (phase_at _ _ _ _); [|reflexivity]. cbn [bind]. destruct (pyint _) as [dc|]; [|reflexivity]. cbn [bind].
    rewrite t_it_at, t_trend4, t_mode. destruct (mode_at _ _ _ _ _ _ _ _ _ _). reflexivity.
  Qed.
  Lemma t_tm_loop pr pr0 rest : forall i s m,
    tm_loop (tl_ u pr) (tl_ u pr0) i (t_htst s) (t_tm m) (tl_ u rest) = tm_loop pr pr0 i s m rest.
  Proof.
    induction rest as [|p rest IH]; intros i s m; [reflexivity|]. cbn [tm_loop map]. rewrite t_ht_step, t_tm_step.
    cbn [t_htst h_sp]. destruct (tm_step _ _ _ _ _ _) as [[m' x]|]; [|reflexivity]. cbn [bind fst snd]. now rewrite IH.
  Qed.
  Lemma t_tm0 : t_tm tm0 = tm0.
  Proof. unfold t_tm, tm0. cbn [t_phase t_it1 t_it2 t_it3 t_days t_sine t_lead]. now rewrite times_0. Qed.
  Lemma in_trendmode i : ht_trendmode (t_in i) = ht_trendmode i.
  Proof.
    unfold ht_trendmode. rewrite in_p0, in_p0smooth. erewrite in_apply_free; [reflexivity|reflexivity|].
    intro k. cbn [map lser in_unit]. rewrite slice_from_map. unfold trendmodize. rewrite t_zeroed, skipn_map.
    rewrite <- t_ht0 at 1. rewrite <- t_tm0 at 1. rewrite t_tm_loop. destruct (tm_loop _ _ _ _ _ _); [|reflexivity].
    cbn [bind]. now rewrite t_buffered_free.
  Qed.

  Lemma in_mask a c : lmask (in_unit u a) c v0 = in_unit u (lmask a c v0).
  Proof.
    unfold lmask. rewrite in_bars. cbn [lser lmp in_unit]. rewrite slice_from_map.
    set (mi := (Z.max (Z.max (lmp a) (bmp c)) 1 - 1)%Z). rewrite <- (map_id (slice_from (bser c) mi)) at 1. rewrite map2_map.
    rewrite (map2_ext _ (fun x (b : bool) => times u (if b then v0 else x))).
    - rewrite <- map_map2, set_nans. reflexivity.
    - intros x [|]; [symmetry; apply times_0|reflexivity].
  Qed.
  Lemma in_eq0 a : cmpop_s veqb (in_unit u a) v0 = cmpop_s veqb a v0.
  Proof. apply in_cmpop_s. intro. now apply times_eqb0. Qed.
  Lemma in_mama_phase a b : mama_phase (in_unit u a) (in_unit u b) = mama_phase a b.
  Proof.
    unfold mama_phase. pose proof (in_period u b 6 false None) as E. cbn [option_map] in E. rewrite E.
    now rewrite in_eq0, in_mask, in_ratio.
  Qed.
  Lemma in_mama f s i : mama f s (t_in i) = converted (In2 u) (mama f s i).
  Proof.
    unfold mama. rewrite in_p0, in_p0smooth, in_phasor_lines. cbv zeta.
    destruct (applymulti_ _ _ _) as [ls|e]; [|reflexivity]. cbn [bind converted].
    destruct ls as [|a [|b [|]]]; try reflexivity. cbn [map]. rewrite in_mama_phase.
    rewrite in_ewm_dyn by assumption. destruct (ewm_dyn 1 _ _ _) as [m|]; [|reflexivity]. cbn [converted bind].
    rewrite in_ewm_dyn by assumption. destruct (ewm_dyn 0 _ _ _) as [m'|]; [|reflexivity]. cbn [converted bind].
    f_equal. unfold In2. cbn [fst snd]. f_equal; apply in_period_nan.
  Qed.
End HT.
