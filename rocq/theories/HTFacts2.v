(** The Hilbert transform indicators on finite prices. *)
From Coq Require Import ZArith QArith List Bool Lia Arith Reals Lra Psatz.
From Verif Require Import Num Series Line Spec RSpec LineFacts ScanFacts RFacts OpFacts RLineFacts
  Apply IndSar SarFacts IndHT HTSpec HTFacts.
Import ListNotations.
Set Implicit Arguments.
Local Open Scope R_scope.

(** ** plumbing *)
Lemma period_feeds {V} {N : Num V} (a : line V) n k f p :
  feeds a n k f -> feeds (period_ a (Z.of_nat p) false None) n (k + p) f.
Proof.
  intros (M & L & F). unfold period_.
  destruct (Z.eqb_spec (Z.of_nat p - 0) 0).
  - assert (p = 0%nat) by lia. subst. rewrite Nat.add_0_r. now split.
  - split; [|split]; cbn [lmp lser]; [rewrite M; lia|exact L|]. intros i Hi. apply F. lia.
Qed.
Lemma period_nan_delivers {V} {N : Num V} (a : line V) n k f p :
  (1 <= p)%nat ->
  delivers a n k f -> delivers (period_ a (Z.of_nat p) false (Some vnan)) n (k + p) f.
Proof.
  intros Hp [(M & L & F) W]. unfold period_.
  destruct (Z.eqb_spec (Z.of_nat p - 0) 0); [lia|].
  destruct (Z.ltb_spec (lmp a - 1 + (Z.of_nat p - 0)) (lmp a - 1)); [lia|].
  rewrite M. replace (Z.of_nat (S k) - 1)%Z with (Z.of_nat k) by lia.
  replace (Z.of_nat k + (Z.of_nat p - 0))%Z with (Z.of_nat (k + p)) by lia.
  split; [split; [|split]|]; cbn [lmp lser].
  - lia.
  - unfold set_slice. rewrite !slice_lo_nat, !app_length, firstn_length, repeat_length, skipn_length, L. lia.
  - intros i Hi. rewrite nth_error_set_slice by lia. rewrite L.
    destruct (Nat.ltb_spec i n); [|lia].
    destruct (Nat.leb_spec k i), (Nat.ltb_spec i (k + p)); cbn [andb]; try lia; apply F; lia.
  - intros i Hi Hn. rewrite nth_error_set_slice by lia. rewrite L.
    destruct (Nat.ltb_spec i n); [|lia].
    destruct (Nat.leb_spec k i), (Nat.ltb_spec i (k + p)); cbn [andb]; try lia; try reflexivity.
    apply W; lia.
Qed.

Lemma skipn_map_seq {A} (f : nat -> A) j m d :
  skipn d (map f (seq j m)) = map f (seq (j + d) (m - d)).
Proof.
  revert j m; induction d as [|d IH]; intros j m.
  - now rewrite Nat.add_0_r, Nat.sub_0_r.
  - destruct m as [|m]; [reflexivity|].
    change (skipn d (map f (seq (S j) m)) = map f (seq (j + S d) (m - d))). rewrite IH.
    now replace (S j + d)%nat with (j + S d)%nat by lia.
Qed.
Lemma firstn_map_seq {A} (f : nat -> A) j m d :
  (d <= m)%nat -> firstn d (map f (seq j m)) = map f (seq j d).
Proof.
  revert j m; induction d as [|d IH]; intros j m H; [reflexivity|].
  destruct m as [|m]; [lia|].
  change (f j :: firstn d (map f (seq (S j) m)) = f j :: map f (seq (S j) d)). now rewrite IH by lia.
Qed.

Lemma smooth_feeds (p0 : line (ext R)) n k x :
  feeds p0 n k (fin x) -> feeds (ht_p0smooth p0) n (k + 6) (fin (smooth4 x)).
Proof.
  intro H. unfold ht_p0smooth. rewrite !vofZ_fin.
  pose proof (@ago_fin n p0 k x 1 H ltac:(lia)) as A1.
  pose proof (@ago_fin n p0 k x 2 H ltac:(lia)) as A2.
  pose proof (@ago_fin n p0 k x 3 H ltac:(lia)) as A3.
  pose proof (rmuls_fin 4 H) as M0.
  pose proof (rmuls_fin 3 (delivers_feeds A1)) as M1.
  pose proof (rmuls_fin 2 (delivers_feeds A2)) as M2.
  pose proof (ladd_fin (delivers_feeds M0) (delivers_feeds M1)) as S1.
  pose proof (ladd_fin (delivers_feeds S1) (delivers_feeds M2)) as S2.
  pose proof (ladd_fin (delivers_feeds S2) (delivers_feeds A3)) as S3.
  assert (T : 10 <> 0) by lra.
  pose proof (divs_fin T (delivers_feeds S3)) as S4.
  pose proof (@period_feeds _ _ _ _ _ _ 3 (delivers_feeds S4)) as S5.
  replace (Nat.max (Nat.max (Nat.max k (k + 1)) (k + 2)) (k + 3) + 3)%nat with (k + 6)%nat in S5 by lia.
  exact S5.
Qed.
Lemma p0_feeds inp n k x : priced inp n k x -> feeds (ht_p0 inp) n k (fin x).
Proof.
  destruct inp as [i0|high low]; cbn [priced ht_p0]; [auto|].
  intros (kh & kl & h & l & Hh & Hl & -> & E). rewrite vofZ_fin.
  assert (T : 2 <> 0) by lra.
  pose proof (divs_fin T (delivers_feeds (ladd_fin Hh Hl))) as D.
  apply delivers_feeds in D. eapply feeds_ext; [|exact D]. intros i _. unfold fin. now rewrite E.
Qed.
Lemma filled_mp (a : line (ext R)) v : lmp (filled a v) = lmp a.
Proof. reflexivity. Qed.

(** ** the Hilbert transform loop, read on absolute bars *)
Section Loop.
  Variables (start : nat) (s : nat -> R).
  Hypothesis Hs : (1 <= start)%nat.

  Lemma step_hst d : ht_step (emb (hst start s d)) (Fin (s (start + d))) = emb (hst start s (S d)).
  Proof. apply ht_step_fin. Qed.

  Lemma dcp_run m d :
    dcp_loop (emb (hst start s d)) (map (fin s) (seq (start + d) m)) =
    map (fin (c_smooth (the_cycle start s))) (seq (start + d) m).
  Proof.
    revert d; induction m as [|m IH]; intro d; [reflexivity|].
    cbn [seq map dcp_loop]. cbv zeta. change (fin s (start + d)) with (Fin (s (start + d)%nat)). rewrite step_hst.
    replace (S (start + d)) with (start + S d)%nat by lia. rewrite IH. f_equal.
    unfold fin. cbn [c_smooth the_cycle]. now rewrite col_at.
  Qed.
  Lemma phasor_run m d :
    phasor_loop (emb (hst start s d)) (map (fin s) (seq (start + d) m)) =
    map (fun i => (fin (c_i1 (the_cycle start s)) i, fin (c_q1 (the_cycle start s)) i)) (seq (start + d) m).
  Proof.
    revert d; induction m as [|m IH]; intro d; [reflexivity|].
    cbn [seq map phasor_loop]. cbv zeta. change (fin s (start + d)) with (Fin (s (start + d)%nat)). rewrite step_hst.
    replace (S (start + d)) with (start + S d)%nat by lia. rewrite IH. f_equal.
    unfold fin. change (c_i1 (the_cycle start s)) with (col start s (fun st => x6 (h_i1 st))).
    change (c_q1 (the_cycle start s)) with (col start s (fun st => x6 (h_q1 st))). now rewrite !col_at.
  Qed.
End Loop.

Lemma buffered_seq (f g : nat -> ext R) j m sk :
  buffered sk (map f (seq j m)) (map g (seq (j + sk) (m - sk))) =
  map (fun i => if (i <? j + sk)%nat then Fin 0 else g i) (seq j m).
Proof.
  unfold buffered. rewrite map_length, seq_length, v0_fin.
  destruct (le_lt_dec sk m) as [L|L].
  - rewrite Nat.min_l by lia. replace m with (sk + (m - sk))%nat at 2 by lia.
    rewrite seq_app, map_app. f_equal.
    + assert (E : forall q u, (u + q <= j + sk)%nat -> repeat (@Fin R 0) q = map (fun i => if (i <? j + sk)%nat then Fin 0 else g i) (seq u q)).
      { induction q as [|q IH]; intros u Hu; [reflexivity|]. cbn [repeat seq map].
        destruct (Nat.ltb_spec u (j + sk)); [|lia]. f_equal. apply IH. lia. }
      apply E. lia.
    + apply map_ext_seq. intros i Hi. destruct (Nat.ltb_spec i (j + sk)); [lia|reflexivity].
  - rewrite Nat.min_r by lia. replace (m - sk)%nat with 0%nat by lia. cbn [seq map]. rewrite app_nil_r.
    assert (E : forall q u, (u + q <= j + sk)%nat -> repeat (@Fin R 0) q = map (fun i => if (i <? j + sk)%nat then Fin 0 else g i) (seq u q)).
    { induction q as [|q IH]; intros u Hu; [reflexivity|]. cbn [repeat seq map].
      destruct (Nat.ltb_spec u (j + sk)); [|lia]. f_equal. apply IH. lia. }
    apply E. lia.
Qed.

Lemma zeroed_seq (s : nat -> R) j m sk :
  zeroed sk (map (fin s) (seq j m)) = map (fin (from (j + sk) s)) (seq j m).
Proof.
  unfold zeroed. rewrite v0_fin. apply nth_error_ext.
  - unfold set_slice. change 0%Z with (Z.of_nat 0). rewrite !slice_lo_nat, !app_length, firstn_length, repeat_length, skipn_length,
      !map_length, seq_length. lia.
  - intros i Hi. change 0%Z with (Z.of_nat 0). rewrite nth_error_set_slice by lia.
    assert (L : (i < m)%nat).
    { revert Hi. unfold set_slice. change 0%Z with (Z.of_nat 0). rewrite !slice_lo_nat, !app_length, firstn_length, repeat_length, skipn_length,
      !map_length, seq_length. lia. }
    rewrite map_length, seq_length. destruct (Nat.ltb_spec i m); [|lia].
    rewrite !nth_error_map_seq by lia. cbn [Nat.leb andb]. unfold fin, from.
    destruct (Nat.ltb_spec i sk), (Nat.ltb_spec (j + i) (j + sk)); try lia; reflexivity.
Qed.

(** ** whole numbers *)
Lemma pyint_fin sp : 0 <= sp -> pyint (vadd (Fin sp) (vofQ (5 # 10))) = Ok (Z.of_nat (bars_of sp)).
Proof.
  intro H. rewrite lit_fin, vadd_fin. unfold pyint. cbn [vtrunc NumExt etrunc btrunc BaseR].
  f_equal. unfold Rtrunc, bars_of. destruct (Rlt_dec (sp + 5 / 10) 0); [lra|].
  replace (sp + 5 / 10) with (sp + 0.5) by lra. rewrite Z2Nat.id; [reflexivity|].
  destruct (base_Int_part (sp + 0.5)) as [B1 B2].
  assert (IZR (-1) < IZR (Int_part (sp + 0.5))) by lra. apply lt_IZR in H0. lia.
Qed.

(** ** the Fourier sums *)
Lemma dft_run (price : list (ext R)) (f : nat -> R) i w dcis re im :
  (1 <= w)%nat ->
  (forall j, In j dcis -> getitem price (Z.of_nat i - Z.of_nat j) = Ok (Fin (f j))) ->
  dft_from price (Z.of_nat i) (Z.of_nat w) dcis (Fin re) (Fin im) =
  Ok (Fin (re + Rsum (map (fun j => sin (INR j * (2 * PI) / INR w) * f j) dcis)),
      Fin (im + Rsum (map (fun j => cos (INR j * (2 * PI) / INR w) * f j) dcis))).
Proof.
  intros Hw. revert re im. induction dcis as [|j dcis IH]; intros re im H.
  - cbn. now rewrite !Rplus_0_r.
  - cbn [dft_from]. rewrite H by (now left). cbn [bind].
    rewrite circle_fin, !vofZ_fin, !IZR_nat, vmul_fin, vdiv_fin by (pose proof (INR_pos Hw); lra).
    change (vsin (Fin (INR j * (2 * PI) / INR w))) with (Fin (sin (INR j * (2 * PI) / INR w))).
    change (vcos (Fin (INR j * (2 * PI) / INR w))) with (Fin (cos (INR j * (2 * PI) / INR w))).
    rewrite !vmul_fin, !vadd_fin. rewrite IH by (intros; apply H; now right).
    cbn [map Rsum fold_right]. unfold Rsum. now rewrite !Rplus_assoc.
Qed.
Lemma getitem_seq {A} (g : nat -> A) j0 m i j :
  (j <= i)%nat -> (i < m)%nat ->
  getitem (map g (seq j0 m)) (Z.of_nat i - Z.of_nat j) = Ok (g (j0 + i - j)%nat).
Proof.
  intros Hj Hi. unfold getitem. destruct (Z.ltb_spec (Z.of_nat i - Z.of_nat j) 0); [lia|].
  destruct (Z.ltb_spec (Z.of_nat i - Z.of_nat j) 0); [lia|].
  replace (Z.to_nat (Z.of_nat i - Z.of_nat j)) with (i - j)%nat by lia.
  rewrite nth_error_map_seq by lia. f_equal. f_equal. lia.
Qed.
Lemma dft_fin (s : nat -> R) j0 m i w :
  (w <= S i)%nat -> (i < m)%nat ->
  dft (map (fin s) (seq j0 m)) (Z.of_nat i) (Z.of_nat w) =
  Ok (Fin (fourier_re s (j0 + i) w), Fin (fourier_im s (j0 + i) w)).
Proof.
  intros Hw Hi. unfold dft. rewrite Nat2Z.id, v0_fin. destruct w as [|w].
  - reflexivity.
  - rewrite (@dft_run _ (fun j => s (j0 + i - j)%nat)); [|lia|].
    + now rewrite !Rplus_0_l.
    + intros j Hj. apply in_seq in Hj. now rewrite getitem_seq by lia.
Qed.
Lemma phase_fin last re im sp :
  0 < sp -> next_phase (Fin last) (Fin re) (Fin im) (Fin sp) = Fin (phase_rule last re im sp).
Proof.
  intro Hsp. unfold next_phase, phase_rule. rewrite vabs_fin, v0_fin, !vltb_fin.
  set (base := if Req_EM_T im 0 then _ else _).
  match goal with |- context [vadd (vadd ?b (vofZ 90)) _] => assert (E : b = Fin base) end.
  { unfold base. destruct (Req_EM_T im 0) as [->|Z].
    - rewrite Rabs_R0, lit_fin, vleb_fin. destruct (Rltb_spec 0 0); [lra|].
      destruct (Rltb_spec (1 / 100) 0); [lra|]. cbn [negb].
      destruct (Rltb_spec re 0), (Rlt_dec re 0); try lra.
      + now rewrite vofZ_fin, vsub_fin.
      + destruct (Rltb_spec 0 re), (Rlt_dec 0 re); try lra; [now rewrite vofZ_fin, vadd_fin|reflexivity].
    - destruct (Rltb_spec 0 (Rabs im)) as [A|A]; [|pose proof (Rabs_pos_lt _ Z); lra].
      rewrite vdiv_fin by assumption. change (vatan (Fin (re / im))) with (Fin (atan (re / im))).
      rewrite rad2deg_fin, vmul_fin. f_equal. ring. }
  rewrite E. rewrite !vofZ_fin, vdiv_fin by lra. rewrite !vadd_fin.
  destruct (Rltb_spec im 0), (Rlt_dec im 0); try lra.
  - rewrite !vltb_fin.
    destruct (Rltb_spec 315 (base + 90 + 360 / sp + 180)), (Rlt_dec 315 (base + 90 + 360 / sp + 180)); try lra;
      reflexivity.
  - rewrite Rplus_0_r, vltb_fin.
    destruct (Rltb_spec 315 (base + 90 + 360 / sp)), (Rlt_dec 315 (base + 90 + 360 / sp)); try lra; reflexivity.
Qed.

Section Phase.
  Variables (j0 : nat) (s : nat -> R).
  Let start := (j0 + 31)%nat.
  Let c := the_cycle start s.

  Lemma start_pos : (1 <= start)%nat. Proof. unfold start. lia. Qed.
  Let C : is_cycle start s c := the_cycle_ok s start_pos.

  Fixpoint phs (d : nat) : R :=
    match d with
    | 0%nat => 0
    | S d' => let i := (start + d')%nat in
              let w := bars_of (c_smooth c i) in
              phase_rule (phs d') (fourier_re (from start s) i w) (fourier_im (from start s) i w) (c_smooth c i)
    end.
  Definition the_phase (i : nat) : R := from start (fun i => phs (S i - start)) i.

  Lemma phs_at d : the_phase (start + d) = phs (S d).
  Proof.
    unfold the_phase. rewrite from_ge by lia. now replace (S (start + d) - start)%nat with (S d) by lia.
  Qed.
  Lemma phs_prev d : the_phase (start + d - 1) = phs d.
  Proof.
    destruct d as [|d].
    - unfold the_phase. rewrite from_lt; [reflexivity|]. pose proof start_pos. lia.
    - replace (start + S d - 1)%nat with (start + d)%nat by lia. apply phs_at.
  Qed.
  Lemma the_phase_ok : is_phase start s c the_phase.
  Proof.
    split.
    - intros i Hi. now apply from_lt.
    - intros i Hi. cbv zeta. replace i with (start + (i - start))%nat by lia.
      rewrite phs_at, phs_prev. reflexivity.
  Qed.

  Lemma sp_hst d : h_sp (emb (hst start s (S d))) = Fin (c_smooth c (start + d)).
  Proof. unfold c. cbn [c_smooth the_cycle]. rewrite col_at by apply start_pos. reflexivity. Qed.

  Lemma sp_pos d : 0 < c_smooth c (start + d).
  Proof. pose proof (smooth_range start_pos C d). lra. Qed.

  Lemma phase_at_fin n d :
    (start + d < n)%nat ->
    phase_at (map (fin (from start s)) (seq j0 (n - j0))) (31 + d) (Fin (c_smooth c (start + d))) (Fin (phs d)) =
    Ok (Fin (phs (S d))).
  Proof.
    intro Hd. unfold phase_at. rewrite pyint_fin by (apply Rlt_le, sp_pos). cbn [bind].
    rewrite dft_fin; [|pose proof (bars_avail start_pos C d); lia|unfold start in Hd; lia].
    cbn [bind fst snd]. rewrite phase_fin by apply sp_pos.
    cbn [phs]. replace (j0 + (31 + d))%nat with (start + d)%nat by (unfold start; lia). reflexivity.
  Qed.

  Lemma phase_run n q d :
    (start + d + q = n)%nat ->
    phase_loop (map (fin (from start s)) (seq j0 (n - j0))) (31 + d) (emb (hst start s d)) (Fin (phs d))
      (map (fin s) (seq (start + d) q)) =
    Ok (map (fin the_phase) (seq (start + d) q)).
  Proof.
    revert d; induction q as [|q IH]; intros d Hn; [reflexivity|].
    cbn [seq map phase_loop]. cbv zeta. change (fin s (start + d)) with (Fin (s (start + d)%nat)). rewrite step_hst, sp_hst, phase_at_fin by lia.
    cbn [bind]. replace (S (31 + d)) with (31 + S d)%nat by lia.
    replace (S (start + d)) with (start + S d)%nat by lia. rewrite IH by lia. cbn [bind].
    change (fin the_phase (start + d)) with (Fin (the_phase (start + d))). now rewrite phs_at.
  Qed.
End Phase.

(** ** the trend line *)
Section Trend.
  Variables (j0 : nat) (s x : nat -> R).
  Let start := (j0 + 31)%nat.
  Let c := the_cycle start s.
  Let C : is_cycle start s c := the_cycle_ok s (start_pos j0).
  Let it := cycle_average start x c.

  Lemma it_fin n d :
    (start + d < n)%nat ->
    it_at (map (fin x) (seq j0 (n - j0))) (31 + d) (Z.of_nat (bars_of (c_smooth c (start + d)))) =
    Fin (it (start + d)).
  Proof.
    intro Hd. unfold it, cycle_average. rewrite from_ge by lia.
    pose proof (bars_avail (start_pos j0) C d) as B. fold start in B.
    set (w := bars_of (c_smooth c (start + d))) in *.
    unfold it_at. replace (Z.of_nat (31 + d) - (Z.of_nat w - 1))%Z with (Z.of_nat (31 + d + 1 - w)) by lia.
    replace (Z.of_nat (31 + d) + 1)%Z with (Z.of_nat (31 + d + 1)) by lia.
    rewrite slice_nat, skipn_map_seq. unfold start in Hd. rewrite firstn_map_seq by lia.
    replace (31 + d + 1 - (31 + d + 1 - w))%nat with w by lia.
    replace (j0 + (31 + d + 1 - w))%nat with (S (start + d) - w)%nat by (unfold start; lia).
    change (map (fin x) (seq (S (start + d) - w) w)) with (win (fin x) (start + d) w).
    rewrite win_fin, vsum_fin. destruct w as [|w']; [reflexivity|].
    destruct (Z.ltb_spec 0 (Z.of_nat (S w'))); [|lia].
    rewrite vofZ_fin, IZR_nat, vdiv_fin by (apply not_0_INR; lia). unfold average, Rmean, lastp.
    now rewrite win_length.
  Qed.
  Lemma trend4_fin a b e f : trend4 (Fin a) (Fin b) (Fin e) (Fin f) = Fin ((4 * a + 3 * b + 2 * e + f) / 10).
  Proof. unfold trend4. rewrite !vofZ_fin, !vmul_fin, !vadd_fin, vdiv_fin by lra. reflexivity. Qed.

  Lemma trend_run n q d :
    (start + d + q = n)%nat ->
    trend_loop (map (fin x) (seq j0 (n - j0))) (31 + d) (emb (hst start s d))
      (Fin (it (start + d - 1))) (Fin (it (start + d - 2))) (Fin (it (start + d - 3)))
      (map (fin s) (seq (start + d) q)) =
    Ok (map (fin (smooth4 it)) (seq (start + d) q)).
  Proof.
    revert d; induction q as [|q IH]; intros d Hn; [reflexivity|].
    cbn [seq map trend_loop]. cbv zeta. change (fin s (start + d)) with (Fin (s (start + d)%nat)). rewrite step_hst.
    replace (h_sp (emb (hst start s (S d)))) with (Fin (c_smooth c (start + d)))
      by (symmetry; apply (sp_hst j0 s d)).
    rewrite pyint_fin by (apply Rlt_le, (sp_pos j0 s d)). cbn [bind]. rewrite it_fin by lia.
    replace (S (31 + d)) with (31 + S d)%nat by lia.
    replace (S (start + d)) with (start + S d)%nat by lia.
    pose proof (IH (S d) ltac:(lia)) as R.
    replace (start + S d - 1)%nat with (start + d)%nat in R by lia.
    replace (start + S d - 2)%nat with (start + d - 1)%nat in R by lia.
    replace (start + S d - 3)%nat with (start + d - 2)%nat in R by lia.
    rewrite R. cbn [bind]. rewrite trend4_fin. reflexivity.
  Qed.
End Trend.

(** ** the trend mode *)
Section Mode.
  Variables (j0 : nat) (s x : nat -> R).
  Let start := (j0 + 31)%nat.
  Let c := the_cycle start s.
  Let C : is_cycle start s c := the_cycle_ok s (start_pos j0).
  Let it := cycle_average start x c.
  Let ph := the_phase j0 s.
  Let sn := from start (sine_wave ph).
  Let ld := from start (lead_wave ph).

  Lemma sine_fin a : sine_of (Fin a) = Fin (sin (a * (PI / 180))).
  Proof. unfold sine_of. rewrite deg2rad_fin, vmul_fin. reflexivity. Qed.
  Lemma lead_fin a : leadsine_of (Fin a) = Fin (sin ((a + 45) * (PI / 180))).
  Proof. unfold leadsine_of. rewrite vofZ_fin, vadd_fin, deg2rad_fin, vmul_fin. reflexivity. Qed.

  Lemma crossed_dec i : {crossed sn ld i} + {~ crossed sn ld i}.
  Proof.
    unfold crossed.
    destruct (Rlt_dec (ld i) (sn i)), (Rle_dec (sn (i - 1)%nat) (ld (i - 1)%nat)),
      (Rlt_dec (sn i) (ld i)), (Rle_dec (ld (i - 1)%nat) (sn (i - 1)%nat)); (left; tauto) || (right; tauto).
  Qed.
  Fixpoint dys (d : nat) : nat :=
    match d with
    | 0%nat => 0%nat
    | S d' => if crossed_dec (start + d') then 1%nat else S (dys d')
    end.
  Definition the_days (i : nat) : nat := if (i <? start)%nat then 0%nat else dys (S i - start).

  Lemma days_at d : the_days (start + d) = dys (S d).
  Proof.
    unfold the_days. destruct (Nat.ltb_spec (start + d) start); [lia|].
    now replace (S (start + d) - start)%nat with (S d) by lia.
  Qed.
  Lemma days_prev d : the_days (start + d - 1) = dys d.
  Proof.
    destruct d as [|d].
    - unfold the_days. destruct (Nat.ltb_spec (start + 0 - 1) start); [reflexivity|]. unfold start in *; lia.
    - replace (start + S d - 1)%nat with (start + d)%nat by lia. apply days_at.
  Qed.
  Lemma days_ok : counts_days start sn ld the_days.
  Proof.
    split.
    - intros i Hi. unfold the_days. destruct (Nat.ltb_spec i start); [reflexivity|lia].
    - intros i Hi. replace i with (start + (i - start))%nat by lia. rewrite days_at, days_prev. cbn [dys].
      destruct (crossed_dec _); split; tauto.
  Qed.

  Definition trending (i : nat) : Prop :=
    far_off (s i) (smooth4 it i) \/
    (~ crossed sn ld i /\ 0.5 * c_smooth c i <= INR (the_days i) /\ ~ in_step ph (c_smooth c i) i).

  (** the boolean part of mode_at *)
  Lemma mode_fin i sp p tl d0 :
    0 < sp ->
    exists b : bool,
      mode_at (Fin (sn i)) (Fin (ld i)) (Fin (sn (i - 1)%nat)) (Fin (ld (i - 1)%nat)) (Fin sp)
        (Fin (ph i)) (Fin (ph (i - 1)%nat)) (Fin tl) (Fin p) (Z.of_nat d0) =
      (vofbool b, Z.of_nat (if crossed_dec i then 1%nat else S d0)) /\
      (b = true <-> far_off p tl \/
         (~ crossed sn ld i /\ 0.5 * sp <= INR (if crossed_dec i then 1%nat else S d0) /\ ~ in_step ph sp i)).
  Proof.
    intro Hsp. unfold mode_at. rewrite !vltb_fin, !vleb_fin, (truthy_fin sp).
    set (cr := (_ && _ || _ && _)%bool).
    assert (CR : BoolSpec (crossed sn ld i) (~ crossed sn ld i) cr).
    { unfold cr, crossed.
      destruct (Rltb_spec (ld i) (sn i)), (Rltb_spec (ld (i - 1)%nat) (sn (i - 1)%nat)),
        (Rltb_spec (sn i) (ld i)), (Rltb_spec (sn (i - 1)%nat) (ld (i - 1)%nat)); cbn [negb andb orb];
        first [constructor 1; first [left; split; lra | right; split; lra] | constructor 2; intros [[? ?]|[? ?]]; lra]. }
    destruct (beqb_spec sp 0) as [Z|Z]; [lra|]. cbn [negb].
    set (dd := if crossed_dec i then 1%nat else S d0).
    assert (DD : (if cr then (false, 0%Z) else (true, Z.of_nat d0)) = (negb cr, (Z.of_nat dd - 1)%Z)).
    { unfold dd. destruct CR, (crossed_dec i); try contradiction; cbn [negb]; f_equal; lia. }
    rewrite DD. replace (Z.of_nat dd - 1 + 1)%Z with (Z.of_nat dd) by lia.
    rewrite !lit_fin, !vofZ_fin, (vsub_fin (ph i)), (@vdiv_fin 360 sp), !vmul_fin, !vltb_fin, IZR_nat by lra.
    set (ins := (Rltb _ _ && Rltb _ _)%bool).
    assert (IN : BoolSpec (in_step ph sp i) (~ in_step ph sp i) ins).
    { unfold ins, in_step.
      destruct (Rltb_spec (67 / 100 * (360 / sp)) (ph i - ph (i - 1)%nat)), (Rltb_spec (ph i - ph (i - 1)%nat) (15 / 10 * (360 / sp)));
        cbn [andb]; constructor; lra. }
    set (fo := if truthy (Fin tl) then vleb (Fin (15 / 1000)) (vabs (vsub (vdiv (Fin p) (Fin tl)) (Fin 1))) else false).
    assert (FO : BoolSpec (far_off p tl) (~ far_off p tl) fo).
    { unfold fo, far_off. rewrite truthy_fin. destruct (beqb_spec tl 0) as [T|T]; cbn [negb]; [constructor; tauto|].
      rewrite vdiv_fin, vsub_fin, vabs_fin, vleb_fin by assumption.
      destruct (Rltb_spec (Rabs (p / tl - 1)) (15 / 1000)); cbn [negb]; constructor; [lra|split; [assumption|lra]]. }
    set (short := Rltb (INR dd) (5 / 10 * sp)).
    exists (fo || (negb cr && negb short && negb ins))%bool. split.
    - f_equal. f_equal. unfold fo. destruct (truthy (Fin tl)); [destruct (vleb (Fin (15 / 1000)) _)|];
        cbn [orb]; destruct ins, short, cr; reflexivity.
    - assert (SH : BoolSpec (INR dd < 0.5 * sp) (0.5 * sp <= INR dd) short).
      { unfold short. destruct (Rltb_spec (INR dd) (5 / 10 * sp)); constructor; lra. }
      clear DD. clearbody dd fo short ins cr.
      destruct FO as [F|F]; cbn [orb]; [tauto|].
      destruct CR as [E|E]; cbn [negb andb]; [split; [discriminate|tauto]|].
      destruct SH as [G|G]; cbn [negb andb]; [split; [discriminate|]|].
      + intros [?|(_ & ? & _)]; [tauto|lra].
      + destruct IN as [H|H]; cbn [negb]; [split; [discriminate|tauto]|]. split; auto.
  Qed.

  Definition modes (n : nat) (m : nat -> R) : Prop :=
    forall i, (start <= i < n)%nat -> (m i = 0 \/ m i = 1) /\ (m i = 1 <-> trending i).

  Definition tmS (d : nat) : tmst (ext R) :=
    let i := (start + d)%nat in
    mkTm (Fin (it (i - 1)%nat)) (Fin (it (i - 2)%nat)) (Fin (it (i - 3)%nat)) (Z.of_nat (dys d))
         (Fin (phs j0 s d)) (Fin (sn (i - 1)%nat)) (Fin (ld (i - 1)%nat)).

  Lemma tm_step_fin n d :
    (start + d < n)%nat ->
    exists b : bool,
      tm_step (map (fin (from start s)) (seq j0 (n - j0))) (map (fin x) (seq j0 (n - j0))) (31 + d)
        (Fin (c_smooth c (start + d))) (Fin (s (start + d)%nat)) (tmS d) = Ok (tmS (S d), vofbool b) /\
      (b = true <-> trending (start + d)).
  Proof.
    intro Hd. unfold tm_step, tmS. cbn [t_it1 t_it2 t_it3 t_days t_phase t_sine t_lead].
    pose proof (@phase_at_fin j0 s n d Hd) as PA. fold start in PA. fold c in PA. rewrite PA. cbn [bind].
    rewrite pyint_fin by (apply Rlt_le, (sp_pos j0 s d)). cbn [bind].
    pose proof (@it_fin j0 s x n d Hd) as IT. fold start in IT. fold c in IT. fold it in IT. rewrite IT.
    rewrite trend4_fin, sine_fin, lead_fin.
    pose proof (phs_at j0 s d) as PH. fold start in PH. fold ph in PH.
    pose proof (phs_prev j0 s d) as PP. fold start in PP. fold ph in PP.
    assert (S1 : sn (start + d)%nat = sin (phs j0 s (S d) * (PI / 180))).
    { unfold sn. rewrite from_ge by lia. unfold sine_wave. now rewrite PH. }
    assert (L1 : ld (start + d)%nat = sin ((phs j0 s (S d) + 45) * (PI / 180))).
    { unfold ld. rewrite from_ge by lia. unfold lead_wave. now rewrite PH. }
    rewrite <- S1, <- L1, <- PH, <- PP.
    destruct (@mode_fin (start + d) (c_smooth c (start + d)) (s (start + d)%nat)
                (smooth4 it (start + d)) (dys d) (sp_pos j0 s d)) as (b & E & B).
    exists b. split.
    - unfold smooth4 in E. rewrite E.
      cbn [dys]. replace (start + S d - 1)%nat with (start + d)%nat by lia.
      replace (start + S d - 2)%nat with (start + d - 1)%nat by lia.
      replace (start + S d - 3)%nat with (start + d - 2)%nat by lia. reflexivity.
    - unfold trending. rewrite days_at. cbn [dys]. exact B.
  Qed.

  Lemma vofbool_fin (b : bool) : vofbool b = Fin (if b then 1 else 0) :> ext R.
  Proof. destruct b; [apply v1_fin|apply v0_fin]. Qed.

  Lemma tm_run n q d :
    (start + d + q = n)%nat ->
    exists m,
      tm_loop (map (fin (from start s)) (seq j0 (n - j0))) (map (fin x) (seq j0 (n - j0))) (31 + d)
        (emb (hst start s d)) (tmS d) (map (fin s) (seq (start + d) q)) =
      Ok (map (fin m) (seq (start + d) q)) /\
      forall i, (start + d <= i)%nat -> (i < n)%nat -> (m i = 0 \/ m i = 1) /\ (m i = 1 <-> trending i).
  Proof.
    revert d; induction q as [|q IH]; intros d Hn.
    - exists (fun _ => 0). split; [reflexivity|]. intros. lia.
    - destruct (@tm_step_fin n d) as (b & E & B); [lia|].
      destruct (IH (S d)) as (m & R & M); [lia|].
      exists (fun i => if (i =? start + d)%nat then (if b then 1 else 0) else m i). split.
      + cbn [seq map tm_loop]. cbv zeta. change (fin s (start + d)) with (Fin (s (start + d)%nat)). rewrite step_hst.
        replace (h_sp (emb (hst start s (S d)))) with (Fin (c_smooth c (start + d)))
          by (symmetry; apply (sp_hst j0 s d)).
        rewrite E. cbn [bind fst snd]. replace (S (31 + d)) with (31 + S d)%nat by lia.
        replace (S (start + d)) with (start + S d)%nat by lia. rewrite R. cbn [bind].
        f_equal. f_equal.
        * rewrite vofbool_fin. unfold fin. now rewrite Nat.eqb_refl.
        * apply map_ext_seq. intros i Hi. unfold fin. destruct (Nat.eqb_spec i (start + d)); [lia|reflexivity].
      + intros i Hi Hin. destruct (Nat.eqb_spec i (start + d)) as [->|Ne].
        * destruct b; split; auto; (split; intro H); try lra; try (now apply B).
          apply B in H. discriminate.
        * apply M; lia.
  Qed.
End Mode.
