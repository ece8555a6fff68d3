(** Proofs of the theorems of Prop_HT.v. *)
From Coq Require Import ZArith QArith List Bool Lia Arith Reals Lra Psatz Classical.
From Verif Require Import Num Series Line Spec RSpec LineFacts ScanFacts RFacts OpFacts RLineFacts
  Apply IndSar SarFacts IndHT HTSpec HTFacts HTFacts2.
Import ListNotations.
Set Implicit Arguments.
Local Open Scope R_scope.

(** ** applying a loop to the smoothed prices *)
Lemma max_mp_le {V} (a : line V) (args : list (line V)) :
  (forall b, In b args -> (lmp b <= lmp a)%Z) -> max_mp a args = lmp a.
Proof.
  unfold max_mp. induction args as [|b args IH]; intro H; [reflexivity|].
  cbn [fold_left]. rewrite Z.max_l by (apply H; now left). apply IH. intros; apply H; now right.
Qed.
Lemma apply_one {V} {N : Num V} (F : list V -> list (list V) -> res (list V)) (a : line V) args n k f r :
  feeds a n k f -> (forall b, In b args -> (lmp b <= lmp a)%Z) ->
  F (map f (seq k (n - k))) (map (fun x => slice_from (lser x) (Z.of_nat k)) args) = Ok (map r (seq k (n - k))) ->
  exists y, apply_ F a args = Ok y /\ delivers y n k r.
Proof.
  intros Ha Hb HF. unfold apply_. rewrite max_mp_le by assumption.
  rewrite (feeds_mp Ha), mp_idx, (@feeds_slice _ a n k f k Ha) by lia. rewrite HF. cbn [bind].
  eexists. split; [reflexivity|]. rewrite clone_S, (feeds_len Ha).
  apply delivers_mk; [lia|]. intros i Hi. lia.
Qed.
Lemma apply_two {V} {N : Num V} (F : list V -> list (list V) -> res (list (list V))) (a : line V) args n k f r1 r2 :
  feeds a n k f -> (forall b, In b args -> (lmp b <= lmp a)%Z) ->
  F (map f (seq k (n - k))) (map (fun x => slice_from (lser x) (Z.of_nat k)) args) =
    Ok [map r1 (seq k (n - k)); map r2 (seq k (n - k))] ->
  exists y1 y2, applymulti_ F a args = Ok [y1; y2] /\ delivers y1 n k r1 /\ delivers y2 n k r2.
Proof.
  intros Ha Hb HF. unfold applymulti_. rewrite max_mp_le by assumption.
  rewrite (feeds_mp Ha), mp_idx, (@feeds_slice _ a n k f k Ha) by lia. rewrite HF. cbn [bind map].
  eexists _, _. split; [reflexivity|]. rewrite !clone_S, (feeds_len Ha).
  split; (apply delivers_mk; [lia|]; intros i Hi; lia).
Qed.

Definition late (start : nat) (g : nat -> ext R) (i : nat) : ext R :=
  if (i <? start)%nat then Fin 0 else g i.

Lemma late_delivers (y : line (ext R)) n k sk p g :
  (1 <= p)%nat -> (sk <= p)%nat ->
  delivers y n k (late (k + sk) g) ->
  delivers (period_ y (Z.of_nat p) false (Some vnan)) n (k + p) g.
Proof.
  intros Hp Hsk D. apply period_nan_delivers with (p := p) in D; [|exact Hp].
  eapply delivers_ext; [|exact D]. intros i Hi. unfold late. destruct (Nat.ltb_spec i (k + sk)); [lia|reflexivity].
Qed.

(** ** ht_dcperiod and ht_phasor *)
Section Run.
  Variables (inp : ht_in (ext R)) (n k : nat) (x : nat -> R).
  Hypothesis Hp : priced inp n k x.
  Let s := smooth4 x.
  Let F0 : feeds (ht_p0 inp) n k (fin x) := @p0_feeds inp n k x Hp.
  Let F6 : feeds (ht_p0smooth (ht_p0 inp)) n (k + 6) (fin s) := smooth_feeds F0.

  Lemma filled_le v b : In b [filled (ht_p0smooth (ht_p0 inp)) v] -> (lmp b <= lmp (ht_p0smooth (ht_p0 inp)))%Z.
  Proof. intros [<-|[]]. cbn. lia. Qed.

  Lemma dcperiod_run :
    exists y, ht_dcperiod inp = Ok y /\
      delivers y n (k + 32) (fin (c_smooth (the_cycle (k + 12) s))).
  Proof.
    destruct (@apply_one _ _ (fun price _ => Ok (dcperiodize price)) _ _ _ _ _
                (late (k + 6 + 6) (fin (c_smooth (the_cycle (k + 12) s)))) F6 (filled_le (v:=v0))) as (y & E & D).
    { f_equal. unfold dcperiodize. rewrite skipn_map_seq.
      rewrite ht0_fin. change rht0 with (hst (k + 12) s 0).
      replace (k + 6 + 6)%nat with (k + 12 + 0)%nat by lia.
      rewrite dcp_run by lia. replace (k + 12 + 0)%nat with (k + 6 + 6)%nat by lia.
      rewrite buffered_seq. unfold late. reflexivity. }
    unfold ht_dcperiod. cbv zeta. rewrite E. cbn [bind]. eexists. split; [reflexivity|].
    replace (k + 32)%nat with (k + 6 + 26)%nat by lia. apply (@late_delivers y n (k + 6) 6 26); [lia|lia|exact D].
  Qed.

  Lemma phasor_run_all :
    exists yi yq, ht_phasor inp = Ok (yi, yq) /\
      delivers yi n (k + 32) (fin (c_i1 (the_cycle (k + 12) s))) /\
      delivers yq n (k + 32) (fin (c_q1 (the_cycle (k + 12) s))).
  Proof.
    destruct (@apply_two _ _ (fun price _ => Ok (phasorize price)) (ht_p0smooth (ht_p0 inp))
                [filled (ht_p0smooth (ht_p0 inp)) v0; filled (ht_p0smooth (ht_p0 inp)) v0] _ _ _
                (late (k + 6 + 6) (fin (c_i1 (the_cycle (k + 12) s))))
                (late (k + 6 + 6) (fin (c_q1 (the_cycle (k + 12) s)))) F6) as (y1 & y2 & E & D1 & D2).
    { intros b [<-|[<-|[]]]; cbn; lia. }
    { f_equal. unfold phasorize. cbv zeta. rewrite skipn_map_seq.
      rewrite ht0_fin. change rht0 with (hst (k + 12) s 0).
      replace (k + 6 + 6)%nat with (k + 12 + 0)%nat by lia.
      rewrite phasor_run by lia. replace (k + 12 + 0)%nat with (k + 6 + 6)%nat by lia.
      rewrite !map_map. cbn [fst snd].
      change (map (fun i => fin (c_i1 (the_cycle (k + 12) s)) i)) with (map (fin (c_i1 (the_cycle (k + 12) s)))).
      change (map (fun i => fin (c_q1 (the_cycle (k + 12) s)) i)) with (map (fin (c_q1 (the_cycle (k + 12) s)))).
      rewrite !buffered_seq. unfold late. reflexivity. }
    unfold ht_phasor. cbv zeta. rewrite E. cbn [bind]. eexists _, _. split; [reflexivity|].
    replace (k + 32)%nat with (k + 6 + 26)%nat by lia.
    split; [apply (@late_delivers y1 n (k + 6) 6 26)|apply (@late_delivers y2 n (k + 6) 6 26)]; auto; lia.
  Qed.

  Let start : nat := (k + 6 + 31)%nat.

  Lemma phase_all_run :
    phase_loop (zeroed 31 (map (fin s) (seq (k + 6) (n - (k + 6))))) 31 ht0 v0
      (skipn 31 (map (fin s) (seq (k + 6) (n - (k + 6))))) =
    Ok (map (fin (the_phase (k + 6) s)) (seq start (n - (k + 6) - 31))).
  Proof.
    rewrite zeroed_seq, skipn_map_seq, ht0_fin, v0_fin.
    destruct (le_lt_dec start n) as [L|L].
    - pose proof (@phase_run (k + 6) s n (n - (k + 6) - 31) 0) as R.
      rewrite !Nat.add_0_r in R. apply R. unfold start in L. lia.
    - replace (n - (k + 6) - 31)%nat with 0%nat by (unfold start in L; lia). reflexivity.
  Qed.

  Lemma dcphase_run :
    exists y, ht_dcphase inp = Ok y /\ delivers y n (k + 63) (fin (the_phase (k + 6) s)).
  Proof.
    destruct (@apply_one _ _ (fun price _ => dcphasize price) _ _ _ _ _
                (late (k + 6 + 31) (fin (the_phase (k + 6) s))) F6 (filled_le (v:=v0))) as (y & E & D).
    { unfold dcphasize. rewrite phase_all_run. cbn [bind]. f_equal. unfold start.
      rewrite buffered_seq. reflexivity. }
    unfold ht_dcphase. cbv zeta. rewrite E. cbn [bind]. eexists. split; [reflexivity|].
    replace (k + 63)%nat with (k + 6 + 57)%nat by lia. apply (@late_delivers y n (k + 6) 31 57); [lia|lia|exact D].
  Qed.

  Lemma sine_run :
    exists ys yl, ht_sine inp = Ok (ys, yl) /\
      delivers ys n (k + 63) (fin (sine_wave (the_phase (k + 6) s))) /\
      delivers yl n (k + 63) (fin (lead_wave (the_phase (k + 6) s))).
  Proof.
    destruct (@apply_two _ _ (fun price _ => sinize price) (ht_p0smooth (ht_p0 inp))
                [filled (ht_p0smooth (ht_p0 inp)) v0; filled (ht_p0smooth (ht_p0 inp)) v0] _ _ _
                (late (k + 6 + 31) (fin (sine_wave (the_phase (k + 6) s))))
                (late (k + 6 + 31) (fin (lead_wave (the_phase (k + 6) s)))) F6) as (y1 & y2 & E & D1 & D2).
    { intros b [<-|[<-|[]]]; cbn; lia. }
    { unfold sinize. rewrite phase_all_run. cbn [bind]. rewrite !map_map.
      rewrite (map_ext (fun i => sine_of (fin (the_phase (k + 6) s) i)) (fin (sine_wave (the_phase (k + 6) s))))
        by (intro i; apply sine_fin).
      rewrite (map_ext (fun i => leadsine_of (fin (the_phase (k + 6) s) i)) (fin (lead_wave (the_phase (k + 6) s))))
        by (intro i; apply lead_fin).
      unfold start. rewrite !buffered_seq. reflexivity. }
    unfold ht_sine. cbv zeta. rewrite E. cbn [bind]. eexists _, _. split; [reflexivity|].
    replace (k + 63)%nat with (k + 6 + 57)%nat by lia.
    split; [apply (@late_delivers y1 n (k + 6) 31 57)|apply (@late_delivers y2 n (k + 6) 31 57)]; auto; lia.
  Qed.

  Let it := cycle_average start x (the_cycle start s).

  Lemma args_le b : In b [ht_p0 inp; filled (ht_p0smooth (ht_p0 inp)) v0] ->
    (lmp b <= lmp (ht_p0smooth (ht_p0 inp)))%Z.
  Proof.
    intros [<-|[<-|[]]]; [|cbn; lia]. rewrite (feeds_mp F0), (feeds_mp F6). lia.
  Qed.
  Lemma arg0 : slice_from (lser (ht_p0 inp)) (Z.of_nat (k + 6)) = map (fin x) (seq (k + 6) (n - (k + 6))).
  Proof. apply (@feeds_slice _ _ n k (fin x) (k + 6) F0). lia. Qed.
  Lemma it_before i : (i < start)%nat -> it i = 0.
  Proof. intro H. unfold it, cycle_average. now apply from_lt. Qed.

  Lemma trendline_run :
    exists y, ht_trendline inp = Ok y /\ delivers y n (k + 63) (fin (smooth4 it)).
  Proof.
    destruct (@apply_one _ _ (fun price args => match args with price0 :: _ => trendlinize price price0 | [] => Raise TypeError end)
                _ _ _ _ _ (late (k + 6 + 31) (fin (smooth4 it))) F6 args_le) as (y & E & D).
    { cbn [map]. rewrite arg0. unfold trendlinize. rewrite skipn_map_seq, ht0_fin, v0_fin.
      assert (R : trend_loop (map (fin x) (seq (k + 6) (n - (k + 6)))) 31 (emb rht0) (Fin 0) (Fin 0) (Fin 0)
                    (map (fin s) (seq (k + 6 + 31) (n - (k + 6) - 31))) =
                  Ok (map (fin (smooth4 it)) (seq (k + 6 + 31) (n - (k + 6) - 31)))).
      { destruct (le_lt_dec start n) as [L|L].
        - pose proof (@trend_run (k + 6) s x n (n - (k + 6) - 31) 0) as R.
          change (cycle_average (k + 6 + 31) x (the_cycle (k + 6 + 31) s)) with it in R.
          rewrite !it_before in R by (unfold start; lia). rewrite !Nat.add_0_r in R. apply R.
          unfold start in L. lia.
        - replace (n - (k + 6) - 31)%nat with 0%nat by (unfold start in L; lia). reflexivity. }
      rewrite R. cbn [bind]. rewrite buffered_seq. reflexivity. }
    unfold ht_trendline. cbv zeta. rewrite E. cbn [bind]. eexists. split; [reflexivity|].
    replace (k + 63)%nat with (k + 6 + 57)%nat by lia. apply (@late_delivers y n (k + 6) 31 57); [lia|lia|exact D].
  Qed.

  Lemma trendmode_run :
    exists y m, ht_trendmode inp = Ok y /\ delivers y n (k + 63) (fin m) /\
      is_mode start s x (the_cycle start s) (the_phase (k + 6) s) m.
  Proof.
    set (P := fun m : nat -> R => forall i, (start <= i)%nat -> (m i = 0 \/ m i = 1) /\ (m i = 1 <-> trending (k + 6) s x i)).
    assert (R : exists m,
      tm_loop (map (fin (from start s)) (seq (k + 6) (n - (k + 6)))) (map (fin x) (seq (k + 6) (n - (k + 6)))) 31
        ht0 tm0 (map (fin s) (seq (k + 6 + 31) (n - (k + 6) - 31))) =
      Ok (map (fin m) (seq (k + 6 + 31) (n - (k + 6) - 31))) /\ P m).
    { assert (D : forall i, {trending (k + 6) s x i} + {~ trending (k + 6) s x i}).
      { intro i. unfold trending, far_off, in_step. destruct (crossed_dec (k + 6) s x i) as [c|c];
        repeat match goal with |- context [?a <> 0] =>
          lazymatch goal with H : a = 0 |- _ => fail | H : a <> 0 |- _ => fail | _ => destruct (Req_EM_T a 0) end end;
        repeat match goal with |- context [?a <= ?b] =>
          lazymatch goal with H : a <= b |- _ => fail | H : ~ a <= b |- _ => fail | _ => destruct (Rle_dec a b) end end;
        repeat match goal with |- context [?a < ?b] =>
          lazymatch goal with H : a < b |- _ => fail | H : ~ a < b |- _ => fail | _ => destruct (Rlt_dec a b) end end;
        (left; tauto) || (right; tauto). }
      assert (R : exists m,
        tm_loop (map (fin (from start s)) (seq (k + 6) (n - (k + 6)))) (map (fin x) (seq (k + 6) (n - (k + 6)))) 31
          ht0 tm0 (map (fin s) (seq (k + 6 + 31) (n - (k + 6) - 31))) =
        Ok (map (fin m) (seq (k + 6 + 31) (n - (k + 6) - 31))) /\
        forall i, (start <= i < n)%nat -> (m i = 0 \/ m i = 1) /\ (m i = 1 <-> trending (k + 6) s x i)).
      { destruct (le_lt_dec start n) as [L|L].
        - destruct (@tm_run (k + 6) s x n (n - (k + 6) - 31) 0) as (m & R & M); [unfold start in L; lia|].
          exists m. split.
          + rewrite ht0_fin. rewrite !Nat.add_0_r in R.
            replace tm0 with (tmS (k + 6) s x 0); [exact R|].
            unfold tmS, tm0. rewrite v0_fin. change (cycle_average (k + 6 + 31) x (the_cycle (k + 6 + 31) s)) with it.
            rewrite !it_before by (unfold start; lia). rewrite !from_lt by lia. reflexivity.
          + intros i Hi. apply M; unfold start in *; lia.
        - exists (fun _ => 0). replace (n - (k + 6) - 31)%nat with 0%nat by (unfold start in L; lia).
          split; [reflexivity|]. intros i Hi. lia. }
      destruct R as (m & R & M).
      exists (fun i => if (i <? n)%nat then m i else if D i then 1 else 0). split.
      - rewrite R. f_equal. apply map_ext_seq. intros i Hi. unfold fin.
        destruct (Nat.ltb_spec i n); [reflexivity|lia].
      - intros i Hi. destruct (Nat.ltb_spec i n); [apply M; lia|].
        destruct (D i); split; auto; split; auto; try tauto; lra. }
    destruct R as (m & R & M).
    destruct (@apply_one _ _ (fun price args => match args with price0 :: _ => trendmodize price price0 | [] => Raise TypeError end)
                _ _ _ _ _ (late (k + 6 + 31) (fin m)) F6 args_le) as (y & E & D).
    { cbn [map]. rewrite arg0. unfold trendmodize. rewrite skipn_map_seq, zeroed_seq. unfold start in R. rewrite R. cbn [bind].
      rewrite buffered_seq. reflexivity. }
    unfold ht_trendmode. cbv zeta. rewrite E. cbn [bind]. eexists _, m. split; [reflexivity|]. split.
    - replace (k + 63)%nat with (k + 6 + 57)%nat by lia. apply (@late_delivers y n (k + 6) 31 57); [lia|lia|exact D].
    - exists (the_days (k + 6) s x). split; [apply days_ok|]. exact M.
  Qed.
End Run.

(** ** bounds *)
Lemma smooth_at start s c m v :
  (1 <= start)%nat -> is_cycle start s c -> v <= 6 -> v <= lowP m -> v <= lowS m ->
  forall i, (start + m <= i)%nat -> v <= c_smooth c i <= 50.
Proof.
  intros Hs C H6 HP HS i Hi. replace i with (start + (i - start))%nat by lia. split.
  - apply (@smooth_low start s c Hs C m v H6 HP HS). lia.
  - apply (smooth_range Hs C (i - start)).
Qed.
Ltac low := cbn [lowP lowS]; lra.

Lemma dcperiod_bounds inp n k x :
  priced inp n k x ->
  exists y c, ht_dcperiod inp = Ok y /\ is_cycle (k + 12) (smooth4 x) c /\
    delivers y n (k + 32) (fin (c_smooth c)) /\
    (forall i, (k + 12 <= i)%nat -> 0.39 <= c_smooth c i) /\
    forall i, (k + 32 <= i)%nat -> 5.88 <= c_smooth c i <= 50.
Proof.
  intro H. destruct (dcperiod_run inp n k x H) as (y & E & D). assert (S1 : (1 <= k + 12)%nat) by lia.
  pose proof (the_cycle_ok (smooth4 x) S1) as C.
  exists y, (the_cycle (k + 12) (smooth4 x)). split; [exact E|]. split; [exact C|]. split; [exact D|]. split.
  - intros i Hi. apply (@smooth_at _ _ _ 0 0.39 S1 C); [lra|low|low|lia].
  - intros i Hi. apply (@smooth_at _ _ _ 20 5.88 S1 C); [lra|low|low|lia].
Qed.

Lemma phasor_all inp n k x :
  priced inp n k x ->
  exists yi yq c, ht_phasor inp = Ok (yi, yq) /\ is_cycle (k + 12) (smooth4 x) c /\
    delivers yi n (k + 32) (fin (c_i1 c)) /\ delivers yq n (k + 32) (fin (c_q1 c)).
Proof.
  intro H. destruct (phasor_run_all inp n k x H) as (yi & yq & E & D1 & D2). assert (S1 : (1 <= k + 12)%nat) by lia.
  exists yi, yq, (the_cycle (k + 12) (smooth4 x)). split; [exact E|]. split; [apply the_cycle_ok, S1|]. now split.
Qed.

(** the phase *)
Lemma atan_degrees a : -90 < degrees * atan a < 90.
Proof.
  unfold degrees. destruct (atan_bound a) as [L U]. pose proof PI_RGT_0 as HP.
  assert (E : 90 = 180 / PI * (PI / 2)) by (field; lra).
  assert (G : 0 < 180 / PI) by (apply Rdiv_lt_0_compat; lra).
  split.
  - replace (-90) with (180 / PI * (- PI / 2)) by (field; lra). now apply Rmult_lt_compat_l.
  - rewrite E. now apply Rmult_lt_compat_l.
Qed.
Lemma phase_rule_low last re im sp : 0 < sp -> -45 < last -> -45 < phase_rule last re im sp.
Proof.
  intros Hsp Hl. unfold phase_rule. pose proof (atan_degrees (re / im)) as A.
  assert (G : 0 < 360 / sp) by (apply Rdiv_lt_0_compat; lra).
  destruct (Req_EM_T im 0); [destruct (Rlt_dec re 0); [|destruct (Rlt_dec 0 re)]|];
    (destruct (Rlt_dec im 0)); destruct (Rlt_dec 315 _); lra.
Qed.
Lemma phase_rule_up last re im sp v :
  0 < sp -> -45 < last -> 360 / sp <= v -> phase_rule last re im sp <= Rmax 315 (Rmax v (last - 180 + v)).
Proof.
  intros Hsp Hl Hv. unfold phase_rule. pose proof (atan_degrees (re / im)) as A.
  pose proof (Rmax_l 315 (Rmax v (last - 180 + v))). pose proof (Rmax_r 315 (Rmax v (last - 180 + v))).
  pose proof (Rmax_l v (last - 180 + v)). pose proof (Rmax_r v (last - 180 + v)).
  destruct (Req_EM_T im 0); [destruct (Rlt_dec re 0); [|destruct (Rlt_dec 0 re)]|];
    (destruct (Rlt_dec im 0)); destruct (Rlt_dec 315 _); lra.
Qed.

Section PhaseBound.
  Variables (start : nat) (s : nat -> R) (c : cycle) (ph : nat -> R).
  Hypothesis Hs : (1 <= start)%nat.
  Hypothesis C : is_cycle start s c.
  Hypothesis PH : is_phase start s c ph.

  Lemma ph_prev d : ph (start + d) =
    phase_rule (ph (start + d - 1)%nat) (fourier_re (from start s) (start + d) (bars_of (c_smooth c (start + d))))
      (fourier_im (from start s) (start + d) (bars_of (c_smooth c (start + d)))) (c_smooth c (start + d)).
  Proof. apply (ph_rule PH). lia. Qed.
  Lemma sm_pos d : 0 < c_smooth c (start + d).
  Proof. pose proof (smooth_range Hs C d). lra. Qed.

  Lemma ph_low i : -45 < ph i.
  Proof.
    destruct (le_lt_dec start i) as [L|L]; [|rewrite (ph_zero PH) by assumption; lra].
    replace i with (start + (i - start))%nat by lia. generalize (i - start)%nat as d. clear i L.
    induction d as [|d IH].
    - rewrite ph_prev. apply phase_rule_low; [apply sm_pos|]. rewrite (ph_zero PH) by lia. lra.
    - rewrite ph_prev. apply phase_rule_low; [apply sm_pos|].
      now replace (start + S d - 1)%nat with (start + d)%nat by lia.
  Qed.
  Lemma ph_up d v a :
    360 / v <= a -> 0 < v -> v <= 6 -> v <= lowP d -> v <= lowS d ->
    ph (start + d) <= Rmax 315 (Rmax a (ph (start + d - 1)%nat - 180 + a)).
  Proof.
    intros Hv P0 P6 PP PS. rewrite ph_prev at 1. apply phase_rule_up; [apply sm_pos|apply ph_low|].
    eapply Rle_trans; [|exact Hv]. unfold Rdiv. apply Rmult_le_compat_l; [lra|].
    apply Rinv_le_contravar; [exact P0|]. apply (@smooth_low start s c Hs C d v P6 PP PS). lia.
  Qed.
  Lemma ph_next d v a b :
    ph (start + d) <= b -> 315 <= b -> 0 < v -> 360 / v <= a -> 0 <= a -> v <= 6 -> v <= lowP (S d) -> v <= lowS (S d) ->
    ph (start + S d) <= Rmax 315 (b - 180 + a).
  Proof.
    intros Hb B3 V0 V1 A0 V6 VP VS. eapply Rle_trans; [exact (@ph_up (S d) v a V1 V0 V6 VP VS)|].
    replace (start + S d - 1)%nat with (start + d)%nat by lia.
    apply Rmax_lub; [apply Rmax_l|]. apply Rmax_lub.
    - eapply Rle_trans; [|apply Rmax_r]. lra.
    - eapply Rle_trans; [|apply Rmax_r]. lra.
  Qed.
  Lemma div_le v a : 0 < v -> 360 <= a * v -> 360 / v <= a.
  Proof. intros. apply Rmult_le_reg_r with v; [assumption|]. unfold Rdiv. rewrite Rmult_assoc, Rinv_l, Rmult_1_r by lra. assumption. Qed.

  Lemma ph_five : ph (start + 5) <= 998.
  Proof.
    assert (H0 : ph (start + 0) <= 910).
    { eapply Rle_trans; [apply (@ph_up 0 0.396 910); [apply div_le; lra|lra|lra|low|low]|].
      rewrite (ph_zero PH) by lia. apply Rmax_lub; [lra|]. apply Rmax_lub; lra. }
    assert (H1 : ph (start + 1) <= 1100).
    { eapply Rle_trans; [apply (@ph_next 0 0.978 369 910 H0); [lra|lra|apply div_le; lra|lra|lra|low|low]|]. apply Rmax_lub; lra. }
    assert (H2 : ph (start + 2) <= 1143).
    { eapply Rle_trans; [apply (@ph_next 1 1.62 223 1100 H1); [lra|lra|apply div_le; lra|lra|lra|low|low]|]. apply Rmax_lub; lra. }
    assert (H3 : ph (start + 3) <= 1123).
    { eapply Rle_trans; [apply (@ph_next 2 2.25 160 1143 H2); [lra|lra|apply div_le; lra|lra|lra|low|low]|]. apply Rmax_lub; lra. }
    assert (H4 : ph (start + 4) <= 1070).
    { eapply Rle_trans; [apply (@ph_next 3 2.842 126.7 1123 H3); [lra|lra|apply div_le; lra|lra|lra|low|low]|]. apply Rmax_lub; lra. }
    eapply Rle_trans; [apply (@ph_next 4 3.364 107.1 1070 H4); [lra|lra|apply div_le; lra|lra|lra|low|low]|]. apply Rmax_lub; lra.
  Qed.
  Lemma ph_falls e : ph (start + (5 + e)) <= Rmax 315 (998 - 72 * INR e).
  Proof.
    induction e as [|e IH].
    - rewrite Nat.add_0_r. eapply Rle_trans; [apply ph_five|]. eapply Rle_trans; [|apply Rmax_r]. simpl. lra.
    - rewrite S_INR. replace (5 + S e)%nat with (S (5 + e)) by lia.
      assert (SP : 3.364 <= c_smooth c (start + S (5 + e))).
      { apply (@smooth_low start s c Hs C 5 3.364); [lra|low|low|lia]. }
      rewrite ph_prev.
      assert (V : 360 / c_smooth c (start + S (5 + e)) <= 107.1) by (apply div_le; lra).
      eapply Rle_trans; [apply (@phase_rule_up _ _ _ _ 107.1); [lra|apply ph_low|exact V]|].
      replace (start + S (5 + e) - 1)%nat with (start + (5 + e))%nat by lia.
      apply Rmax_lub; [apply Rmax_l|]. apply Rmax_lub; [eapply Rle_trans; [|apply Rmax_l]; lra|].
      revert IH. unfold Rmax. destruct (Rle_dec _ _), (Rle_dec _ _); lra.
  Qed.
  Lemma ph_range i : (start + 15 <= i)%nat -> -45 < ph i <= 315.
  Proof.
    intro Hi. split; [apply ph_low|].
    replace i with (start + (5 + (i - start - 5)))%nat by lia. eapply Rle_trans; [apply ph_falls|].
    apply Rmax_lub; [lra|]. assert (10 <= INR (i - start - 5)).
    { replace 10 with (INR 10) by (rewrite INR_IZR_INZ; reflexivity). apply le_INR. lia. }
    lra.
  Qed.
End PhaseBound.

Lemma phase_all inp n k x :
  priced inp n k x ->
  exists y c ph, ht_dcphase inp = Ok y /\
    is_cycle (k + 37) (smooth4 x) c /\ is_phase (k + 37) (smooth4 x) c ph /\
    delivers y n (k + 63) (fin ph) /\
    forall i, (k + 63 <= i)%nat -> -45 < ph i <= 315.
Proof.
  intro H. destruct (dcphase_run inp n k x H) as (y & E & D).
  replace (k + 37)%nat with (k + 6 + 31)%nat by lia. assert (S1 : (1 <= k + 6 + 31)%nat) by lia.
  pose proof (the_cycle_ok (smooth4 x) S1) as C. pose proof (the_phase_ok (k + 6) (smooth4 x)) as PH.
  eexists y, _, _. split; [exact E|]. split; [exact C|]. split; [exact PH|]. split; [exact D|].
  intros i Hi. apply (ph_range S1 C PH). lia.
Qed.

Lemma sine_all inp n k x :
  priced inp n k x ->
  exists yp ys yl ph, ht_dcphase inp = Ok yp /\ ht_sine inp = Ok (ys, yl) /\
    delivers yp n (k + 63) (fin ph) /\
    delivers ys n (k + 63) (fin (sine_wave ph)) /\ delivers yl n (k + 63) (fin (lead_wave ph)) /\
    forall i, -1 <= sine_wave ph i <= 1 /\ -1 <= lead_wave ph i <= 1.
Proof.
  intro H. destruct (dcphase_run inp n k x H) as (y & E & D). destruct (sine_run inp n k x H) as (ys & yl & E' & D1 & D2).
  exists y, ys, yl, (the_phase (k + 6) (smooth4 x)). repeat (split; [assumption|]).
  intro i. split; apply SIN_bound.
Qed.

Lemma average_bounds x i w lo hi :
  (1 <= w <= S i)%nat -> (forall j, (S i - w <= j <= i)%nat -> lo <= x j <= hi) -> lo <= average x i w <= hi.
Proof.
  intros Hw H. unfold average. destruct w as [|w]; [lia|]. apply Rmean_bounds.
  - apply win_nonnil. lia.
  - intros v Hv. apply in_win in Hv. destruct Hv as (j & Hj & ->). apply H. lia.
Qed.

Lemma trendline_all inp n k x :
  priced inp n k x ->
  exists y c t, ht_trendline inp = Ok y /\
    is_cycle (k + 37) (smooth4 x) c /\ is_trendline (k + 37) x c t /\
    delivers y n (k + 63) (fin t) /\
    forall i, (k + 63 <= i)%nat -> forall lo hi,
      (forall j, (Nat.max k (i - 52) <= j <= i)%nat -> lo <= x j <= hi) -> lo <= t i <= hi.
Proof.
  intro H. destruct (trendline_run inp n k x H) as (y & E & D).
  replace (k + 37)%nat with (k + 6 + 31)%nat by lia. assert (S1 : (1 <= k + 6 + 31)%nat) by lia.
  pose proof (the_cycle_ok (smooth4 x) S1) as C.
  eexists y, _, _. split; [exact E|]. split; [exact C|]. split; [intros i Hi; reflexivity|]. split; [exact D|].
  intros i Hi lo hi B.
  assert (A : forall q, (q <= 3)%nat ->
     lo <= cycle_average (k + 6 + 31) x (the_cycle (k + 6 + 31) (smooth4 x)) (i - q)%nat <= hi).
  { intros q Hq. unfold cycle_average. rewrite from_ge by lia.
    set (st := (k + 6 + 31)%nat) in *. set (d := (i - q - st)%nat).
    assert (Ed : (i - q = st + d)%nat) by (unfold st, d; lia). rewrite Ed.
    pose proof (bars_avail S1 C d) as B1. pose proof (bars_50 S1 C d) as B2.
    assert (B3 : 0.5 <= c_smooth (the_cycle st (smooth4 x)) (st + d)).
    { apply (@smooth_low st (smooth4 x) _ S1 C 5 0.5); [lra|low|low|unfold d, st; lia]. }
    apply (@bars_pos st (the_cycle st (smooth4 x)) S1 d) in B3. cbv beta in B1, B2.
    apply average_bounds; [lia|]. intros j Hj. apply B. unfold st in *. lia. }
  pose proof (A 0%nat ltac:(lia)) as A0. rewrite Nat.sub_0_r in A0.
  pose proof (A 1%nat ltac:(lia)) as A1. pose proof (A 2%nat ltac:(lia)) as A2. pose proof (A 3%nat ltac:(lia)) as A3.
  set (g := cycle_average _ _ _) in *. unfold smooth4. lra.
Qed.

Lemma trendmode_all inp n k x :
  priced inp n k x ->
  exists y c ph m, ht_trendmode inp = Ok y /\
    is_cycle (k + 37) (smooth4 x) c /\ is_phase (k + 37) (smooth4 x) c ph /\
    is_mode (k + 37) (smooth4 x) x c ph m /\ delivers y n (k + 63) (fin m).
Proof.
  intro H. destruct (trendmode_run inp n k x H) as (y & m & E & D & M).
  replace (k + 37)%nat with (k + 6 + 31)%nat by lia. assert (S1 : (1 <= k + 6 + 31)%nat) by lia.
  eexists y, _, _, m. split; [exact E|]. split; [apply the_cycle_ok, S1|]. split; [apply the_phase_ok|]. split; [exact M|exact D].
Qed.

(** ** no look-ahead *)
Section Prefix.
  Variables (start : nat) (s s' x x' : nat -> R) (c c' : cycle) (m : nat).
  Hypothesis Hs : (1 <= start)%nat.
  Hypothesis Hs31 : (31 <= start)%nat.
  Hypothesis C : is_cycle start s c.
  Hypothesis C' : is_cycle start s' c'.
  Hypothesis ES : forall i, (i <= m)%nat -> s i = s' i.
  Hypothesis EX : forall i, (i <= m)%nat -> x i = x' i.

  Lemma smooth_eq i : (i <= m)%nat -> c_smooth c i = c_smooth c' i.
  Proof. intro Hi. now destruct (cycle_prefix Hs C C' ES Hi) as (_ & _ & _ & _ & _ & _ & _ & _ & E). Qed.

  Lemma from_eq i : (i <= m)%nat -> from start s i = from start s' i.
  Proof. intro Hi. unfold from. now rewrite ES. Qed.
  Lemma fourier_eq i w : (i <= m)%nat ->
    fourier_re (from start s) i w = fourier_re (from start s') i w /\
    fourier_im (from start s) i w = fourier_im (from start s') i w.
  Proof.
    intro Hi. unfold fourier_re, fourier_im. split; f_equal; apply map_ext; intro j; now rewrite from_eq by lia.
  Qed.

  Lemma phase_eq ph ph' : is_phase start s c ph -> is_phase start s' c' ph' ->
    forall i, (i <= m)%nat -> ph i = ph' i.
  Proof.
    intros P P' i. induction i as [i IH] using lt_wf_ind. intro Hi.
    destruct (le_lt_dec start i) as [L|L].
    - rewrite (ph_rule P L), (ph_rule P' L). cbv zeta. rewrite (IH (i - 1)%nat) by lia. rewrite <- smooth_eq by lia.
      destruct (fourier_eq (bars_of (c_smooth c i)) Hi) as [-> ->]. reflexivity.
    - now rewrite (ph_zero P L), (ph_zero P' L).
  Qed.
  Lemma cycle_average_eq i : (i <= m)%nat -> cycle_average start x c i = cycle_average start x' c' i.
  Proof.
    intro Hi. unfold cycle_average, from. destruct (Nat.ltb_spec i start) as [L|L]; [reflexivity|].
    rewrite smooth_eq by assumption. unfold average. destruct (bars_of (c_smooth c' i)) as [|w] eqn:E; [reflexivity|].
    assert (B : (S w <= i)%nat).
    { rewrite <- E. rewrite <- smooth_eq by assumption. pose proof (bars_avail Hs C (i - start)) as B. cbv beta in B.
      replace (start + (i - start))%nat with i in B by lia. lia. }
    unfold lastp, win. f_equal. apply map_ext_seq. intros j Hj. apply EX. lia.
  Qed.
  Lemma trend_eq i : (i <= m)%nat -> smooth4 (cycle_average start x c) i = smooth4 (cycle_average start x' c') i.
  Proof. intro Hi. unfold smooth4. now rewrite !cycle_average_eq by lia. Qed.

  Lemma mode_eq ph ph' md md' :
    is_phase start s c ph -> is_phase start s' c' ph' ->
    is_mode start s x c ph md -> is_mode start s' x' c' ph' md' ->
    forall i, (start <= i <= m)%nat -> md i = md' i.
  Proof.
    intros P P' (days & (D0 & D) & M) (days' & (D0' & D') & M').
    set (sn := from start (sine_wave ph)) in *. set (ld := from start (lead_wave ph)) in *.
    set (sn' := from start (sine_wave ph')) in *. set (ld' := from start (lead_wave ph')) in *.
    assert (ESN : forall i, (i <= m)%nat -> sn i = sn' i).
    { intros i Hi. unfold sn, sn', from, sine_wave. now rewrite (phase_eq P P' Hi). }
    assert (ELD : forall i, (i <= m)%nat -> ld i = ld' i).
    { intros i Hi. unfold ld, ld', from, lead_wave. now rewrite (phase_eq P P' Hi). }
    assert (ECR : forall i, (i <= m)%nat -> crossed sn ld i <-> crossed sn' ld' i).
    { intros i Hi. unfold crossed. rewrite !ESN, !ELD by lia. tauto. }
    assert (ED : forall i, (i <= m)%nat -> days i = days' i).
    { intro i. induction i as [i IH] using lt_wf_ind. intro Hi.
      destruct (le_lt_dec start i) as [L|L]; [|now rewrite D0, D0'].
      destruct (D i L) as [A B], (D' i L) as [A' B'].
      destruct (classic (crossed sn ld i)) as [X|X].
      - rewrite A, A'; auto. now apply ECR.
      - rewrite B, B'; auto; [f_equal; apply IH; lia|]. now rewrite <- ECR. }
    intros i Hi. destruct (M i) as [V I]; [lia|]. destruct (M' i) as [V' I']; [lia|].
    assert (E : md i = 1 <-> md' i = 1).
    { rewrite I, I'. unfold in_step.
      rewrite <- (ES (i := i)), <- trend_eq, ECR, smooth_eq, ED, (phase_eq P P' (i:=i)), (phase_eq P P' (i:=(i-1)%nat)) by lia. tauto. }
    destruct V as [V|V], V' as [V'|V']; rewrite V, V' in *; try reflexivity; exfalso; lra.
  Qed.
End Prefix.

Lemma agree_of (y y' : line (ext R)) n n' k f f' m :
  delivers y n k f -> delivers y' n' k f' -> (forall i, (k <= i <= m)%nat -> f i = f' i) ->
  agree y y' m.
Proof.
  intros [(_ & L & F) W] [(_ & L' & F') W'] E i Hi Hn Hn'. rewrite L in Hn. rewrite L' in Hn'.
  destruct (le_lt_dec k i) as [K|K].
  - rewrite F, F' by lia. f_equal. apply E. lia.
  - rewrite W, W' by lia. reflexivity.
Qed.

Lemma smooth4_eq x x' m : (forall i, (i <= m)%nat -> x i = x' i) -> forall i, (i <= m)%nat -> smooth4 x i = smooth4 x' i.
Proof. intros E i Hi. unfold smooth4. now rewrite !E by lia. Qed.

Lemma ht_prefix inp inp' n n' k x x' m :
  priced inp n k x -> priced inp' n' k x' -> (forall i, (i <= m)%nat -> x i = x' i) ->
  (forall y y', ht_dcperiod inp = Ok y -> ht_dcperiod inp' = Ok y' -> agree y y' m) /\
  (forall y y', ht_phasor inp = Ok y -> ht_phasor inp' = Ok y' ->
     agree (fst y) (fst y') m /\ agree (snd y) (snd y') m) /\
  (forall y y', ht_dcphase inp = Ok y -> ht_dcphase inp' = Ok y' -> agree y y' m) /\
  (forall y y', ht_sine inp = Ok y -> ht_sine inp' = Ok y' ->
     agree (fst y) (fst y') m /\ agree (snd y) (snd y') m) /\
  (forall y y', ht_trendline inp = Ok y -> ht_trendline inp' = Ok y' -> agree y y' m) /\
  (forall y y', ht_trendmode inp = Ok y -> ht_trendmode inp' = Ok y' -> agree y y' m).
Proof.
  intros H H' E. pose proof (smooth4_eq x x' E) as ES.
  assert (S1 : (1 <= k + 12)%nat) by lia. assert (S2 : (1 <= k + 37)%nat) by lia. assert (S3 : (31 <= k + 37)%nat) by lia.
  split; [|split; [|split; [|split; [|split]]]].
  - intros y y' Y Y'.
    destruct (dcperiod_bounds inp n k x H) as (z & c & Z & C & D & _). rewrite Y in Z. injection Z as <-.
    destruct (dcperiod_bounds inp' n' k x' H') as (z & c' & Z & C' & D' & _). rewrite Y' in Z. injection Z as <-.
    apply (agree_of D D'). intros i Hi. unfold fin. f_equal. apply (smooth_eq S1 C C' ES). lia.
  - intros y y' Y Y'.
    destruct (phasor_all inp n k x H) as (z1 & z2 & c & Z & C & D1 & D2). rewrite Y in Z. injection Z as ->.
    destruct (phasor_all inp' n' k x' H') as (z3 & z4 & c' & Z & C' & D3 & D4). rewrite Y' in Z. injection Z as ->.
    cbn [fst snd]. split; [apply (agree_of D1 D3)|apply (agree_of D2 D4)]; intros i Hi; unfold fin; f_equal;
      apply (cycle_prefix S1 C C' ES); lia.
  - intros y y' Y Y'.
    destruct (phase_all inp n k x H) as (z & c & ph & Z & C & P & D & _). rewrite Y in Z. injection Z as <-.
    destruct (phase_all inp' n' k x' H') as (z & c' & ph' & Z & C' & P' & D' & _). rewrite Y' in Z. injection Z as <-.
    apply (agree_of D D'). intros i Hi. unfold fin. f_equal. apply (phase_eq S2 S3 C C' ES P P'). lia.
  - intros y y' Y Y'.
    destruct (sine_run inp n k x H) as (z1 & z2 & Z & D1 & D2). rewrite Y in Z. injection Z as ->.
    destruct (sine_run inp' n' k x' H') as (z3 & z4 & Z & D3 & D4). rewrite Y' in Z. injection Z as ->.
    assert (EP : forall i, (i <= m)%nat -> the_phase (k + 6) (smooth4 x) i = the_phase (k + 6) (smooth4 x') i).
    { assert (S4 : (1 <= k + 6 + 31)%nat) by lia. assert (S5 : (31 <= k + 6 + 31)%nat) by lia.
      exact (phase_eq S4 S5 (the_cycle_ok (smooth4 x) S4) (the_cycle_ok (smooth4 x') S4) ES (the_phase_ok (k + 6) (smooth4 x)) (the_phase_ok (k + 6) (smooth4 x'))). }
    cbn [fst snd]. split; [apply (agree_of D1 D3)|apply (agree_of D2 D4)]; intros i Hi; unfold fin, sine_wave, lead_wave;
      now rewrite EP by lia.
  - intros y y' Y Y'.
    destruct (trendline_all inp n k x H) as (z & c & t & Z & C & P & D & _). rewrite Y in Z. injection Z as <-.
    destruct (trendline_all inp' n' k x' H') as (z & c' & t' & Z & C' & P' & D' & _). rewrite Y' in Z. injection Z as <-.
    apply (agree_of D D'). intros i Hi. unfold fin. f_equal. rewrite P, P' by lia.
    apply (@trend_eq _ (smooth4 x) (smooth4 x') x x' c c' m); auto. lia.
  - intros y y' Y Y'.
    destruct (trendmode_all inp n k x H) as (z & c & ph & md & Z & C & P & M & D). rewrite Y in Z. injection Z as <-.
    destruct (trendmode_all inp' n' k x' H') as (z & c' & ph' & md' & Z & C' & P' & M' & D'). rewrite Y' in Z. injection Z as <-.
    apply (agree_of D D'). intros i Hi. unfold fin. f_equal.
    apply (@mode_eq (k + 37) (smooth4 x) (smooth4 x') x x' c c' m) with (ph := ph) (ph' := ph'); auto. lia.
Qed.
