(** Facts about the statistical indicators (proofs). *)
From Coq Require Import ZArith List Bool Reals Lra Lia Psatz.
From Verif Require Import Num Series Line Spec RSpec StatSpec LineFacts RFacts OpFacts IndMA MAFacts
  RLineFacts IndBasic BasicFacts IndStat.
Import ListNotations.
Set Implicit Arguments.
Local Open Scope R_scope.

(** ** sums *)
Lemma Rsum_cons v l : Rsum (v :: l) = v + Rsum l.
Proof. reflexivity. Qed.

Lemma Rsum_nonneg l : (forall v, In v l -> 0 <= v) -> 0 <= Rsum l.
Proof.
  induction l as [|v l IH]; intros H; [cbn; lra|].
  rewrite Rsum_cons. assert (0 <= v) by (apply H; left; reflexivity).
  assert (0 <= Rsum l) by (apply IH; intros; apply H; right; assumption). lra.
Qed.

Lemma Rsum_zero l : (forall v, In v l -> 0 <= v) -> Rsum l = 0 -> forall v, In v l -> v = 0.
Proof.
  induction l as [|u l IH]; intros H E v Hv; [destruct Hv|].
  rewrite Rsum_cons in E. assert (0 <= u) by (apply H; left; reflexivity).
  assert (0 <= Rsum l) by (apply Rsum_nonneg; intros; apply H; right; assumption).
  destruct Hv as [<-|Hv]; [lra|]. apply IH; auto; [|lra]. intros; apply H; right; assumption.
Qed.

Lemma Rsum_map_ext {A} (f g : A -> R) l :
  (forall v, In v l -> f v = g v) -> Rsum (map f l) = Rsum (map g l).
Proof.
  intros H. f_equal. apply map_ext_in. exact H.
Qed.

Lemma Rsum_scale {A} (f : A -> R) c l : Rsum (map (fun v => c * f v) l) = c * Rsum (map f l).
Proof. induction l as [|v l IH]; cbn; [lra|]. unfold Rsum in IH. rewrite IH. lra. Qed.

Lemma Rsum_plus {A} (f g : A -> R) l :
  Rsum (map (fun v => f v + g v) l) = Rsum (map f l) + Rsum (map g l).
Proof. induction l as [|v l IH]; cbn; [lra|]. unfold Rsum in IH. rewrite IH. lra. Qed.

Lemma Rsum_const {A} c (l : list A) : Rsum (map (fun _ => c) l) = INR (length l) * c.
Proof.
  induction l as [|v l IH]; [cbn; lra|].
  change (Rsum (map (fun _ => c) (v :: l))) with (c + Rsum (map (fun _ => c) l)).
  rewrite IH. change (length (v :: l)) with (S (length l)). rewrite S_INR. lra.
Qed.

Lemma Rsum_mean l : l <> [] -> Rsum l = INR (length l) * Rmean l.
Proof.
  intros H. unfold Rmean. field.
  assert (0 < INR (length l)); [|lra]. apply INR_pos. destruct l; [congruence|cbn; lia].
Qed.

(** ** variance *)
Lemma sqdev_expand l c :
  Rsum (map (fun v => (v - c) ^ 2) l) =
  Rsum (map (fun v => v ^ 2) l) - 2 * c * Rsum l + INR (length l) * c ^ 2.
Proof.
  induction l as [|v l IH]; [cbn; lra|].
  cbn [map length]. rewrite !Rsum_cons, S_INR, IH. ring.
Qed.

Lemma sqdev_alt l : l <> [] ->
  sqdev l = Rsum (map (fun v => v ^ 2) l) - Rsum l * Rsum l / INR (length l).
Proof.
  intros H. unfold sqdev. rewrite sqdev_expand.
  assert (0 < INR (length l)) by (apply INR_pos; destruct l; [congruence|cbn; lia]).
  rewrite (Rsum_mean H) at 2. rewrite (Rsum_mean H) at 1. unfold Rmean at 1. rewrite (Rsum_mean H) at 1.
  rewrite (Rsum_mean H).
  generalize (Rmean l); intros m. field. lra.
Qed.

Lemma sqdev_nonneg l : 0 <= sqdev l.
Proof.
  apply Rsum_nonneg. intros v Hv. apply in_map_iff in Hv. destruct Hv as (u & <- & _).
  apply pow2_ge_0.
Qed.

Lemma constant_mean l : constant l -> forall v, In v l -> v = Rmean l.
Proof.
  intros H v Hv. unfold Rmean.
  assert (E : Rsum l = INR (length l) * v).
  { rewrite <- (Rsum_const v l). f_equal. rewrite <- (map_id l) at 1. apply map_ext_in.
    intros u Hu. apply H; assumption. }
  rewrite E. field. assert (0 < INR (length l)); [|lra].
  apply INR_pos. destruct l; [destruct Hv|cbn; lia].
Qed.

Lemma sqdev_zero l : sqdev l = 0 <-> constant l.
Proof.
  split.
  - intros E u v Hu Hv.
    assert (H : forall w, In w l -> w = Rmean l); [|rewrite (H u), (H v); auto].
    intros w Hw. assert ((w - Rmean l) ^ 2 = 0).
    { apply (@Rsum_zero (map (fun v => (v - Rmean l) ^ 2) l)); [|exact E|].
      - intros z Hz. apply in_map_iff in Hz. destruct Hz as (y & <- & _). apply pow2_ge_0.
      - apply in_map_iff. exists w. split; [reflexivity|exact Hw]. }
    nra.
  - intros H. unfold sqdev. rewrite (Rsum_map_ext _ (fun _ => 0)); [rewrite Rsum_const; lra|].
    intros v Hv. rewrite <- (constant_mean H _ Hv). ring.
Qed.

Lemma Rvar_nonneg d l : (d < length l)%nat -> 0 <= Rvar d l.
Proof.
  intros H. unfold Rvar. apply Rmult_le_pos; [apply sqdev_nonneg|].
  left. apply Rinv_0_lt_compat. apply lt_INR in H. lra.
Qed.
Lemma Rvar_zero d l : (d < length l)%nat -> (Rvar d l = 0 <-> constant l).
Proof.
  intros H. rewrite <- sqdev_zero. unfold Rvar. apply lt_INR in H.
  split; intros E.
  - apply Rmult_eq_reg_r with (/ (INR (length l) - INR d)); [rewrite Rmult_0_l; exact E|].
    apply Rinv_neq_0_compat. lra.
  - rewrite E. field. lra.
Qed.

Lemma win_var_fin d l : (d < length l)%nat -> win_var d (map (@Fin R) l) = Fin (Rvar d l).
Proof.
  intros H. unfold win_var. rewrite map_length.
  destruct (Nat.leb_spec (length l) d); [lia|].
  destruct (Nat.eqb_spec (length l) 1) as [E|E].
  - rewrite v0_fin. f_equal. symmetry. apply Rvar_zero; [exact H|].
    destruct l as [|a [|b l]]; cbn in E; try lia.
    intros u v [<-|[]] [<-|[]]; reflexivity.
  - assert (l <> []) by (intros ->; cbn in H; lia).
    cbv zeta. rewrite win_mean_fin, map_map by assumption.
    rewrite (map_ext _ (fun v => Fin ((v - Rmean l) ^ 2))).
    2:{ intros v. rewrite vsub_fin, vmul_fin. f_equal. ring. }
    rewrite <- (map_map (fun v => (v - Rmean l) ^ 2) Fin), vsum_fin. fold (sqdev l).
    rewrite vofZ_fin, minus_IZR, !IZR_nat, vdiv_fin.
    2:{ apply lt_INR in H. lra. }
    fold (Rvar d l). rewrite v0_fin, vltb_fin.
    destruct (Rltb_spec (Rvar d l) 0); [|reflexivity].
    pose proof (@Rvar_nonneg d l H). lra.
Qed.

Lemma win_var_nan d l : (length l <= d)%nat -> win_var d (map (@Fin R) l) = NaN.
Proof.
  intros H. unfold win_var. rewrite map_length.
  destruct (Nat.leb_spec (length l) d); [reflexivity|lia].
Qed.

Lemma vsqrt_fin a : 0 <= a -> vsqrt (Fin a) = Fin (sqrt a).
Proof. intros H. cbn. destruct (Rlt_dec a 0); [lra|reflexivity]. Qed.

Lemma win_std_fin d l : (d < length l)%nat -> win_std d (map (@Fin R) l) = Fin (sqrt (Rvar d l)).
Proof.
  intros H. unfold win_std. rewrite win_var_fin by exact H. apply vsqrt_fin.
  apply Rvar_nonneg; exact H.
Qed.

Lemma lastp_length x i p : length (lastp x i p) = p.
Proof. apply win_length. Qed.

Lemma var_fin (a : lineR) n k x p d :
  feeds a n k (fin x) -> (1 <= p)%nat -> (d < p)%nat ->
  delivers (var p d a) n (k + p - 1) (fin (fun i => Rvar d (lastp x i p))).
Proof.
  intros H Hp Hd. apply rolling_fin; auto. intros l Hl. apply win_var_fin. lia.
Qed.

Lemma stddev_fin (a : lineR) n k x p d :
  feeds a n k (fin x) -> (1 <= p)%nat -> (d < p)%nat ->
  delivers (stddev p d a) n (k + p - 1) (fin (fun i => sqrt (Rvar d (lastp x i p)))).
Proof.
  intros H Hp Hd. unfold stddev.
  apply (rolling_fin (win_std d) (fun l => sqrt (Rvar d l))); auto.
  intros l Hl. apply win_std_fin. lia.
Qed.

Lemma var_nan (a : lineR) n k x p d :
  feeds a n k (fin x) -> (1 <= p)%nat -> (p <= d)%nat ->
  delivers (var p d a) n (k + p - 1) (fun _ => NaN) /\
  delivers (stddev p d a) n (k + p - 1) (fun _ => NaN).
Proof.
  intros H Hp Hd.
  split; (eapply delivers_ext; [|apply rolling_delivers; eauto]);
    intros i Hi; cbv beta; rewrite win_fin, guard_win_fin; unfold win_std;
    rewrite win_var_nan by (rewrite win_length; lia); reflexivity.
Qed.

Lemma var_sample_population l :
  (2 <= length l)%nat ->
  Rvar 1 l = INR (length l) / (INR (length l) - 1) * Rvar 0 l.
Proof.
  intros H. unfold Rvar. apply le_INR in H. change (INR 2) with 2 in H. change (INR 1) with 1. change (INR 0) with 0.
  field. lra.
Qed.

(** ** Bollinger bands *)
Lemma bbands_fin (ma stdev : ma_fun (ext R)) (a : lineR) n k x p devs :
  averages ma -> feeds a n k (fin x) -> (1 <= p)%nat -> (k + p <= n)%nat ->
  exists mid top bot e, bbands p (Fin devs) ma stdev a = Ok (mid, top, bot) /\
    ma p a = Ok mid /\
    delivers mid n (k + p - 1) (fin e) /\
    delivers top n (k + p - 1) (fin (fun i => e i + devs * sqrt (Rvar 0 (lastp x i p)))) /\
    delivers bot n (k + p - 1) (fin (fun i => e i - devs * sqrt (Rvar 0 (lastp x i p)))).
Proof.
  intros Hma H Hp Hn. destruct (Hma p a n k x H Hp Hn) as (y & e & Ey & Dy).
  unfold bbands. rewrite Ey. cbn [bind]. cbv zeta.
  pose proof (@stddev_fin a n k x p 0 H Hp ltac:(lia)) as Ds.
  pose proof (@rmuls_fin n _ _ _ devs (delivers_feeds Ds)) as Dd.
  do 4 eexists. split; [reflexivity|]. split; [reflexivity|].
  split; [exact Dy|]. split.
  - eapply fin_ext; [|intros; reflexivity|eapply ladd_fin; feed]. lia.
  - eapply fin_ext; [|intros; reflexivity|eapply lsub_fin; feed]. lia.
Qed.

(** ** least squares *)
Definition SX (pts : list (R * R)) := Rsum (map fst pts).
Definition SY (pts : list (R * R)) := Rsum (map snd pts).
Definition SXX (pts : list (R * R)) := Rsum (map (fun q => fst q * fst q) pts).
Definition SYY (pts : list (R * R)) := Rsum (map (fun q => snd q * snd q) pts).
Definition SXY (pts : list (R * R)) := Rsum (map (fun q => fst q * snd q) pts).

Lemma sse_expand pts b m :
  sse pts b m = SYY pts - 2 * b * SY pts - 2 * m * SXY pts + INR (length pts) * b ^ 2
                + 2 * b * m * SX pts + m ^ 2 * SXX pts.
Proof.
  unfold sse, SX, SY, SXX, SYY, SXY.
  induction pts as [|[u v] pts IH]; [cbn; ring|].
  cbn [map length fst snd]. rewrite !Rsum_cons, S_INR, IH. ring.
Qed.

Lemma sse_nonneg pts b m : 0 <= sse pts b m.
Proof.
  apply Rsum_nonneg. intros v Hv. apply in_map_iff in Hv. destruct Hv as ((x, y) & <- & _).
  apply pow2_ge_0.
Qed.

(** Cauchy-Schwarz *)
Lemma cauchy pts : SXY pts * SXY pts <= SXX pts * SYY pts.
Proof.
  assert (H : forall t, 0 <= SYY pts - 2 * t * SXY pts + t ^ 2 * SXX pts).
  { intros t. unfold SXX, SYY, SXY.
    assert (E : Rsum (map (fun q : R * R => (snd q - t * fst q) ^ 2) pts) =
                Rsum (map (fun q => snd q * snd q) pts)
                - 2 * t * Rsum (map (fun q => fst q * snd q) pts)
                + t ^ 2 * Rsum (map (fun q => fst q * fst q) pts)).
    { clear. induction pts as [|[u v] pts IH]; [cbn; ring|].
      cbn [map fst snd]. rewrite !Rsum_cons, IH. ring. }
    rewrite <- E. apply Rsum_nonneg. intros v Hv. apply in_map_iff in Hv.
    destruct Hv as (q & <- & _). apply pow2_ge_0. }
  assert (HA : 0 <= SXX pts).
  { apply Rsum_nonneg. intros v Hv. apply in_map_iff in Hv. destruct Hv as (q & <- & _). nra. }
  assert (HB : 0 <= SYY pts).
  { apply Rsum_nonneg. intros v Hv. apply in_map_iff in Hv. destruct Hv as (q & <- & _). nra. }
  destruct (Req_EM_T (SXX pts) 0) as [E|E].
  - (* then SXY = 0 *)
    rewrite E in *. destruct (Req_EM_T (SXY pts) 0) as [E'|E']; [rewrite E'; lra|].
    pose proof (H ((SYY pts + 1) / (2 * SXY pts))) as Q.
    replace (2 * ((SYY pts + 1) / (2 * SXY pts)) * SXY pts) with (SYY pts + 1) in Q by (field; lra).
    lra.
  - pose proof (H (SXY pts / SXX pts)) as Q.
    assert (0 < SXX pts) by lra.
    replace (SYY pts - 2 * (SXY pts / SXX pts) * SXY pts + (SXY pts / SXX pts) ^ 2 * SXX pts)
      with ((SXX pts * SYY pts - SXY pts * SXY pts) / SXX pts) in Q by (field; lra).
    assert (0 <= SXX pts * SYY pts - SXY pts * SXY pts); [|lra].
    apply Rmult_le_reg_r with (/ SXX pts); [apply Rinv_0_lt_compat; lra|].
    rewrite Rmult_0_l. exact Q.
Qed.

Definition DET (pts : list (R * R)) := INR (length pts) * SXX pts - SX pts * SX pts.

Lemma DET_nonneg pts : 0 <= DET pts.
Proof.
  pose proof (cauchy (map (fun q : R * R => (fst q, 1)) pts)) as Q.
  unfold SXY, SXX, SYY in Q. rewrite !map_map in Q. cbn [fst snd] in Q.
  rewrite (map_ext (fun q : R * R => fst q * 1) fst) in Q by (intros; ring).
  rewrite (map_ext (fun q : R * R => 1 * 1) (fun _ => 1)) in Q by (intros; ring).
  rewrite Rsum_const in Q. unfold DET, SX, SXX. lra.
Qed.

Definition fit_m (pts : list (R * R)) :=
  (INR (length pts) * SXY pts - SX pts * SY pts) / DET pts.
Definition fit_b (pts : list (R * R)) := (SY pts - fit_m pts * SX pts) / INR (length pts).

Lemma DET_len pts : DET pts <> 0 -> 0 < INR (length pts).
Proof.
  intros H. destruct pts as [|q pts]; [|apply INR_pos; cbn; lia].
  exfalso. apply H. unfold DET, SX. cbn. ring.
Qed.

Lemma fit_least pts : DET pts <> 0 -> least_squares pts (fit_b pts) (fit_m pts).
Proof.
  intros HD b' m'.
  pose proof (DET_nonneg pts) as HD0. pose proof (DET_len HD) as HN.
  set (N := INR (length pts)) in *. set (b := fit_b pts). set (m := fit_m pts).
  assert (E1 : N * b + m * SX pts = SY pts).
  { unfold b, fit_b. fold m N. field. lra. }
  assert (E2 : b * SX pts + m * SXX pts = SXY pts).
  { unfold b, fit_b. fold m N.
    apply Rmult_eq_reg_l with N; [|lra].
    transitivity (SY pts * SX pts + m * DET pts).
    - unfold DET. fold N. field. lra.
    - unfold m, fit_m. fold N. field. exact HD. }
  assert (E : N * (sse pts b' m' - sse pts b m) =
              (N * (b' - b) + (m' - m) * SX pts) ^ 2 + (m' - m) ^ 2 * DET pts).
  { rewrite !sse_expand. unfold DET. fold N. rewrite <- E1, <- E2. ring. }
  assert (0 <= (N * (b' - b) + (m' - m) * SX pts) ^ 2) by apply pow2_ge_0.
  assert (0 <= (m' - m) ^ 2 * DET pts) by (apply Rmult_le_pos; [apply pow2_ge_0|exact HD0]).
  split; [nra|]. intros Hle.
  assert (Z1 : (m' - m) ^ 2 * DET pts = 0) by nra.
  assert (Z2 : (N * (b' - b) + (m' - m) * SX pts) ^ 2 = 0) by nra.
  assert (m' = m).
  { apply Rmult_integral in Z1. destruct Z1 as [Z1|Z1]; [|lra]. nra. }
  split; [|assumption]. subst m'.
  assert (N * (b' - b) = 0) by nra.
  assert (b' - b = 0); [|lra]. apply Rmult_eq_reg_l with N; lra.
Qed.

Lemma least_squares_unique pts b m b' m' :
  least_squares pts b m -> least_squares pts b' m' -> b' = b /\ m' = m.
Proof. intros H H'. apply (H b' m'). apply H'. Qed.

(** moving the x axis *)
Definition shiftx (c : R) (pts : list (R * R)) := map (fun q : R * R => (c + fst q, snd q)) pts.
Lemma shiftx_len c pts : length (shiftx c pts) = length pts.
Proof. apply map_length. Qed.
Lemma SX_shift c pts : SX (shiftx c pts) = INR (length pts) * c + SX pts.
Proof.
  unfold SX, shiftx. rewrite map_map. cbn [fst]. rewrite Rsum_plus, Rsum_const. reflexivity.
Qed.
Lemma SY_shift c pts : SY (shiftx c pts) = SY pts.
Proof. unfold SY, shiftx. rewrite map_map. reflexivity. Qed.
Lemma SXX_shift c pts :
  SXX (shiftx c pts) = INR (length pts) * c ^ 2 + 2 * c * SX pts + SXX pts.
Proof.
  unfold SXX, SX, shiftx. induction pts as [|[u v] pts IH]; [cbn; ring|].
  cbn [map length fst snd] in *. rewrite !Rsum_cons, S_INR, IH. ring.
Qed.
Lemma SXY_shift c pts : SXY (shiftx c pts) = c * SY pts + SXY pts.
Proof.
  unfold SXY, SY, shiftx. induction pts as [|[u v] pts IH]; [cbn; ring|].
  cbn [map length fst snd] in *. rewrite !Rsum_cons, IH. ring.
Qed.
Lemma DET_shift c pts : DET (shiftx c pts) = DET pts.
Proof. unfold DET. rewrite shiftx_len, SX_shift, SXX_shift. ring. Qed.
Lemma fit_m_shift c pts : fit_m (shiftx c pts) = fit_m pts.
Proof.
  unfold fit_m. rewrite shiftx_len, SX_shift, SXY_shift, SY_shift, DET_shift. f_equal. ring.
Qed.
Lemma fit_b_shift c pts :
  DET pts <> 0 -> fit_b (shiftx c pts) = fit_b pts - c * fit_m pts.
Proof.
  intros H. pose proof (DET_len H). unfold fit_b.
  rewrite shiftx_len, fit_m_shift, SY_shift, SX_shift. field. lra.
Qed.

(** positions 0 .. p-1 *)
Lemma map_fst_combine {A B} (l : list A) (m : list B) :
  length l = length m -> map fst (combine l m) = l.
Proof.
  revert m; induction l as [|a l IH]; intros [|b m] H; cbn in *; try lia; [reflexivity|].
  rewrite IH by lia. reflexivity.
Qed.
Lemma map_snd_combine {A B} (l : list A) (m : list B) :
  length l = length m -> map snd (combine l m) = m.
Proof.
  revert m; induction l as [|a l IH]; intros [|b m] H; cbn in *; try lia; [reflexivity|].
  rewrite IH by lia. reflexivity.
Qed.

Lemma pos_length l : length (by_position l) = length l.
Proof. unfold by_position. rewrite combine_length, map_length, seq_length. lia. Qed.
Lemma pos_SY l : SY (by_position l) = Rsum l.
Proof.
  unfold SY, by_position. rewrite map_snd_combine; [reflexivity|].
  rewrite map_length, seq_length. reflexivity.
Qed.
Lemma sum_seq p : Rsum (map INR (seq 0 p)) = INR p * (INR p - 1) / 2.
Proof.
  induction p as [|p IH]; [cbn; lra|].
  rewrite seq_S, map_app, Rsum_app, IH. cbn [map plus]. rewrite Rsum_cons.
  change (Rsum []) with 0. rewrite S_INR. lra.
Qed.
Lemma sumsq_seq p :
  Rsum (map (fun j => INR j * INR j) (seq 0 p)) = INR p * (INR p - 1) * (2 * INR p - 1) / 6.
Proof.
  induction p as [|p IH]; [cbn; lra|].
  rewrite seq_S, map_app, Rsum_app, IH. cbn [map plus]. rewrite Rsum_cons.
  change (Rsum []) with 0. rewrite S_INR. lra.
Qed.
Lemma pos_SX l : SX (by_position l) = INR (length l) * (INR (length l) - 1) / 2.
Proof.
  unfold SX, by_position. rewrite map_fst_combine by (rewrite map_length, seq_length; reflexivity).
  apply sum_seq.
Qed.
Lemma pos_SXX l :
  SXX (by_position l) = INR (length l) * (INR (length l) - 1) * (2 * INR (length l) - 1) / 6.
Proof.
  unfold SXX. rewrite <- (map_map fst (fun u => u * u)).
  unfold by_position. rewrite map_fst_combine by (rewrite map_length, seq_length; reflexivity).
  rewrite map_map. apply sumsq_seq.
Qed.
Lemma pos_DET l :
  DET (by_position l) = INR (length l) ^ 2 * (INR (length l) ^ 2 - 1) / 12.
Proof. unfold DET. rewrite pos_length, pos_SX, pos_SXX. field. Qed.
Lemma pos_DET_pos l : (2 <= length l)%nat -> 0 < DET (by_position l).
Proof.
  intros H. rewrite pos_DET. apply le_INR in H. change (INR 2) with 2 in H.
  set (q := INR (length l)) in *.
  assert (0 < q ^ 2) by nra. assert (0 < q ^ 2 - 1) by nra.
  assert (0 < q ^ 2 * (q ^ 2 - 1)) by (apply Rmult_lt_0_compat; assumption). lra.
Qed.

Lemma win_dot_fin (z : Z) l :
  win_dot z (map (@Fin R) l) = Fin (SXY (shiftx (IZR z) (by_position l))).
Proof.
  unfold win_dot. rewrite map_length.
  rewrite (map_ext (fun i => vofZ (z + Z.of_nat i)) (fun i => Fin (IZR z + INR i))).
  2:{ intros i. rewrite vofZ_fin, plus_IZR, IZR_nat. reflexivity. }
  rewrite <- (map_map (fun i => IZR z + INR i) Fin), map2_fin_mul, vsum_fin. f_equal.
  unfold SXY, shiftx, by_position. rewrite map_map. cbn [fst snd].
  f_equal. generalize 0%nat. induction l as [|v l IH]; intros j; [reflexivity|].
  cbn [length seq map combine fst snd]. rewrite IH. reflexivity.
Qed.

Lemma linreg_fin (pm1 : bool) (a : lineR) n k x p :
  feeds a n k (fin x) -> (2 <= p)%nat ->
  let c := if pm1 then 0 else 1 in
  delivers (fst (linreg_mb pm1 p a)) n (k + p - 1)
    (fin (fun i => fit_m (by_position (lastp x i p)))) /\
  delivers (snd (linreg_mb pm1 p a)) n (k + p - 1)
    (fin (fun i => fit_b (by_position (lastp x i p)) - c * fit_m (by_position (lastp x i p)))).
Proof.
  intros H Hp c.
  set (z := (1 - (if pm1 then 1 else 0))%Z).
  assert (Hz : IZR z = c) by (unfold z, c; destruct pm1; reflexivity).
  assert (HP : 2 <= INR p) by (apply (le_INR 2); exact Hp).
  set (pts := fun i => shiftx c (by_position (lastp x i p))).
  assert (Ln : forall i, INR (length (pts i)) = INR p).
  { intros i. unfold pts. rewrite shiftx_len, pos_length, lastp_length. reflexivity. }
  pose proof (@rolling_fin win_sum Rsum a n k x p ltac:(intros; apply vsum_fin) H ltac:(lia)) as Dy.
  pose proof (@rolling_fin (win_dot z) (fun l => SXY (shiftx (IZR z) (by_position l))) a n k x p
    ltac:(intros; apply win_dot_fin) H ltac:(lia)) as Dxy.
  rewrite Hz in Dxy.
  set (p1 := (Z.of_nat p - (if pm1 then 1 else 0))%Z).
  assert (Hp1 : IZR p1 = INR p - (1 - c)).
  { unfold p1, c. rewrite minus_IZR, IZR_nat. destruct pm1; cbn; lra. }
  assert (Hc : c = 0 \/ c = 1) by (unfold c; destruct pm1; auto).
  assert (Hsx : forall i, SX (pts i) = IZR (p1 * (p1 + 1)) / 2).
  { intros i. unfold pts. rewrite SX_shift, pos_SX, pos_length, lastp_length.
    rewrite mult_IZR, plus_IZR, Hp1. destruct Hc as [-> | ->]; field. }
  assert (Hsxx : forall i, SXX (pts i) = IZR (p1 * (p1 + 1) * (2 * p1 + 1)) / 6).
  { intros i. unfold pts. rewrite SXX_shift, pos_SX, pos_SXX, pos_length, lastp_length.
    rewrite !mult_IZR, !plus_IZR, !mult_IZR, Hp1. destruct Hc as [-> | ->]; field. }
  assert (HD : forall i, DET (pts i) <> 0).
  { intros i. unfold pts. rewrite DET_shift.
    pose proof (@pos_DET_pos (lastp x i p)) as Q. rewrite lastp_length in Q. specialize (Q Hp). lra. }
  assert (Hdet : vsub (vmul (vofZ (Z.of_nat p)) (vdiv (vofZ (p1 * (p1 + 1) * (2 * p1 + 1))) (vofZ 6)))
      (vmul (vdiv (vofZ (p1 * (p1 + 1))) (vofZ 2)) (vdiv (vofZ (p1 * (p1 + 1))) (vofZ 2)))
      = Fin (DET (pts 0%nat)) :> ext R).
  { rewrite !vofZ_fin, !vdiv_fin by lra. rewrite !vmul_fin, vsub_fin. f_equal.
    unfold DET. rewrite Hsx, Hsxx, Ln, IZR_nat. reflexivity. }
  assert (HDi : forall i, DET (pts i) = DET (pts 0%nat)).
  { intros i. unfold DET. rewrite !Hsx, !Hsxx, !Ln. reflexivity. }
  assert (Dm : delivers (fst (linreg_mb pm1 p a)) n (k + p - 1) (fin (fun i => fit_m (pts i)))).
  { unfold linreg_mb. cbn [fst]. fold p1 z. rewrite Hdet. rewrite !vofZ_fin, !vdiv_fin by lra.
    eapply fin_ext;
      [|intros i Hi|apply divs_fin; [apply HD|]; eapply delivers_feeds, lsub_fin;
                   eapply delivers_feeds, rmuls_fin; eapply delivers_feeds; eassumption]; [lia|].
    cbv beta. unfold fit_m. rewrite (HDi i), Hsx, Ln. f_equal. rewrite IZR_nat. f_equal. f_equal.
    unfold pts. rewrite SY_shift, pos_SY. reflexivity. }
  split.
  - eapply fin_ext; [reflexivity| |exact Dm]. intros i Hi. unfold pts. apply fit_m_shift.
  - unfold linreg_mb in Dm |- *. cbn [fst snd] in Dm |- *. fold p1 z in Dm |- *.
    set (mline := binop_s vdiv _ _) in *.
    rewrite !vofZ_fin, !vdiv_fin by lra.
    eapply fin_ext;
      [|intros i Hi|apply divs_fin; [|eapply delivers_feeds, lsub_fin;
         [eapply delivers_feeds; exact Dy|eapply delivers_feeds, muls_fin, delivers_feeds; exact Dm]]];
      [lia| |rewrite IZR_nat; lra].
    cbv beta. rewrite <- fit_b_shift.
    + unfold fit_b. fold (pts i). rewrite Ln, Hsx, IZR_nat.
      f_equal. f_equal. unfold pts. rewrite SY_shift, pos_SY. reflexivity.
    + pose proof (HD i) as Q. unfold pts in Q. rewrite DET_shift in Q. exact Q.
Qed.
