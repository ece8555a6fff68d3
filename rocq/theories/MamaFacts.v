(** The MESA adaptive moving average. *)
From Coq Require Import ZArith QArith List Bool Lia Arith Reals Lra Psatz.
From Verif Require Import Num Series Line Spec RSpec LineFacts ScanFacts RFacts OpFacts MAFacts RLineFacts IndBasic
  BasicFacts KamaFacts Apply IndHT HTSpec HTFacts HTFacts2 PropHTFacts IndMama MamaSpec.
Import ListNotations.
Set Implicit Arguments.
Local Open Scope nat_scope.

Section Lines.
  Context {V : Type} {N : Num V}.

  Lemma lmask_delivers (a : line V) (c : bline) v n ka kc f g :
    feeds a n ka f -> bfeeds c n kc g ->
    delivers (lmask a c v) n (Nat.max ka kc) (fun i => if g i then v else f i).
  Proof.
    intros Ha Hc. unfold lmask. rewrite (feeds_mp Ha), (bfeeds_mp Hc).
    replace (Z.max (Z.max (Z.of_nat (S ka)) (Z.of_nat (S kc))) 1) with (Z.of_nat (S (Nat.max ka kc))) by lia.
    cbv zeta. rewrite mp_idx, (@feeds_slice _ a n ka f (Nat.max ka kc) Ha) by lia.
    rewrite (@bfeeds_slice c n kc g (Nat.max ka kc) Hc) by lia.
    rewrite map2_map_seq. rewrite clone_S. unfold bars. rewrite (feeds_len Ha).
    apply delivers_mk; [lia|]. intros i Hi. lia.
  Qed.

  (** _period(-1, val=v): one bar more, holding [v] *)
  Lemma period_back (a : line V) n k f v :
    feeds a n (S k) f ->
    feeds (period_ a (-1) false (Some v)) n k (fun i => if i =? k then v else f i).
  Proof.
    intros (M & L & F). unfold period_. cbn [Z.sub Z.add Z.opp Z.eqb].
    destruct (Z.ltb_spec (lmp a - 1 + -1) (lmp a - 1)); [|lia].
    rewrite M. replace (Z.of_nat (S (S k)) - 1 + -1)%Z with (Z.of_nat k) by lia.
    replace (Z.of_nat (S (S k)) - 1)%Z with (Z.of_nat (S k)) by lia.
    split; [|split]; cbn [lmp lser].
    - lia.
    - unfold set_slice. rewrite !slice_lo_nat, !app_length, firstn_length, repeat_length, skipn_length, L. lia.
    - intros i Hi. rewrite nth_error_set_slice by lia. rewrite L.
      destruct (Nat.ltb_spec i n); [|lia].
      destruct (Nat.leb_spec k i), (Nat.ltb_spec i (S k)), (Nat.eqb_spec i k); cbn [andb]; try lia; try reflexivity.
      apply F; lia.
  Qed.

  (** line._ewm(alpha=al, _seed=SEED_ZERO)._mean(), no span *)
  Lemma ewm_dyn_nospan (a al : line V) n m f g :
    feeds a n (S m) f -> feeds al n (S m) g -> m < n ->
    exists y, ewm_dyn 0 al SEED_ZERO a = Ok y /\
      delivers y n (S m) (fun i => dynv (prep v0) g (fun j => prep (f j)) (S m) (i - m)).
  Proof.
    intros Ha Hal Hm. unfold ewm_dyn. rewrite (feeds_mp Hal).
    set (D := fun i => dynv (prep v0) g (fun j => prep (f j)) (S m) (i - m)).
    destruct (@ewm_call_ok _ _ a n (S m) f 0 0 0 (Z.of_nat (S (S m))) SEED_ZERO
                (dyn_mean (slice_from (lser al) (Z.of_nat (S (S m)) - 1))) 0 m (S m)
                (fun i => if i <=? m then vnan else D i) Ha) as (y & E & M & L); try lia.
    - cbn [Z.eqb negb andb]. reflexivity.
    - cbn [seed_of]. rewrite mp_idx, (@feeds_slice _ al n (S m) g (S m) Hal) by lia.
      unfold dyn_mean. cbn [map]. rewrite map_map, dyn_from_seq. cbn [bind].
      replace (n - m) with (S (n - S m)) by lia. cbn [seq map].
      replace (m <=? m) with true by (symmetry; apply Nat.leb_le; lia). do 2 f_equal.
      apply map_ext_seq. intros i Hi. replace (i <=? m) with false by (symmetry; apply Nat.leb_gt; lia).
      unfold D. f_equal; lia.
    - exists y. split; [exact E|]. apply line_delivers_eq; [exact M|].
      rewrite L. apply map_ext. intro i. fold D.
      destruct (Nat.ltb_spec i m), (Nat.leb_spec i m), (Nat.ltb_spec i (S m)); try lia; reflexivity.
  Qed.

  Lemma ewm_dyn_short (a al : line V) n m f g :
    feeds a n 0 f -> feeds al n (S m) g -> n <= m -> ewm_dyn 1 al SEED_ZERO a = Raise IndexError.
  Proof.
    intros Ha Hal Hm. unfold ewm_dyn, ewm_call. rewrite (feeds_mp Hal).
    rewrite (@mf_ewm_short _ _ a 1 0 0 (Z.of_nat (S (S m))) SEED_ZERO (Z.of_nat (S m)) m); [reflexivity| | | |tauto].
    - cbn [Z.eqb negb andb]. destruct (Z.ltb_spec 1 (Z.of_nat (S (S m)))); lia.
    - rewrite (feeds_mp Ha). lia.
    - now rewrite (feeds_len Ha).
  Qed.
End Lines.

Local Open Scope R_scope.

Section Run.
  Variables (inp : ht_in (ext R)) (n k : nat) (x : nat -> R).
  Hypothesis Hp : priced inp n k x.
  Let s := smooth4 x.
  Let c := the_cycle (k + 12) s.
  Let F0 : feeds (ht_p0 inp) n k (fin x) := @p0_feeds inp n k x Hp.
  Let F6 : feeds (ht_p0smooth (ht_p0 inp)) n (k + 6) (fin s) := smooth_feeds F0.

  Lemma parts_run :
    exists i1 q1,
      applymulti_ (fun price _ => Ok (phasorize price)) (ht_p0smooth (ht_p0 inp))
        [filled (ht_p0smooth (ht_p0 inp)) v0; filled (ht_p0smooth (ht_p0 inp)) v0] = Ok [i1; q1] /\
      delivers i1 n (k + 6) (fin (c_i1 c)) /\ delivers q1 n (k + 6) (fin (c_q1 c)).
  Proof.
    destruct (@apply_two _ _ (fun price _ => Ok (phasorize price)) (ht_p0smooth (ht_p0 inp))
                [filled (ht_p0smooth (ht_p0 inp)) v0; filled (ht_p0smooth (ht_p0 inp)) v0] _ _ _
                (late (k + 6 + 6) (fin (c_i1 c)))
                (late (k + 6 + 6) (fin (c_q1 c))) F6) as (y1 & y2 & E & D1 & D2).
    { intros b [<-|[<-|[]]]; cbn; lia. }
    { f_equal. unfold phasorize. cbv zeta. rewrite skipn_map_seq.
      rewrite ht0_fin. change rht0 with (hst (k + 12) s 0).
      replace (k + 6 + 6)%nat with (k + 12 + 0)%nat by lia.
      rewrite phasor_run by lia. replace (k + 12 + 0)%nat with (k + 6 + 6)%nat by lia.
      rewrite !map_map. cbn [fst snd]. fold c.
      change (map (fun i => fin (c_i1 c) i)) with (map (fin (c_i1 c))).
      change (map (fun i => fin (c_q1 c) i)) with (map (fin (c_q1 c))).
      rewrite !buffered_seq. unfold late. reflexivity. }
    assert (H1 : (1 <= k + 12)%nat) by lia.
    pose proof (cy_zero (@the_cycle_ok (k + 12) s H1)) as Z. fold c in Z.
    exists y1, y2. split; [exact E|].
    split; [eapply delivers_ext; [|exact D1]|eapply delivers_ext; [|exact D2]]; intros i Hi; unfold late;
      destruct (Nat.ltb_spec i (k + 6 + 6)) as [C|C]; try reflexivity;
      destruct (Z i ltac:(lia)) as (_ & Z1 & Z2 & _); unfold fin; now rewrite ?Z1, ?Z2.
  Qed.

  Lemma phase_line i1 q1 :
    feeds i1 n (k + 6) (fin (c_i1 c)) -> feeds q1 n (k + 6) (fin (c_q1 c)) ->
    feeds (mama_phase i1 q1) n (k + 11) (fin (phasor_angle c)).
  Proof.
    intros H1 H2. unfold mama_phase. cbv zeta.
    pose proof (@period_feeds _ _ _ _ _ _ 6 H2) as H3. change (Z.of_nat 6) with 6%Z in H3.
    pose proof (cmpop_s_bdelivers veqb v0 H1) as B. apply bdelivers_bfeeds in B.
    pose proof (delivers_feeds (@lmask_delivers _ _ _ _ v0 _ _ _ _ _ H3 B)) as H4.
    pose proof (delivers_feeds (@binop_delivers _ _ vdiv _ _ _ _ _ _ _ H4 H1)) as H5.
    pose proof (delivers_feeds (@mapop_delivers _ _ vatan _ _ _ _ H5)) as H6.
    pose proof (delivers_feeds (@mapop_delivers _ _ (fun x => if visnan x then v0 else x) _ _ _ _ H6)) as H7.
    pose proof (delivers_feeds (@rbinop_s_delivers _ _ vmul _ RAD2DEG _ _ _ H7)) as H8.
    replace (Nat.max (Nat.max (k + 6 + 6) (k + 6)) (k + 6)) with (S (k + 11)) in H8 by lia.
    apply period_back with (v := v0) in H8.
    eapply feeds_ext; [|exact H8]. intros i Hi. cbv beta.
    assert (G1 : (1 <= k + 12)%nat) by lia.
    pose proof (cy_zero (@the_cycle_ok (k + 12) s G1)) as Z. fold c in Z.
    unfold fin, phasor_angle.
    destruct (Nat.eqb_spec i (k + 11)) as [->|Hne].
    - destruct (Z (k + 11)%nat ltac:(lia)) as (_ & -> & _). destruct (Req_EM_T 0 0); [reflexivity|congruence].
    - rewrite v0_fin, veqb_fin, rad2deg_fin.
      destruct (Req_EM_T (c_i1 c i) 0) as [E|E].
      + rewrite E. destruct (beqb_spec 0 0) as [_|X]; [|congruence].
        rewrite vdiv_quot, quot_00. cbn. f_equal. lra.
      + destruct (beqb_spec (c_i1 c i) 0) as [X|_]; [congruence|].
        rewrite vdiv_quot, quot_fin by exact E.
        change (vatan (Fin (c_q1 c i / c_i1 c i))) with (Fin (atan (c_q1 c i / c_i1 c i))).
        rewrite visnan_fin, vmul_fin. reflexivity.
  Qed.

  Lemma alpha_line fast slow p :
    feeds p n (k + 11) (fin (phasor_angle c)) ->
    feeds (mama_alpha (Fin fast) (Fin slow) p) n (k + 12) (fin (mama_weight fast slow c)).
  Proof.
    intro H. unfold mama_alpha. cbv zeta.
    pose proof (delivers_feeds (@ago_fin n _ _ _ 1 H (le_n 1))) as A1. change (- Z.of_nat 1)%Z with (-1)%Z in A1.
    pose proof (delivers_feeds (lsub_fin A1 H)) as A2.
    rewrite v1_fin. pose proof (delivers_feeds (lclip_lo_fin 1 A2)) as A3.
    replace (Nat.max (k + 11 + 1) (k + 11)) with (k + 12)%nat in A3 by lia.
    pose proof (delivers_feeds (@rbinop_s_delivers _ _ vdiv _ (Fin fast) _ _ _ A3)) as A4.
    assert (A5 : feeds (rbinop_s vdiv (Fin fast)
       (lclip_lo (lsub (at_ago p (-1)) p) (Fin 1))) n (k + 12)
       (fin (fun i => fast / Rmax (phasor_angle c (i - 1)%nat - phasor_angle c i) 1))).
    { eapply feeds_ext; [|exact A4]. intros i Hi. cbv beta. unfold fin. rewrite vdiv_quot, quot_fin; [reflexivity|].
      pose proof (Rmax_r (phasor_angle c (i - 1)%nat - phasor_angle c i) 1). lra. }
    exact (delivers_feeds (lclip_lo_fin slow A5)).
  Qed.
End Run.

(** ** the two averages *)
Fixpoint mst (fast slow : R) (x : nat -> R) (c : cycle) (start d : nat) : R * R :=
  match d with
  | 0%nat => (0, 0)
  | S d' =>
      let i := (start + d')%nat in
      let '(m, f) := mst fast slow x c start d' in
      let m' := m + mama_weight fast slow c i * (x i - m) in
      (m', f + mama_weight fast slow c i / 2 * (m' - f))
  end.

Lemma mst_ok fast slow x c start : (1 <= start)%nat ->
  is_mama fast slow start x c (fun i => fst (mst fast slow x c start (S i - start)))
    (fun i => snd (mst fast slow x c start (S i - start))).
Proof.
  intro H. split.
  - replace (S (start - 1) - start)%nat with 0%nat by lia. split; reflexivity.
  - intros i Hi. replace (S i - start)%nat with (S (i - start)) by lia.
    replace (S (i - 1) - start)%nat with (i - start)%nat by lia. cbn [mst].
    replace (start + (i - start))%nat with i by lia. destruct (mst _ _ _ _ _ (i - start)). reflexivity.
  - intros i Hi. replace (S i - start)%nat with (S (i - start)) by lia.
    replace (S (i - 1) - start)%nat with (i - start)%nat by lia. cbn [mst].
    replace (start + (i - start))%nat with i by lia. destruct (mst _ _ _ _ _ (i - start)). reflexivity.
Qed.

Lemma dynv_m fast slow x c start d :
  dynv (prep v0) (fin (mama_weight fast slow c)) (fun j => prep (fin x j)) start d =
  Fin (fst (mst fast slow x c start d)).
Proof.
  induction d as [|d IH]; [cbn [dynv mst fst]; rewrite v0_fin; reflexivity|].
  cbn [dynv mst]. rewrite IH. destruct (mst fast slow x c start d) as [m f]. cbn [fst].
  unfold fin. rewrite prep_fin, vsub_fin, vmul_fin, vadd_fin. reflexivity.
Qed.
Lemma dynv_f fast slow x c start d :
  dynv (prep v0) (fin (fun i => mama_weight fast slow c i * (1 / 2)))
    (fun j => prep (fin (fun i => fst (mst fast slow x c start (S i - start))) j)) start d =
  Fin (snd (mst fast slow x c start d)).
Proof.
  induction d as [|d IH]; [cbn [dynv mst snd]; rewrite v0_fin; reflexivity|].
  cbn [dynv]. rewrite IH. unfold fin. replace (S (start + d) - start)%nat with (S d) by lia.
  cbn [mst]. destruct (mst fast slow x c start d) as [m f]. cbn [fst snd].
  rewrite prep_fin, vsub_fin, vmul_fin, vadd_fin. do 2 f_equal. unfold Rdiv. ring.
Qed.

Lemma mama_run inp n x fast slow :
  priced inp n 0 x -> (12 <= n)%nat ->
  exists ym yf c m f, mama (Fin fast) (Fin slow) inp = Ok (ym, yf) /\
    is_cycle 12 (smooth4 x) c /\ is_mama fast slow 12 x c m f /\
    delivers ym n 32 (fin m) /\ delivers yf n 32 (fin f).
Proof.
  intros P Hn. pose proof (@p0_feeds inp n 0 x P) as F0.
  destruct (@parts_run inp n 0 x P) as (i1 & q1 & E & D1 & D2).
  pose proof (@phase_line n 0 x i1 q1 (delivers_feeds D1) (delivers_feeds D2)) as PH.
  pose proof (@alpha_line n 0 x fast slow _ PH) as AL. cbn [Nat.add] in AL.
  set (c := the_cycle 12 (smooth4 x)) in *.
  destruct (@ewm_dyn_delivers _ _ _ _ n 11 1 SEED_ZERO _ _ F0 AL) as (ym & Em & Dm); [lia|lia|].
  cbn [seed_of] in Dm. change (Z.of_nat 1) with 1%Z in Em.
  assert (Dm' : delivers ym n 12 (fin (fun i => fst (mst fast slow x c 12 (S i - 12))))).
  { eapply delivers_ext; [|exact Dm]. intros i Hi. cbv beta.
    rewrite dynv_m. reflexivity. }
  assert (AL2 : feeds (binop_s vmul (mama_alpha (Fin fast) (Fin slow) (mama_phase i1 q1)) (vofQ (1 # 2))) n 12
                  (fin (fun i => mama_weight fast slow c i * (1 / 2)))).
  { rewrite lit_fin. exact (delivers_feeds (muls_fin (1 / 2) AL)). }
  destruct (@ewm_dyn_nospan _ _ _ _ n 11 _ _ (delivers_feeds Dm') AL2) as (yf & Ef & Df); [lia|].
  assert (Df' : delivers yf n 12 (fin (fun i => snd (mst fast slow x c 12 (S i - 12))))).
  { eapply delivers_ext; [|exact Df]. intros i Hi. cbv beta.
    rewrite dynv_f. reflexivity. }
  eexists _, _, c, _, _. split; [|split; [|split; [|split]]].
  - unfold mama. cbv zeta. rewrite E. cbn [bind]. rewrite Em. cbn [bind]. rewrite Ef. cbn [bind]. reflexivity.
  - apply the_cycle_ok. lia.
  - apply mst_ok. lia.
  - exact (@period_nan_delivers _ _ ym n 12 _ 20 ltac:(lia) Dm').
  - exact (@period_nan_delivers _ _ yf n 12 _ 20 ltac:(lia) Df').
Qed.

Lemma mama_short inp n x fast slow :
  priced inp n 0 x -> (n < 12)%nat -> mama (Fin fast) (Fin slow) inp = Raise IndexError.
Proof.
  intros P Hn. pose proof (@p0_feeds inp n 0 x P) as F0.
  destruct (@parts_run inp n 0 x P) as (i1 & q1 & E & D1 & D2).
  pose proof (@phase_line n 0 x i1 q1 (delivers_feeds D1) (delivers_feeds D2)) as PH.
  pose proof (@alpha_line n 0 x fast slow _ PH) as AL. cbn [Nat.add] in AL.
  unfold mama. cbv zeta. rewrite E. cbn [bind].
  rewrite (@ewm_dyn_short _ _ _ _ n 11 _ _ F0 AL) by lia. reflexivity.
Qed.

Lemma mama_chained inp n k x fast slow :
  priced inp n k x -> (1 <= k)%nat -> mama (Fin fast) (Fin slow) inp = Raise IndexError.
Proof.
  intros P Hk. pose proof (@p0_feeds inp n k x P) as F0.
  destruct (@parts_run inp n k x P) as (i1 & q1 & E & D1 & D2).
  pose proof (@phase_line n k x i1 q1 (delivers_feeds D1) (delivers_feeds D2)) as PH.
  pose proof (@alpha_line n k x fast slow _ PH) as AL.
  unfold mama. cbv zeta. rewrite E. cbn [bind]. change 1%Z with (Z.of_nat 1).
  rewrite (@ewm_dyn_chained _ _ _ _ n k (k + 12) 1 SEED_ZERO _ _ F0 AL) by lia. reflexivity.
Qed.

(** ** limits *)
Lemma weight_range fast slow c i : 0 <= fast -> slow <= fast -> slow <= mama_weight fast slow c i <= fast.
Proof.
  intros Hf Hs. unfold mama_weight. set (d := Rmax _ 1).
  assert (1 <= d) by apply Rmax_r. split; [apply Rmax_r|]. apply Rmax_lub; [|exact Hs].
  apply Rmult_le_reg_r with d; [lra|]. unfold Rdiv. rewrite Rmult_assoc, Rinv_l by lra. nra.
Qed.

Section Limits.
  Variables (fast slow : R) (start : nat) (x : nat -> R) (c : cycle) (m f : nat -> R).
  Hypothesis H : is_mama fast slow start x c m f.
  Hypothesis Hstart : (1 <= start)%nat.
  Hypothesis Hlim : 0 <= slow <= fast /\ fast <= 1.

  Lemma mama_ind (P : nat -> R -> R -> Prop) :
    P 0%nat 0 0 ->
    (forall d a u v, slow <= a <= fast -> P d u v ->
       P (S d) (u + a * (x (start + d)%nat - u)) (v + a / 2 * (u + a * (x (start + d)%nat - u) - v))) ->
    forall i, (start - 1 <= i)%nat -> P (S i - start)%nat (m i) (f i).
  Proof.
    intros P0 PS. assert (G : forall d, P d (m (start + d - 1)%nat) (f (start + d - 1)%nat)).
    { induction d as [|d IH].
      - rewrite Nat.add_0_r. destruct (mm_seed H) as [-> ->]. exact P0.
      - replace (start + S d - 1)%nat with (start + d)%nat by lia.
        rewrite (mf_next H), (mm_next H) by lia.
        apply PS; [apply weight_range; lra|exact IH]. }
    intros i Hi. specialize (G (S i - start)%nat). replace (start + (S i - start) - 1)%nat with i in G by lia. exact G.
  Qed.

  Lemma mama_range lo hi : lo <= 0 <= hi -> (forall i, (start <= i)%nat -> lo <= x i <= hi) ->
    forall i, (start - 1 <= i)%nat -> lo <= m i <= hi /\ lo <= f i <= hi.
  Proof.
    intros H0 HX. apply (mama_ind (fun _ u v => lo <= u <= hi /\ lo <= v <= hi)); [lra|].
    intros d a u v Ha [Hu Hv]. pose proof (HX (start + d)%nat ltac:(lia)) as Hx.
    assert (G : lo <= u + a * (x (start + d)%nat - u) <= hi) by (split; nra).
    split; [exact G|]. set (w := u + _) in *. split; nra.
  Qed.

  (** how far the start from 0 still weighs *)
  Lemma mama_floor lo : 0 <= lo -> (forall i, (start <= i)%nat -> lo <= x i) ->
    forall i, (start - 1 <= i)%nat -> lo * (1 - (1 - slow) ^ (S i - start)) <= m i.
  Proof.
    intros H0 HX. apply (mama_ind (fun d u _ => lo * (1 - (1 - slow) ^ d) <= u)); [cbn; lra|].
    intros d a u v Ha Hu. pose proof (HX (start + d)%nat ltac:(lia)) as Hx.
    assert (B : 0 <= (1 - slow) ^ d) by (apply pow_le; lra). cbn [pow].
    assert (G : lo - (u + a * (x (start + d)%nat - u)) <= (1 - a) * (lo - u)) by nra.
    assert (G2 : (1 - a) * (lo - u) <= (1 - slow) * (lo * (1 - slow) ^ d)).
    { apply Rle_trans with ((1 - a) * (lo * (1 - slow) ^ d)); [apply Rmult_le_compat_l; lra|].
      apply Rmult_le_compat_r; [|lra]. apply Rmult_le_pos; lra. }
    nra.
  Qed.

  Lemma mama_below_constant v : 0 < v -> fast < 1 -> (forall i, (start <= i)%nat -> x i = v) ->
    forall i, (start - 1 <= i)%nat -> m i < v /\ f i < v.
  Proof.
    intros H0 Hf HX. apply (mama_ind (fun _ u w => u < v /\ w < v)); [lra|].
    intros d a u w Ha [Hu Hw]. rewrite HX by lia.
    assert (G : u + a * (v - u) < v) by nra. split; [exact G|]. set (z := u + _) in *. nra.
  Qed.
End Limits.

(** ** no look-ahead *)
Lemma angle_eq start s s' c c' q :
  (1 <= start)%nat -> is_cycle start s c -> is_cycle start s' c' ->
  (forall i, (i <= q)%nat -> s i = s' i) ->
  forall i, (i <= q)%nat -> phasor_angle c i = phasor_angle c' i.
Proof.
  intros Hs C C' E i Hi. destruct (cycle_prefix Hs C C' E Hi) as (_ & E1 & E2 & _).
  unfold phasor_angle. now rewrite E1, E2.
Qed.
Lemma is_mama_eq fast slow start x x' c c' m m' f f' q :
  (1 <= start)%nat -> is_mama fast slow start x c m f -> is_mama fast slow start x' c' m' f' ->
  (forall i, (i <= q)%nat -> x i = x' i) -> (forall i, (i <= q)%nat -> phasor_angle c i = phasor_angle c' i) ->
  forall i, (start - 1 <= i <= q)%nat -> m i = m' i /\ f i = f' i.
Proof.
  intros Hs M M' EX EA i [H1 H2]. replace i with (start - 1 + (i - (start - 1)))%nat in * by lia.
  induction (i - (start - 1))%nat as [|d IH].
  - rewrite Nat.add_0_r. destruct (mm_seed M) as [-> ->], (mm_seed M') as [-> ->]. split; reflexivity.
  - destruct IH as [I1 I2]; [lia|lia|].
    rewrite (mf_next M), (mf_next M'), (mm_next M), (mm_next M') by lia.
    replace (start - 1 + S d - 1)%nat with (start - 1 + d)%nat by lia.
    assert (W : mama_weight fast slow c (start - 1 + S d) = mama_weight fast slow c' (start - 1 + S d)).
    { unfold mama_weight. rewrite !EA by lia. reflexivity. }
    rewrite W, I1, I2, EX by lia. split; reflexivity.
Qed.

Lemma mama_prefix inp inp' n n' x x' fast slow q y y' :
  priced inp n 0 x -> priced inp' n' 0 x' -> (forall i, (i <= q)%nat -> x i = x' i) ->
  mama (Fin fast) (Fin slow) inp = Ok y -> mama (Fin fast) (Fin slow) inp' = Ok y' ->
  agree (fst y) (fst y') q /\ agree (snd y) (snd y') q.
Proof.
  intros P P' E R R'.
  destruct (le_lt_dec 12 n) as [Hn|Hn]; [|rewrite (@mama_short inp n x fast slow P Hn) in R; discriminate].
  destruct (le_lt_dec 12 n') as [Hn'|Hn']; [|rewrite (@mama_short inp' n' x' fast slow P' Hn') in R'; discriminate].
  destruct (@mama_run inp n x fast slow P Hn) as (ym & yf & c & m & f & R1 & C & M & D1 & D2).
  destruct (@mama_run inp' n' x' fast slow P' Hn') as (ym' & yf' & c' & m' & f' & R1' & C' & M' & D1' & D2').
  rewrite R1 in R. inversion R; subst. rewrite R1' in R'. inversion R'; subst. cbn [fst snd].
  assert (H12 : (1 <= 12)%nat) by lia.
  pose proof (@angle_eq 12 (smooth4 x) (smooth4 x') c c' q H12 C C' (@smooth4_eq x x' q E)) as A.
  pose proof (@is_mama_eq fast slow 12 x x' c c' m m' f f' q H12 M M' E A) as Q.
  split; eapply agree_of; eauto; intros i Hi; unfold fin; f_equal; apply Q; lia.
Qed.

Lemma mama_constant inp n v fast slow :
  priced inp n 0 (fun _ => v) -> (12 <= n)%nat ->
  0 < v -> 0 <= slow <= fast /\ fast <= 1 -> fast < 1 ->
  exists ym yf m f, mama (Fin fast) (Fin slow) inp = Ok (ym, yf) /\
    delivers ym n 32 (fin m) /\ delivers yf n 32 (fin f) /\
    forall i, (32 <= i)%nat -> m i < v /\ f i < v.
Proof.
  intros P Hn Hv Hl Hf. destruct (@mama_run inp n _ fast slow P Hn) as (ym & yf & c & m & f & E & _ & M & D1 & D2).
  exists ym, yf, m, f. split; [exact E|]. split; [exact D1|]. split; [exact D2|].
  intros i Hi. assert (H1 : (1 <= 12)%nat) by lia.
  apply (@mama_below_constant fast slow 12 (fun _ => v) c m f M H1 Hl v Hv Hf); [reflexivity|lia].
Qed.
