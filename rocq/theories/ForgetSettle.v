(** The exponential averages and what is built linearly on them settle. *)
From Coq Require Import ZArith QArith List Bool Lia Arith Reals Lra Psatz.
From Verif Require Import Num Series Line Spec RSpec BoundSpec RangeSpec LineFacts ScanFacts RFacts OpFacts
  IndMA MAFacts RLineFacts IndBasic BasicFacts BoundFacts IndRange RangeFacts VolSpec IndVol VolFacts PropVolFacts PropLinesFacts
  ForgetSpec ForgetFacts.
Import ListNotations.
Set Implicit Arguments.
Local Open Scope R_scope.

Lemma ema_step p lo hi eps : (1 <= p)%nat -> lo <= hi -> 0 < eps ->
  exists m, forall k n d s dl x x' e e',
    near k n d s dl lo hi x x' -> is_ema p k x e -> is_ema p k x' e' -> 0 <= dl ->
    near (k + (p - 1)) n d (s + m) (dl + eps) lo hi e e'.
Proof.
  intros Hp Hlh He. destruct (steps_enough (ema_factor Hp) (B := hi - lo) ltac:(lra) He) as [m Hm].
  exists m. intros k n d s dl x x' e e' Hn H H' Hd.
  replace (k + (p - 1))%nat with (k + p - 1)%nat by lia. exact (near_ema m Hp Hn H H' Hd Hlh Hm).
Qed.
Lemma smma_step p lo hi eps : (1 <= p)%nat -> lo <= hi -> 0 < eps ->
  exists m, forall k n d s dl x x' e e',
    near k n d s dl lo hi x x' -> is_smma p k x e -> is_smma p k x' e' -> 0 <= dl ->
    near (k + (p - 1)) n d (s + m) (dl + eps) lo hi e e'.
Proof.
  intros Hp Hlh He. destruct (steps_enough (smma_factor Hp) (B := hi - lo) ltac:(lra) He) as [m Hm].
  exists m. intros k n d s dl x x' e e' Hn H H' Hd.
  replace (k + (p - 1))%nat with (k + p - 1)%nat by lia. exact (near_smma m Hp Hn H H' Hd Hlh Hm).
Qed.

Lemma near_start (k d n : nat) lo hi (x : nat -> R) :
  (forall j, (k <= j < d + n)%nat -> lo <= x j <= hi) ->
  near k n d 0 0 lo hi x (fun i => x (d + i)%nat).
Proof.
  intro H. split; [exact H|]. split.
  - intros j Hj. apply H. lia.
  - intros i Hi. rewrite Rminus_diag_eq by reflexivity. rewrite Rabs_R0. lra.
Qed.

Lemma near_end K n d s dl lo hi v v' eps (y y' : lineR) M i :
  near K n d s dl lo hi v v' -> dl <= eps ->
  delivers y (d + n) K (fin v) -> delivers y' n K (fin v') ->
  (K + s <= M <= i)%nat -> (i < n)%nat ->
  exists w w', nth_error (lser y) (d + i) = Some (Fin w) /\
               nth_error (lser y') i = Some (Fin w') /\ Rabs (w' - w) <= eps.
Proof.
  intros (_ & _ & C) Hd [(_ & _ & F) _] [(_ & _ & F') _] HM Hi.
  exists (v (d + i)%nat), (v' i). split; [apply F; lia|]. split; [apply F'; lia|].
  eapply Rle_trans; [apply C; lia|exact Hd].
Qed.

(** the tolerance can be split; a range with [hi < lo] holds no prices *)
Lemma settles_range (f : lineR -> res lineR) :
  (forall lo hi eps, 0 < eps -> lo <= hi ->
   exists M : nat, forall (a a' : lineR) (d n k : nat) (x : nat -> R),
    feeds a (d + n) k (fin x) ->
    feeds a' n k (fin (fun i => x (d + i)%nat)) ->
    (forall j, (k <= j < d + n)%nat -> lo <= x j <= hi) ->
    (k + M <= n)%nat ->
    exists y y', f a = Ok y /\ f a' = Ok y' /\
      forall i, (k + M <= i < n)%nat ->
      exists v v', nth_error (lser y) (d + i) = Some (Fin v) /\
                   nth_error (lser y') i = Some (Fin v') /\ Rabs (v' - v) <= eps) ->
  settles f.
Proof.
  intros H lo hi eps He. destruct (Rle_dec lo hi) as [Hlh|Hlh]; [exact (H lo hi eps He Hlh)|].
  exists 1%nat. intros a a' d n k x _ _ Hx Hk. specialize (Hx k ltac:(lia)). lra.
Qed.

Lemma ema_settles p : (1 <= p)%nat -> settles (ema p).
Proof.
  intro Hp. apply settles_range. intros lo hi eps He Hlh.
  destruct (ema_step Hp Hlh He) as [m Hm].
  exists (p + m)%nat. intros a a' d n k x Ha Ha' Hx Hn.
  destruct (ema_fin Ha Hp) as (y & e & E & S & D); [lia|].
  destruct (ema_fin Ha' Hp) as (y' & e' & E' & S' & D'); [lia|].
  exists y, y'. split; [exact E|]. split; [exact E'|]. intros i Hi.
  specialize (Hm k n d 0%nat 0 x (fun i => x (d + i)%nat) e e' (@near_start k d n lo hi x Hx) S S' (Rle_refl 0)).
  replace (k + (p - 1))%nat with (k + p - 1)%nat in Hm by lia.
  refine (near_end (M := (k + (p + m))%nat) Hm _ D D' _ _); [lra|lia|lia].
Qed.
Lemma smma_settles p : (1 <= p)%nat -> settles (smma p).
Proof.
  intro Hp. apply settles_range. intros lo hi eps He Hlh.
  destruct (smma_step Hp Hlh He) as [m Hm].
  exists (p + m)%nat. intros a a' d n k x Ha Ha' Hx Hn.
  destruct (smma_fin Ha Hp) as (y & e & E & S & D); [lia|].
  destruct (smma_fin Ha' Hp) as (y' & e' & E' & S' & D'); [lia|].
  exists y, y'. split; [exact E|]. split; [exact E'|]. intros i Hi.
  specialize (Hm k n d 0%nat 0 x (fun i => x (d + i)%nat) e e' (@near_start k d n lo hi x Hx) S S' (Rle_refl 0)).
  replace (k + (p - 1))%nat with (k + p - 1)%nat in Hm by lia.
  refine (near_end (M := (k + (p + m))%nat) Hm _ D D' _ _); [lra|lia|lia].
Qed.

(** a linear combination of two near pairs *)
Lemma near_lin c1 c2 k n d s dl1 dl2 lo1 hi1 lo2 hi2 x x' z z' :
  near k n d s dl1 lo1 hi1 x x' -> near k n d s dl2 lo2 hi2 z z' ->
  exists lo hi, near k n d s (Rabs c1 * dl1 + Rabs c2 * dl2) lo hi
    (fun i => c1 * x i + c2 * z i) (fun i => c1 * x' i + c2 * z' i).
Proof.
  intros H1 H2. do 2 eexists. exact (near_add (near_scale c1 H1) (near_scale c2 H2)).
Qed.

Lemma dema_settles p : (1 <= p)%nat -> settles (dema ema p).
Proof.
  intro Hp. apply settles_range. intros lo hi eps He Hlh.
  destruct (ema_step Hp Hlh (eps := eps / 4) ltac:(lra)) as [m Hm].
  exists (2 * p + 2 * m)%nat. intros a a' d n k x Ha Ha' Hx Hn.
  destruct (dema_fin Ha Hp) as (y & e1 & e2 & E & S1 & S2 & D); [lia|].
  destruct (dema_fin Ha' Hp) as (y' & f1 & f2 & E' & S1' & S2' & D'); [lia|].
  exists y, y'. split; [exact E|]. split; [exact E'|]. intros i Hi.
  pose proof (Hm _ _ _ _ _ _ _ _ _ (@near_start k d n lo hi x Hx) S1 S1' (Rle_refl 0)) as N1.
  pose proof (Hm _ _ _ _ _ _ _ _ _ N1 S2 S2' ltac:(lra)) as N2.
  replace (k + (p - 1) + (p - 1))%nat with (k + 2 * (p - 1))%nat in N2 by lia.
  apply near_weak with (k' := (k + 2 * (p - 1))%nat) (s' := (0 + m + m)%nat) (dl' := 0 + eps / 4) in N1; try lia; try lra.
  destruct (near_lin 2 (-1) N1 N2) as (lo' & hi' & N).
  rewrite (Rabs_pos_eq 2), (Rabs_left (-1)) in N by lra.
  refine (near_end (M := (k + (2 * p + 2 * m))%nat) (v := fun i => 2 * e1 i - e2 i)
            (v' := fun i => 2 * f1 i - f2 i) (near_ext _ _ N _ _) _ D D' _ _); try lia.
  - intros; ring.
  - intros; ring.
  - lra.
Qed.

Lemma tema_settles p : (1 <= p)%nat -> settles (tema ema p).
Proof.
  intro Hp. apply settles_range. intros lo hi eps He Hlh.
  destruct (ema_step Hp Hlh (eps := eps / 12) ltac:(lra)) as [m Hm].
  exists (3 * p + 3 * m)%nat. intros a a' d n k x Ha Ha' Hx Hn.
  destruct (tema_fin Ha Hp) as (y & e1 & e2 & e3 & E & S1 & S2 & S3 & D); [lia|].
  destruct (tema_fin Ha' Hp) as (y' & f1 & f2 & f3 & E' & S1' & S2' & S3' & D'); [lia|].
  exists y, y'. split; [exact E|]. split; [exact E'|]. intros i Hi.
  pose proof (Hm _ _ _ _ _ _ _ _ _ (@near_start k d n lo hi x Hx) S1 S1' (Rle_refl 0)) as N1.
  pose proof (Hm _ _ _ _ _ _ _ _ _ N1 S2 S2' ltac:(lra)) as N2.
  replace (k + (p - 1) + (p - 1))%nat with (k + 2 * (p - 1))%nat in N2 by lia.
  pose proof (Hm _ _ _ _ _ _ _ _ _ N2 S3 S3' ltac:(lra)) as N3.
  replace (k + 2 * (p - 1) + (p - 1))%nat with (k + 3 * (p - 1))%nat in N3 by lia.
  apply near_weak with (k' := (k + 3 * (p - 1))%nat) (s' := (0 + m + m + m)%nat) (dl' := eps / 12) in N1; try lia; try lra.
  apply near_weak with (k' := (k + 3 * (p - 1))%nat) (s' := (0 + m + m + m)%nat) (dl' := eps / 6) in N2; try lia; try lra.
  destruct (near_lin 3 (-3) N1 N2) as (lo' & hi' & N).
  destruct (near_lin 1 1 N N3) as (lo2 & hi2 & N4). clear N.
  rewrite (Rabs_pos_eq 3), (Rabs_left (-3)), Rabs_R1 in N4 by lra.
  refine (near_end (M := (k + (3 * p + 3 * m))%nat) (v := fun i => 3 * e1 i - 3 * e2 i + e3 i)
            (v' := fun i => 3 * f1 i - 3 * f2 i + f3 i) (near_ext _ _ N4 _ _) _ D D' _ _); try lia.
  - intros; ring.
  - intros; ring.
  - lra.
Qed.

Lemma t3_settles p v : (1 <= p)%nat -> settles (t3 p (Fin v)).
Proof.
  intro Hp. apply settles_range. intros lo hi eps He Hlh.
  set (c6 := - v ^ 3). set (c5 := 3 * v ^ 2 + 3 * v ^ 3).
  set (c4 := - 6 * v ^ 2 - 3 * v - 3 * v ^ 3). set (c3 := 1 + 3 * v + v ^ 3 + 3 * v ^ 2).
  set (C := Rabs c6 + Rabs c5 + Rabs c4 + Rabs c3).
  assert (HC : 0 <= C).
  { unfold C. pose proof (Rabs_pos c6). pose proof (Rabs_pos c5). pose proof (Rabs_pos c4).
    pose proof (Rabs_pos c3). lra. }
  set (e0 := eps / (6 * (C + 1))).
  assert (He0 : 0 < e0) by (apply Rdiv_lt_0_compat; lra).
  assert (HCe : C * (6 * e0) <= eps).
  { assert (E : (C + 1) * (6 * e0) = eps) by (unfold e0; field; lra). nra. }
  destruct (ema_step Hp Hlh He0) as [m Hm].
  exists (6 * p + 6 * m)%nat. intros a a' d n k x Ha Ha' Hx Hn.
  destruct (t3_fin v Ha Hp) as (y & e1 & e2 & e3 & e4 & e5 & e6 & E & S1 & S2 & S3 & S4 & S5 & S6 & D); [lia|].
  destruct (t3_fin v Ha' Hp) as (y' & f1 & f2 & f3 & f4 & f5 & f6 & E' & S1' & S2' & S3' & S4' & S5' & S6' & D'); [lia|].
  exists y, y'. split; [exact E|]. split; [exact E'|]. intros i Hi.
  pose proof (Hm _ _ _ _ _ _ _ _ _ (@near_start k d n lo hi x Hx) S1 S1' (Rle_refl 0)) as N1.
  pose proof (Hm _ _ _ _ _ _ _ _ _ N1 S2 S2' ltac:(lra)) as N2.
  replace (k + (p - 1) + (p - 1))%nat with (k + 2 * (p - 1))%nat in N2 by lia.
  pose proof (Hm _ _ _ _ _ _ _ _ _ N2 S3 S3' ltac:(lra)) as N3.
  replace (k + 2 * (p - 1) + (p - 1))%nat with (k + 3 * (p - 1))%nat in N3 by lia.
  pose proof (Hm _ _ _ _ _ _ _ _ _ N3 S4 S4' ltac:(lra)) as N4.
  replace (k + 3 * (p - 1) + (p - 1))%nat with (k + 4 * (p - 1))%nat in N4 by lia.
  pose proof (Hm _ _ _ _ _ _ _ _ _ N4 S5 S5' ltac:(lra)) as N5.
  replace (k + 4 * (p - 1) + (p - 1))%nat with (k + 5 * (p - 1))%nat in N5 by lia.
  pose proof (Hm _ _ _ _ _ _ _ _ _ N5 S6 S6' ltac:(lra)) as N6.
  replace (k + 5 * (p - 1) + (p - 1))%nat with (k + 6 * (p - 1))%nat in N6 by lia.
  apply near_weak with (k' := (k + 6 * (p - 1))%nat) (s' := (6 * m)%nat) (dl' := 6 * e0) in N3; try lia; try lra.
  apply near_weak with (k' := (k + 6 * (p - 1))%nat) (s' := (6 * m)%nat) (dl' := 6 * e0) in N4; try lia; try lra.
  apply near_weak with (k' := (k + 6 * (p - 1))%nat) (s' := (6 * m)%nat) (dl' := 6 * e0) in N5; try lia; try lra.
  apply near_weak with (k' := (k + 6 * (p - 1))%nat) (s' := (6 * m)%nat) (dl' := 6 * e0) in N6; try lia; try lra.
  destruct (near_lin c6 c5 N6 N5) as (lo1 & hi1 & Na).
  destruct (near_lin c4 c3 N4 N3) as (lo2 & hi2 & Nb).
  pose proof (near_add Na Nb) as N.
  refine (near_end (M := (k + (6 * p + 6 * m))%nat) (near_ext _ _ N _ _) _ D D' _ _); try lia.
  - intros; cbv beta; unfold c6, c5, c4, c3; ring.
  - intros; cbv beta; unfold c6, c5, c4, c3; ring.
  - unfold C in HCe. lra.
Qed.

Lemma macd_settles pf ps pg : (1 <= pf <= ps)%nat -> (1 <= pg)%nat ->
  settles (fun a => bind (macd ema ema pf ps pg a) (fun t => Ok (fst (fst t)))) /\
  settles (fun a => bind (macd ema ema pf ps pg a) (fun t => Ok (snd (fst t)))) /\
  settles (fun a => bind (macd ema ema pf ps pg a) (fun t => Ok (snd t))).
Proof.
  intros Hps Hpg.
  enough (H : forall lo hi eps, 0 < eps -> lo <= hi ->
    exists M : nat, forall (a a' : lineR) (d n k : nat) (x : nat -> R),
    feeds a (d + n) k (fin x) ->
    feeds a' n k (fin (fun i => x (d + i)%nat)) ->
    (forall j, (k <= j < d + n)%nat -> lo <= x j <= hi) ->
    (k + M <= n)%nat ->
    exists m sg h m' sg' h', macd ema ema pf ps pg a = Ok (m, sg, h) /\ macd ema ema pf ps pg a' = Ok (m', sg', h') /\
      forall i, (k + M <= i < n)%nat ->
      (exists v v', nth_error (lser m) (d + i) = Some (Fin v) /\
                   nth_error (lser m') i = Some (Fin v') /\ Rabs (v' - v) <= eps) /\
      (exists v v', nth_error (lser sg) (d + i) = Some (Fin v) /\
                   nth_error (lser sg') i = Some (Fin v') /\ Rabs (v' - v) <= eps) /\
      (exists v v', nth_error (lser h) (d + i) = Some (Fin v) /\
                   nth_error (lser h') i = Some (Fin v') /\ Rabs (v' - v) <= eps)).
  { split; [|split]; apply settles_range; intros lo hi eps He Hlh;
      destruct (H lo hi eps He Hlh) as [M HM]; exists M; intros a a' d n k x Ha Ha' Hx Hn;
      destruct (HM a a' d n k x Ha Ha' Hx Hn) as (m & sg & h & m' & sg' & h' & E & E' & F);
      rewrite E, E'; cbn [bind fst snd];
      [exists m, m'|exists sg, sg'|exists h, h'];
      (split; [reflexivity|]); (split; [reflexivity|]); intros i Hi; apply F; exact Hi. }
  intros lo hi eps He Hlh.
  assert (Hf : (1 <= pf)%nat) by lia. assert (Hs : (1 <= ps)%nat) by lia.
  destruct (ema_step Hf Hlh (eps := eps / 8) ltac:(lra)) as [mf Hmf].
  destruct (ema_step Hs Hlh (eps := eps / 8) ltac:(lra)) as [ms Hms].
  set (w := Rmax (Rabs lo) (Rabs hi)).
  assert (Hw : 0 <= w).
  { unfold w. pose proof (Rmax_l (Rabs lo) (Rabs hi)). pose proof (Rabs_pos lo). lra. }
  destruct (@ema_step pg (- (2 * w)) (2 * w) (eps / 8) Hpg ltac:(lra) ltac:(lra)) as [mg Hmg].
  exists (ps + pg + mf + ms + mg)%nat. intros a a' d n k x Ha Ha' Hx Hn.
  destruct (@macd_ema_fin a _ _ _ pf ps pg Ha) as (m & sg & h & f & s & g & E & Sf & Ss & Sg & Dm & Dg & Dh); [lia|lia|lia|].
  destruct (@macd_ema_fin a' _ _ _ pf ps pg Ha') as (m' & sg' & h' & f' & s' & g' & E' & Sf' & Ss' & Sg' & Dm' & Dg' & Dh'); [lia|lia|lia|].
  exists m, sg, h, m', sg', h'. split; [exact E|]. split; [exact E'|]. intros i Hi.
  pose proof (Hmf _ _ _ _ _ _ _ _ _ (@near_start k d n lo hi x Hx) Sf Sf' (Rle_refl 0)) as Nf.
  pose proof (Hms _ _ _ _ _ _ _ _ _ (@near_start k d n lo hi x Hx) Ss Ss' (Rle_refl 0)) as Ns.
  apply near_weak with (k' := (k + ps - 1)%nat) (s' := (mf + ms)%nat) (dl' := eps / 8) in Nf; try lia; try lra.
  apply near_weak with (k' := (k + ps - 1)%nat) (s' := (mf + ms)%nat) (dl' := eps / 8) in Ns; try lia; try lra.
  pose proof (near_add (near_scale 1 Nf) (near_scale (-1) Ns)) as Nm.
  rewrite Rabs_R1, (Rabs_left (-1)) in Nm by lra. fold w in Nm.
  assert (Nm' : near (k + ps - 1) n d (mf + ms) (eps / 4) (- (2 * w)) (2 * w)
                  (fun i => f i - s i) (fun i => f' i - s' i)).
  { destruct Nm as (A & B & C). split; [|split].
    - intros j Hj. specialize (A j Hj). cbv beta in A. lra.
    - intros j Hj. specialize (B j Hj). cbv beta in B. lra.
    - intros j Hj. specialize (C j Hj). cbv beta in C.
      match type of C with Rabs ?u <= _ => replace (f' j - s' j - (f (d + j)%nat - s (d + j)%nat)) with u by ring end.
      lra. }
  pose proof (Hmg _ _ _ _ _ _ _ _ _ Nm' Sg Sg' ltac:(lra)) as Ng.
  replace (k + ps - 1 + (pg - 1))%nat with (k + ps - 1 + pg - 1)%nat in Ng by lia.
  split; [|split].
  - refine (near_end (M := (k + (ps + pg + mf + ms + mg))%nat) Nm' _ Dm Dm' _ _); try lia; lra.
  - refine (near_end (M := (k + (ps + pg + mf + ms + mg))%nat) Ng _ Dg Dg' _ _); try lia; lra.
  - apply near_weak with (k' := (k + ps - 1 + pg - 1)%nat) (s' := (mf + ms + mg)%nat) (dl' := eps / 4) in Nm'; try lia; try lra.
    pose proof (near_add (near_scale 1 Nm') (near_scale (-1) Ng)) as Nh.
    rewrite Rabs_R1, (Rabs_left (-1)) in Nh by lra.
    refine (near_end (M := (k + (ps + pg + mf + ms + mg))%nat) (near_ext _ _ Nh _ _) _ Dh Dh' _ _); try lia.
    + intros; ring.
    + intros; ring.
    + lra.
Qed.

(** ** atr *)
Lemma atr_forgets (hi_ lo_ cl hi' lo' cl' : lineR) n d k p xh xl xc :
  feeds hi_ (d + n) k (fin xh) -> feeds lo_ (d + n) k (fin xl) -> feeds cl (d + n) k (fin xc) ->
  feeds hi' n k (fin (fun i => xh (d + i)%nat)) -> feeds lo' n k (fin (fun i => xl (d + i)%nat)) ->
  feeds cl' n k (fin (fun i => xc (d + i)%nat)) ->
  (1 <= p)%nat -> (k + 1 + p <= n)%nat ->
  exists y y' e e', atr smma p 1 hi_ lo_ cl = Ok y /\ atr smma p 1 hi' lo' cl' = Ok y' /\
    delivers y (d + n) (k + p) (fin e) /\ delivers y' n (k + p) (fin e') /\
    forall i B, (k + p <= i)%nat ->
      (forall j, (k < j <= d + i)%nat -> true_range xh xl xc 1 j <= B) ->
      Rabs (e' i - e (d + i)%nat) <= (1 - 1 / INR p) ^ (i - (k + p)) * B.
Proof.
  intros H1 H2 H3 H1' H2' H3' Hp Hn.
  pose proof (truerange_fin (q := 1) ltac:(lia) H1 H2 H3) as T.
  pose proof (truerange_fin (q := 1) ltac:(lia) H1' H2' H3') as T'.
  assert (HT : forall i, (k + 1 <= i)%nat ->
     true_range (fun i => xh (d + i)%nat) (fun i => xl (d + i)%nat) (fun i => xc (d + i)%nat) 1 i =
     true_range xh xl xc 1 (d + i)).
  { intros i Hi. unfold true_range. now replace (d + (i - 1))%nat with (d + i - 1)%nat by lia. }
  destruct (smma_forgets d (delivers_feeds T) (delivers_feeds T') HT Hp ltac:(lia))
    as (y & y' & e & e' & E & E' & D & D' & F).
    replace (k + 1 + p - 1)%nat with (k + p)%nat in * by lia.
    exists y, y', e, e'. repeat (split; [assumption|]). intros i B Hi HB.
    destruct (F i Hi) as [_ F2]. specialize (F2 0 B). rewrite Rminus_0_r in F2. apply F2.
    intros j Hj. split; [apply true_range_nonneg|apply HB; lia].
Qed.

(** one column and the same column without its first bars *)
Lemma column_feeds (s : list R) d n : length s = (d + n)%nat ->
  feeds (raw (map Fin s)) (d + n) 0 (fin (fun i => nth i s 0)) /\
  feeds (raw (map Fin (skipn d s))) n 0 (fin (fun i => nth (d + i) s 0)).
Proof.
  intro H. split.
  - rewrite <- H. apply PropLinesFacts.raw_fin_feeds.
  - pose proof (PropLinesFacts.raw_fin_feeds (skipn d s)) as F.
    rewrite skipn_length, H in F. replace (d + n - d)%nat with n in F by lia.
    destruct F as (F1 & F2 & F3). split; [exact F1|]. split; [exact F2|].
    intros i Hi. rewrite (F3 i Hi). unfold fin. do 2 f_equal.
    rewrite <- (firstn_skipn d s) at 2. rewrite app_nth2; rewrite firstn_length, H; [|lia].
    f_equal. lia.
Qed.

Lemma settle_all :
  (forall p, (1 <= p)%nat ->
     settles (ema p) /\ settles (smma p) /\ settles (dema ema p) /\ settles (tema ema p) /\
     forall v, settles (t3 p (Fin v))) /\
  (forall pf ps pg, (1 <= pf <= ps)%nat -> (1 <= pg)%nat ->
     settles (fun a => bind (macd ema ema pf ps pg a) (fun t => Ok (fst (fst t)))) /\
     settles (fun a => bind (macd ema ema pf ps pg a) (fun t => Ok (snd (fst t)))) /\
     settles (fun a => bind (macd ema ema pf ps pg a) (fun t => Ok (snd t)))).
Proof.
  split.
  - intros p Hp. repeat (split; [first [exact (ema_settles Hp)|exact (smma_settles Hp)|exact (dema_settles Hp)|exact (tema_settles Hp)]|]).
    intro v. exact (t3_settles v Hp).
  - exact macd_settles.
Qed.

Lemma ema_forgets_plain (a a' : lineR) (n d k p : nat) (x : nat -> R) :
  feeds a (d + n) k (fin x) -> feeds a' n k (fin (fun i => x (d + i)%nat)) ->
  (1 <= p)%nat -> (k + p <= n)%nat ->
  exists y y' e e', ema p a = Ok y /\ ema p a' = Ok y' /\
      delivers y (d + n) (k + p - 1) (fin e) /\ delivers y' n (k + p - 1) (fin e') /\
      forall i, (k + p - 1 <= i)%nat ->
        e' i - e (d + i)%nat =
          (1 - 2 / (INR p + 1)) ^ (i - (k + p - 1)) * (e' (k + p - 1)%nat - e (d + (k + p - 1))%nat) /\
        forall lo hi, within x k (d + i) lo hi ->
          Rabs (e' i - e (d + i)%nat) <= (1 - 2 / (INR p + 1)) ^ (i - (k + p - 1)) * (hi - lo).
Proof. intros Ha Ha' Hp Hn. exact (ema_forgets d Ha Ha' (fun i _ => eq_refl) Hp Hn). Qed.
Lemma smma_forgets_plain (a a' : lineR) (n d k p : nat) (x : nat -> R) :
  feeds a (d + n) k (fin x) -> feeds a' n k (fin (fun i => x (d + i)%nat)) ->
  (1 <= p)%nat -> (k + p <= n)%nat ->
  exists y y' e e', smma p a = Ok y /\ smma p a' = Ok y' /\
      delivers y (d + n) (k + p - 1) (fin e) /\ delivers y' n (k + p - 1) (fin e') /\
      forall i, (k + p - 1 <= i)%nat ->
        e' i - e (d + i)%nat =
          (1 - 1 / INR p) ^ (i - (k + p - 1)) * (e' (k + p - 1)%nat - e (d + (k + p - 1))%nat) /\
        forall lo hi, within x k (d + i) lo hi ->
          Rabs (e' i - e (d + i)%nat) <= (1 - 1 / INR p) ^ (i - (k + p - 1)) * (hi - lo).
Proof. intros Ha Ha' Hp Hn. exact (smma_forgets d Ha Ha' (fun i _ => eq_refl) Hp Hn). Qed.

(** ** Running totals never forget *)
Lemma map_seq_shift (v : nat -> R) d m : forall K,
  map v (seq (K + d) m) = map (fun j => v (d + j)%nat) (seq K m).
Proof.
  induction m as [|m IH]; intro K; [reflexivity|]. cbn [seq map]. f_equal.
  - f_equal. lia.
  - exact (IH (S K)).
Qed.
Lemma total_drop (v : nat -> R) K d i : (K <= i)%nat ->
  total v K (d + i) = Rsum (map v (seq K d)) + total (fun j => v (d + j)%nat) K i.
Proof.
  intro Hi. unfold total. replace (S (d + i) - K)%nat with (d + (S i - K))%nat by lia.
  now rewrite seq_app, map_app, Rsum_app, map_seq_shift.
Qed.

Lemma obv_keeps (c v c' v' : lineR) n d k q xc xv :
  feeds c (d + n) k (fin xc) -> feeds v (d + n) k (fin xv) ->
  feeds c' n k (fin (fun i => xc (d + i)%nat)) -> feeds v' n k (fin (fun i => xv (d + i)%nat)) ->
  exists f f', delivers (obv false q c v) (d + n) (k + q) (fin f) /\
    delivers (obv false q c' v') n (k + q) (fin f') /\
    forall i, (k + q <= i)%nat ->
      f (d + i)%nat - f' i = Rsum (map (signed_volume xc xv q) (seq (k + q) d)).
Proof.
  intros Hc Hv Hc' Hv'. do 2 eexists. split; [exact (obv_fin q Hc Hv)|]. split; [exact (obv_fin q Hc' Hv')|].
  intros i Hi. rewrite total_drop by exact Hi.
  assert (E : total (fun j => signed_volume xc xv q (d + j)) (k + q) i =
              total (signed_volume (fun i => xc (d + i)%nat) (fun i => xv (d + i)%nat) q) (k + q) i).
  { unfold total. f_equal. apply map_ext_in. intros j Hj. apply in_seq in Hj. unfold signed_volume.
    now replace (d + (j - q))%nat with (d + j - q)%nat by lia. }
  rewrite E. ring.
Qed.

Lemma ad_keeps (h l c v h' l' c' v' : lineR) n d k xh xl xc xv :
  feeds h (d + n) k (fin xh) -> feeds l (d + n) k (fin xl) -> feeds c (d + n) k (fin xc) ->
  feeds v (d + n) k (fin xv) ->
  feeds h' n k (fin (fun i => xh (d + i)%nat)) -> feeds l' n k (fin (fun i => xl (d + i)%nat)) ->
  feeds c' n k (fin (fun i => xc (d + i)%nat)) -> feeds v' n k (fin (fun i => xv (d + i)%nat)) ->
  (forall i, (k <= i < d + n)%nat -> xl i <= xc i <= xh i) ->
  exists f f', delivers (ad h l c v) (d + n) k f /\ delivers (ad h' l' c' v') n k f' /\
    forall i, (k <= i < n)%nat ->
      (xh (d + i)%nat = xl (d + i)%nat -> f (d + i)%nat = NaN /\ f' i = NaN) /\
      (xh (d + i)%nat <> xl (d + i)%nat -> exists t t', f (d + i)%nat = Fin t /\ f' i = Fin t' /\
         t - t' = Rsum (map (fun j => close_position xh xl xc j * xv j) (seq k d))).
Proof.
  intros Hh Hl Hc Hv Hh' Hl' Hc' Hv' Hb.
  destruct (ad_all Hh Hl Hc Hv Hb) as (f & T & D & T0 & TS & F).
  destruct (ad_all Hh' Hl' Hc' Hv') as (f' & T' & D' & T0' & TS' & F').
  { intros i Hi. apply Hb. lia. }
  exists f, f'. split; [exact D|]. split; [exact D'|]. intros i Hi.
  assert (G : forall j, (k <= j)%nat -> T j = total (fun j => close_position xh xl xc j * xv j) k j).
  { intros j Hj. induction Hj as [|j Hj IH].
    - rewrite T0. unfold total. replace (S k - k)%nat with 1%nat by lia. simpl. ring.
    - rewrite TS, IH by exact Hj. unfold total. replace (S (S j) - k)%nat with ((S j - k) + 1)%nat by lia.
      rewrite seq_app, map_app, Rsum_app. replace (k + (S j - k))%nat with (S j) by lia. simpl. ring. }
  assert (G' : forall j, (k <= j)%nat -> T' j = total (fun j => close_position xh xl xc (d + j) * xv (d + j)%nat) k j).
  { intros j Hj. induction Hj as [|j Hj IH].
    - rewrite T0'. unfold total, close_position. replace (S k - k)%nat with 1%nat by lia. simpl. ring.
    - rewrite TS', IH by exact Hj. unfold total. replace (S (S j) - k)%nat with ((S j - k) + 1)%nat by lia.
      rewrite seq_app, map_app, Rsum_app. replace (k + (S j - k))%nat with (S j) by lia.
      unfold close_position. simpl. ring. }
  destruct (F (d + i)%nat ltac:(lia)) as (F1 & F2 & _). destruct (F' i Hi) as (F1' & F2' & _).
  split.
  - intro E. split; [now apply F1|now apply F1'].
  - intro E. exists (T (d + i)%nat), (T' i). split; [now apply F2|]. split; [now apply F2'|].
    rewrite G, G', total_drop by lia. ring.
Qed.
