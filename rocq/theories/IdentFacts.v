(** Proofs for the equations between indicators (C130). *)
From Coq Require Import ZArith List Bool Reals Lra Lia Psatz.
From Verif Require Import Num Series Line Spec RSpec StatSpec LineFacts RFacts OpFacts IndMA MAFacts PropMAFacts
  RLineFacts IndBasic BasicFacts PropBasicFacts IndStat StatFacts ScanFacts StatFacts2 PropStatFacts.
Import ListNotations.
Set Implicit Arguments.
Local Open Scope R_scope.

(** lines that deliver the same values from the same bar on are equal *)
Lemma same_line {V} {N : Num V} (a b : line V) n k k' f g :
  delivers a n k f -> delivers b n k' g -> k = k' -> (forall i, (k <= i < n)%nat -> f i = g i) -> a = b.
Proof.
  intros [(M & L & F) W] [(M' & L' & F') W'] <- E. destruct a as [m s], b as [m' s']. cbn [lmp lser] in *. f_equal; [congruence|].
  apply nth_error_ext; [congruence|]. intros i Hi. rewrite L in Hi.
  destruct (Nat.lt_ge_cases i k) as [H|H]; [now rewrite W, W'|]. rewrite F, F' by lia. now rewrite E by lia.
Qed.
Ltac same H1 H2 := eapply same_line; [exact H1|exact H2|lia|].

Lemma lastp_shift x i p j : (p + j <= S i)%nat -> lastp x i p = map (fun t => x (S i - p + t)%nat) (seq 0 p).
Proof. intros H. unfold lastp, win.
  apply nth_error_ext; [now rewrite !map_length, !seq_length|]. intros t Ht. rewrite map_length, seq_length in Ht.
  rewrite !nth_error_map. rewrite (nth_error_nth' (seq (S i - p) p) 0%nat) by now rewrite seq_length.
  rewrite (nth_error_nth' (seq 0 p) 0%nat) by now rewrite seq_length. rewrite !seq_nth by exact Ht. cbn. reflexivity.
Qed.

(** ** regression and moving averages *)
Lemma dot_position (l : list R) : forall s, Rsum (map (fun '(a, b) => a * b) (combine (map INR (seq (S s) (length l))) l)) =
  Rsum (map (fun q : R * R => fst q * snd q) (combine (map INR (seq s (length l))) l)) + Rsum l.
Proof.
  induction l as [|v l IH]; intro s; [cbn; lra|]. cbn [length seq map combine]. rewrite !Rsum_cons, IH. cbn [fst snd]. rewrite S_INR. ring.
Qed.
Lemma fit_averages (l : list R) p : length l = p -> (2 <= p)%nat ->
  let w := wmean (map INR (seq 1 p)) l in let s := Rmean l in
  fit_m (by_position l) = 6 / (INR p - 1) * (w - s) /\ fit_b (by_position l) = 4 * s - 3 * w.
Proof.
  intros L Hp w s. assert (2 <= INR p) by (apply (le_INR 2); exact Hp).
  assert (ES : Rsum l = INR p * s) by (unfold s, Rmean; rewrite L; field; lra).
  assert (EW : SXY (by_position l) = INR p * (INR p + 1) / 2 * w - INR p * s).
  { unfold w, wmean. rewrite Rsum_INR_seq. unfold Rdot. rewrite <- L, (dot_position l 0). unfold SXY, by_position. rewrite L, ES. field. lra. }
  assert (EM : fit_m (by_position l) = 6 / (INR p - 1) * (w - s)).
  { unfold fit_m. rewrite pos_DET, pos_length, pos_SX, pos_SY, L, EW, ES. field. repeat split; nra. }
  split; [exact EM|]. unfold fit_b. rewrite EM, pos_length, pos_SX, pos_SY, L, ES. field. lra.
Qed.
Lemma regression_averages (a : lineR) n k x p : feeds a n k (fin x) -> (2 <= p)%nat ->
  let three := rbinop_s vmul (Fin 3) (wma p a) in let two := rbinop_s vmul (Fin 2) (sma p a) in
  linearreg p a = lsub three two /\
  linearreg_slope p a = rbinop_s vmul (Fin (6 / (INR p - 1))) (lsub (wma p a) (sma p a)) /\
  linearreg_intercept true p a = lsub (rbinop_s vmul (Fin 4) (sma p a)) three /\
  tsf p a = ladd (linearreg p a) (linearreg_slope p a).
Proof.
  intros H Hp three two. assert (2 <= INR p) by (apply (le_INR 2); exact Hp).
  destruct (linreg_all H Hp) as (b & m & LS & D1 & _ & D3 & _ & D5 & D6).
  assert (F : forall i, m i = 6 / (INR p - 1) * (wmean (map INR (seq 1 p)) (lastp x i p) - Rmean (lastp x i p)) /\
                        b i = 4 * Rmean (lastp x i p) - 3 * wmean (map INR (seq 1 p)) (lastp x i p)).
  { intro i. assert (Ln : length (lastp x i p) = p) by apply lastp_length.
    destruct (fit_averages (lastp x i p) Ln Hp) as [EM EB].
    assert (Q : least_squares (by_position (lastp x i p)) (fit_b (by_position (lastp x i p))) (fit_m (by_position (lastp x i p)))).
    { apply fit_least. pose proof (@pos_DET_pos (lastp x i p)) as Q. rewrite Ln in Q. specialize (Q Hp). lra. }
    destruct (least_squares_unique (LS i) Q) as [E1 E2]. split; congruence. }
  assert (Hp1 : (1 <= p)%nat) by lia.
  pose proof (sma_fin H Hp1) as S. pose proof (wma_fin H Hp1) as W.
  pose proof (rmuls_fin 3 (delivers_feeds W)) as W3. pose proof (rmuls_fin 2 (delivers_feeds S)) as S2.
  pose proof (rmuls_fin 4 (delivers_feeds S)) as S4. pose proof (lsub_fin (delivers_feeds W) (delivers_feeds S)) as WS.
  pose proof (rmuls_fin (6 / (INR p - 1)) (delivers_feeds WS)) as WS6.
  pose proof (lsub_fin (delivers_feeds W3) (delivers_feeds S2)) as T1. pose proof (lsub_fin (delivers_feeds S4) (delivers_feeds W3)) as T3.
  pose proof (ladd_fin (delivers_feeds D5) (delivers_feeds D1)) as T4.
  repeat (apply conj).
  - same D5 T1. intros i Hi. unfold fin. f_equal. destruct (F i) as [-> ->]. field. lra.
  - same D1 WS6. intros i Hi. unfold fin. f_equal. destruct (F i) as [-> _]. reflexivity.
  - same D3 T3. intros i Hi. unfold fin. f_equal. destruct (F i) as [_ ->]. ring.
  - same D6 T4. intros i Hi. unfold fin. f_equal. ring.
Qed.

(** ** variance *)
Lemma var_squares (a : lineR) n k x p : feeds a n k (fin x) -> (1 <= p)%nat ->
  var p 0 a = lsub (sma p (lmul a a)) (lmul (sma p a) (sma p a)).
Proof.
  intros H Hp. assert (0 < INR p) by (apply INR_pos; lia).
  destruct (@var_all a n k x p 0 H ltac:(lia)) as (v & s & Dv & _ & E).
  pose proof (lmul_fin H H) as AA. pose proof (sma_fin (delivers_feeds AA) Hp) as M2. pose proof (sma_fin H Hp) as M.
  pose proof (lmul_fin (delivers_feeds M) (delivers_feeds M)) as MM. pose proof (lsub_fin (delivers_feeds M2) (delivers_feeds MM)) as T.
  same Dv T. intros i Hi. unfold fin. f_equal. destruct (E i) as (-> & _). cbn [INR].
  set (l := lastp x i p). assert (Ln : length l = p) by apply lastp_length.
  assert (EL : lastp (fun j => x j * x j) i p = map (fun u => u * u) l) by (unfold l, lastp, win; now rewrite map_map).
  rewrite EL. set (mu := Rmean l). assert (ES : Rsum l = INR p * mu) by (unfold mu, Rmean; rewrite Ln; field; lra).
  assert (EX : Rsum (map (fun u => (u - mu) ^ 2) l) = Rsum (map (fun u => u * u) l) - 2 * mu * Rsum l + INR (length l) * mu ^ 2).
  { clear. generalize mu as m0. intro m0. induction l as [|u l IH]; [cbn; ring|]. cbn [map length]. rewrite !Rsum_cons, S_INR, IH. ring. }
  rewrite EX, ES. unfold Rmean. rewrite map_length, Ln. field. lra.
Qed.

(** ** moving averages of moving averages *)
Lemma Rsum_swap {A B} (g : A -> B -> R) (l1 : list A) (l2 : list B) :
  Rsum (map (fun u => Rsum (map (g u) l2)) l1) = Rsum (map (fun v => Rsum (map (fun u => g u v) l1)) l2).
Proof.
  induction l1 as [|u l1 IH]; cbn [map].
  - symmetry. change (Rsum []) with 0. rewrite Rsum_const. ring.
  - rewrite Rsum_cons, IH, <- Rsum_plus. apply Rsum_map_ext. intros v _. now rewrite Rsum_cons.
Qed.
Lemma Rmean_lastp x i p : Rmean (lastp x i p) = Rsum (lastp x i p) / INR p.
Proof. unfold Rmean. now rewrite lastp_length. Qed.
Lemma Rsum_scal_r {A} (f : A -> R) c l : Rsum (map (fun v => f v / c) l) = Rsum (map f l) / c.
Proof. unfold Rdiv. rewrite <- (Rmult_comm (/ c)), <- Rsum_scale. apply Rsum_map_ext. intros; ring. Qed.
Lemma mean_mean x i p q : (p + q <= S (S i))%nat -> (1 <= p)%nat -> (1 <= q)%nat ->
  Rmean (lastp (fun j => Rmean (lastp x j q)) i p) =
  Rsum (map (fun s => Rsum (map (fun t => x (S (S i) - p - q + (s + t))%nat) (seq 0 q))) (seq 0 p)) / (INR p * INR q).
Proof.
  intros H Hp Hq. assert (0 < INR p) by (apply INR_pos; lia). assert (0 < INR q) by (apply INR_pos; lia).
  rewrite Rmean_lastp, (@lastp_shift _ i p 0) by lia.
  erewrite Rsum_map_ext with (g := fun s => Rsum (map (fun t => x (S (S i) - p - q + (s + t))%nat) (seq 0 q)) / INR q).
  - rewrite Rsum_scal_r. field. lra.
  - intros s Hs. apply in_seq in Hs. rewrite Rmean_lastp. f_equal. rewrite (@lastp_shift x (S i - p + s) q 0) by lia.
    apply Rsum_map_ext. intros t Ht. f_equal. lia.
Qed.
Lemma sma_sma (a : lineR) n k x p q : feeds a n k (fin x) -> (1 <= p)%nat -> (1 <= q)%nat -> sma p (sma q a) = sma q (sma p a).
Proof.
  intros H Hp Hq. pose proof (sma_fin (delivers_feeds (sma_fin H Hq)) Hp) as A. pose proof (sma_fin (delivers_feeds (sma_fin H Hp)) Hq) as B.
  same A B. intros i Hi. unfold fin. f_equal. rewrite !mean_mean by lia. rewrite (Rmult_comm (INR q)). f_equal.
  rewrite Rsum_swap. apply Rsum_map_ext. intros t Ht. apply Rsum_map_ext. intros s Hs. f_equal. lia.
Qed.
Lemma sumn_sma (a : lineR) n k x p : feeds a n k (fin x) -> (1 <= p)%nat -> sumn p a = rbinop_s vmul (Fin (INR p)) (sma p a).
Proof.
  intros H Hp. assert (0 < INR p) by (apply INR_pos; lia). pose proof (sumn_fin H Hp) as A. pose proof (rmuls_fin (INR p) (delivers_feeds (sma_fin H Hp))) as B.
  same A B. intros i Hi. unfold fin. f_equal. rewrite Rmean_lastp. field. lra.
Qed.

(** ** extremes of extremes *)
Lemma In_lastp x i p v : (p <= S i)%nat -> In v (lastp x i p) <-> exists j, (S i - p <= j <= i)%nat /\ v = x j.
Proof.
  intro H. unfold lastp, win. rewrite in_map_iff. split.
  - intros (j & <- & J). apply in_seq in J. exists j. split; [lia|reflexivity].
  - intros (j & J & ->). exists j. split; [reflexivity|]. apply in_seq. lia.
Qed.
Lemma is_max_uniq m m' l : is_max m l -> is_max m' l -> m = m'.
Proof. intros [A B] [C D]. apply Rle_antisym; auto. Qed.
Lemma is_min_uniq m m' l : is_min m l -> is_min m' l -> m = m'.
Proof. intros [A B] [C D]. apply Rle_antisym; auto. Qed.
Lemma max_max (a : lineR) n k x p q : feeds a n k (fin x) -> (1 <= p)%nat -> (1 <= q)%nat -> max_ind p (max_ind q a) = max_ind (p + q - 1) a.
Proof.
  intros H Hp Hq. pose proof (max_ind_fin (delivers_feeds (max_ind_fin H Hq)) Hp) as A. assert (Hpq : (1 <= p + q - 1)%nat) by lia.
  pose proof (max_ind_fin H Hpq) as B. same A B. intros i Hi. unfold fin. f_equal.
  apply (@is_max_uniq _ _ (lastp x i (p + q - 1))); [|apply lmax_is, lastp_nonnil; lia].
  destruct (@lmax_is (lastp (fun j => lmax (lastp x j q)) i p)) as [I M]; [now apply lastp_nonnil|].
  split.
  - apply In_lastp in I; [|lia]. destruct I as (j & J & ->). destruct (@lmax_is (lastp x j q)) as [I' _]; [now apply lastp_nonnil|].
    apply In_lastp in I'; [|lia]. destruct I' as (t & T & ->). apply In_lastp; [lia|]. exists t. split; [lia|reflexivity].
  - intros v V. apply In_lastp in V; [|lia]. destruct V as (t & T & ->).
    (* a bar of the outer window whose inner window contains t *)
    set (j := Nat.max t (S i - p)). apply Rle_trans with (lmax (lastp x j q)).
    + destruct (@lmax_is (lastp x j q)) as [_ M']; [now apply lastp_nonnil|]. apply M', In_lastp; [unfold j; lia|]. exists t. split; [unfold j; lia|reflexivity].
    + apply M, In_lastp; [lia|]. exists j. split; [unfold j; lia|reflexivity].
Qed.
Lemma min_min (a : lineR) n k x p q : feeds a n k (fin x) -> (1 <= p)%nat -> (1 <= q)%nat -> min_ind p (min_ind q a) = min_ind (p + q - 1) a.
Proof.
  intros H Hp Hq. pose proof (min_ind_fin (delivers_feeds (min_ind_fin H Hq)) Hp) as A. assert (Hpq : (1 <= p + q - 1)%nat) by lia.
  pose proof (min_ind_fin H Hpq) as B. same A B. intros i Hi. unfold fin. f_equal.
  apply (@is_min_uniq _ _ (lastp x i (p + q - 1))); [|apply lmin_is, lastp_nonnil; lia].
  destruct (@lmin_is (lastp (fun j => lmin (lastp x j q)) i p)) as [I M]; [now apply lastp_nonnil|].
  split.
  - apply In_lastp in I; [|lia]. destruct I as (j & J & ->). destruct (@lmin_is (lastp x j q)) as [I' _]; [now apply lastp_nonnil|].
    apply In_lastp in I'; [|lia]. destruct I' as (t & T & ->). apply In_lastp; [lia|]. exists t. split; [lia|reflexivity].
  - intros v V. apply In_lastp in V; [|lia]. destruct V as (t & T & ->).
    set (j := Nat.max t (S i - p)). apply Rle_trans with (lmin (lastp x j q)).
    + apply M, In_lastp; [lia|]. exists j. split; [unfold j; lia|reflexivity].
    + destruct (@lmin_is (lastp x j q)) as [_ M']; [now apply lastp_nonnil|]. apply M', In_lastp; [unfold j; lia|]. exists t. split; [unfold j; lia|reflexivity].
Qed.

(** ** momentum over several steps *)
Lemma mom_mom (a : lineR) n k x p q : feeds a n k (fin x) -> (1 <= p)%nat -> mom (p + q) a = ladd (mom p a) (at_ago (mom q a) (- Z.of_nat p)).
Proof.
  intros H Hp. pose proof (mom_fin (p + q) H) as A. pose proof (mom_fin p H) as B. pose proof (ago_fin (delivers_feeds (mom_fin q H)) Hp) as C.
  pose proof (ladd_fin (delivers_feeds B) (delivers_feeds C)) as T. same A T. intros i Hi. unfold fin. f_equal.
  replace (i - p - q)%nat with (i - (p + q))%nat by lia. ring.
Qed.
Lemma rocr_rocr (a : lineR) n k x p q : feeds a n k (fin x) -> (1 <= p)%nat -> (1 <= q)%nat -> (forall i, (k <= i < n)%nat -> x i <> 0) ->
  rocr (p + q) a = lmul (rocr p a) (at_ago (rocr q a) (- Z.of_nat p)).
Proof.
  intros H Hp Hq NZ. assert (Hpq : (1 <= p + q)%nat) by lia. unfold rocr.
  pose proof (@rocbase_fin a n k x (p + q) H Hpq ltac:(intros i Hi; apply NZ; lia)) as A.
  pose proof (@rocbase_fin a n k x p H Hp ltac:(intros i Hi; apply NZ; lia)) as B.
  pose proof (@rocbase_fin a n k x q H Hq ltac:(intros i Hi; apply NZ; lia)) as C0.
  pose proof (ago_fin (delivers_feeds C0) Hp) as C.
  pose proof (lmul_fin (delivers_feeds B) (delivers_feeds C)) as T. same A T. intros i Hi. unfold fin. f_equal.
  replace (i - p - q)%nat with (i - (p + q))%nat by lia. field. split; apply NZ; lia.
Qed.

(** ** period 1 *)
Lemma lastp_one x i : lastp x i 1 = [x i].
Proof. unfold lastp, win. cbn. now rewrite Nat.sub_0_r. Qed.
Lemma ema_one (a : lineR) n k x : delivers a n k (fin x) -> (k < n)%nat -> ema 1%nat a = Ok a.
Proof.
  intros D Hn. destruct (@ema_fin a n k x 1%nat (delivers_feeds D) ltac:(lia) ltac:(lia)) as (y & e & -> & (E0 & ES) & Dy). f_equal. same Dy D.
  intros i Hi. unfold fin. f_equal. destruct (Nat.eq_dec i (k + 1 - 1)) as [->|N].
  - rewrite E0, lastp_one. unfold Rmean. cbn. lra.
  - destruct i as [|i]; [lia|]. rewrite ES by lia. cbn [INR]. field.
Qed.
Lemma smma_one (a : lineR) n k x : delivers a n k (fin x) -> (k < n)%nat -> smma 1%nat a = Ok a.
Proof.
  intros D Hn. destruct (@smma_fin a n k x 1%nat (delivers_feeds D) ltac:(lia) ltac:(lia)) as (y & e & -> & (E0 & ES) & Dy). f_equal. same Dy D.
  intros i Hi. unfold fin. f_equal. destruct (Nat.eq_dec i (k + 1 - 1)) as [->|N].
  - rewrite E0, lastp_one. unfold Rmean. cbn. lra.
  - destruct i as [|i]; [lia|]. rewrite ES by lia. cbn [INR]. field.
Qed.
Lemma period_one (a : lineR) n k x : delivers a n k (fin x) -> (k < n)%nat ->
  sma 1%nat a = a /\ wma 1%nat a = a /\ ema 1%nat a = Ok a /\ smma 1%nat a = Ok a /\ dema ema 1%nat a = Ok a /\ tema ema 1%nat a = Ok a /\
  trima 1%nat a = a /\ max_ind 1%nat a = a /\ min_ind 1%nat a = a /\ midpoint 1%nat a = a /\ sumn 1%nat a = a.
Proof.
  intros D Hn. pose proof (delivers_feeds D) as F. assert (H1 : (1 <= 1)%nat) by lia.
  pose proof (ema_one D Hn) as E1.
  assert (S1 : sma 1%nat a = a).
  { pose proof (sma_fin F H1) as A. same A D. intros i Hi. unfold fin. f_equal. rewrite lastp_one. unfold Rmean. cbn. lra. }
  repeat (apply conj).
  - exact S1.
  - pose proof (wma_fin F H1) as A. same A D. intros i Hi. unfold fin. f_equal. rewrite lastp_one. unfold wmean, Rdot. cbn. lra.
  - exact E1.
  - now apply (smma_one D).
  - unfold dema. rewrite E1. cbn [bind]. rewrite E1. cbn [bind]. f_equal.
    pose proof (lsub_fin (delivers_feeds (rmuls_fin 2 F)) F) as A. rewrite vofZ_fin. same A D. intros i Hi. unfold fin. f_equal. ring.
  - unfold tema. rewrite E1. cbn [bind]. rewrite E1. cbn [bind]. rewrite E1. cbn [bind]. f_equal. rewrite vofZ_fin.
    pose proof (ladd_fin (delivers_feeds (lsub_fin (delivers_feeds (rmuls_fin 3 F)) (delivers_feeds (rmuls_fin 3 F)))) F) as A.
    same A D. intros i Hi. unfold fin. f_equal. ring.
  - destruct (@trima_fin a n k x 1%nat F H1) as (p1 & p2 & P1 & P2 & PP & _ & A). assert (p1 = 1 /\ p2 = 1)%nat as [-> ->] by lia.
    same A D. intros i Hi. unfold fin. f_equal. rewrite lastp_one. cbv beta. rewrite lastp_one. unfold Rmean, Rsum. cbn. lra.
  - pose proof (max_ind_fin F H1) as A. same A D. intros i Hi. unfold fin. f_equal. now rewrite lastp_one.
  - pose proof (min_ind_fin F H1) as A. same A D. intros i Hi. unfold fin. f_equal. now rewrite lastp_one.
  - pose proof (midprice_fin F F H1) as A. unfold midpoint. same A D. intros i Hi. unfold fin. f_equal. rewrite lastp_one. cbn. lra.
  - pose proof (sumn_fin F H1) as A. same A D. intros i Hi. unfold fin. f_equal. rewrite lastp_one. cbn. lra.
Qed.

(** ** Wilder's average and the exponential one *)
Lemma smma_ema (a : lineR) n k x p : feeds a n k (fin x) -> (1 <= p)%nat -> (k + (2 * p - 1) <= n)%nat ->
  exists y y' s e, smma p a = Ok y /\ ema (2 * p - 1)%nat a = Ok y' /\ delivers y n (k + p - 1) (fin s) /\ delivers y' n (k + 2 * p - 2) (fin e) /\
    forall d, (k + 2 * p - 2 + d < n)%nat ->
      s (k + 2 * p - 2 + d)%nat - e (k + 2 * p - 2 + d)%nat = (1 - / INR p) ^ d * (s (k + 2 * p - 2)%nat - e (k + 2 * p - 2)%nat).
Proof.
  intros F Hp Hn. destruct (@smma_fin a n k x p F Hp ltac:(lia)) as (y & s & E & (_ & SS) & D).
  destruct (@ema_fin a n k x (2 * p - 1)%nat F ltac:(lia) Hn) as (y' & e & E' & (_ & ES) & D').
  exists y, y', s, e. split; [exact E|]. split; [exact E'|]. split; [exact D|]. split; [eapply fin_ext; [|reflexivity|exact D']; lia|].
  assert (0 < INR p) by (apply INR_pos; lia). assert (EP : INR (2 * p - 1) + 1 = 2 * INR p).
  { rewrite minus_INR, mult_INR by lia. cbn [INR]. lra. }
  induction d as [|d IH]; intro Hd; [rewrite Nat.add_0_r; cbn; lra|].
  rewrite Nat.add_succ_r, SS, ES by lia. rewrite EP. cbn [pow]. rewrite Rmult_assoc, <- IH by lia. field. lra.
Qed.

(** ** t3 with the factor 0 *)
Lemma t3_zero (a : lineR) n k x p : feeds a n k (fin x) -> (1 <= p)%nat -> (k + 6 * (p - 1) + 1 <= n)%nat ->
  exists y e1 e2 e3 f, t3 p (Fin 0) a = Ok y /\ ema p a = Ok e1 /\ ema p e1 = Ok e2 /\ ema p e2 = Ok e3 /\
    delivers e3 n (k + 3 * (p - 1)) (fin f) /\ delivers y n (k + 6 * (p - 1)) (fin f).
Proof.
  intros F Hp Hn. destruct (t3_fin 0 F Hp Hn) as (y & f1 & f2 & f3 & f4 & f5 & f6 & E & I1 & I2 & I3 & _ & _ & _ & D).
  destruct (@ema_fin a n k x p F Hp ltac:(lia)) as (e1 & g1 & E1 & J1 & D1).
  destruct (@ema_fin e1 n _ _ p (delivers_feeds D1) Hp ltac:(lia)) as (e2 & g2 & E2 & J2 & D2).
  destruct (@ema_fin e2 n _ _ p (delivers_feeds D2) Hp ltac:(lia)) as (e3 & g3 & E3 & J3 & D3).
  exists y, e1, e2, e3, g3. split; [exact E|]. split; [exact E1|]. split; [exact E2|]. split; [exact E3|].
  split; [eapply fin_ext; [|reflexivity|exact D3]; lia|].
  eapply fin_ext; [reflexivity| |exact D]. intros i Hi. cbv beta.
  assert (Q1 : forall j, (k + p - 1 <= j)%nat -> f1 j = g1 j) by (apply (is_ema_unique I1 J1)).
  assert (X : forall (u v : nat -> R) K, (forall j, (K <= j)%nat -> u j = v j) -> forall r, is_ema p K u r -> is_ema p K v r).
  { intros u v K Q r [R0 RS]. split.
    - rewrite R0. f_equal. unfold lastp, win. apply map_ext_in. intros j J. apply in_seq in J. apply Q. lia.
    - intros j J. rewrite RS by exact J. rewrite Q by lia. reflexivity. }
  assert (Q2 : forall j, (k + p - 1 + p - 1 <= j)%nat -> f2 j = g2 j).
  { replace (k + (p - 1))%nat with (k + p - 1)%nat in I2 by lia. apply (is_ema_unique (X _ _ _ Q1 _ I2) J2). }
  assert (Q3 : forall j, (k + p - 1 + p - 1 + p - 1 <= j)%nat -> f3 j = g3 j).
  { replace (k + 2 * (p - 1))%nat with (k + p - 1 + p - 1)%nat in I3 by lia. apply (is_ema_unique (X _ _ _ Q2 _ I3) J3). }
  rewrite <- Q3 by lia. ring.
Qed.

(** ** beta and correlation *)
Lemma beta_beta (a b : lineR) n k x y p r : feeds a n k (fin x) -> feeds b n k (fin y) -> (2 <= p)%nat ->
  (forall i, (k <= i < n)%nat -> x i <> 0 /\ y i <> 0) ->
  let c := correl p 1 false (pct_change a (Z.of_nat r)) (pct_change b (Z.of_nat r)) in
  lmul (beta p (Z.of_nat r) true a b) (beta p (Z.of_nat r) true b a) = lmul c c.
Proof.
  intros Ha Hb Hp NZ c. assert (Hp1 : (1 <= p)%nat) by lia. rewrite !beta_rets.
  assert (Px : delivers (pct_change a (Z.of_nat r)) n (k + r) (fin (rets_of x r))).
  { eapply fin_ext; [reflexivity| |apply pct_fin; [exact Ha|intros; apply NZ; assumption]]. intros i Hi. unfold rets_of. cbv beta. field. apply NZ. lia. }
  assert (Py : delivers (pct_change b (Z.of_nat r)) n (k + r) (fin (rets_of y r))).
  { eapply fin_ext; [reflexivity| |apply pct_fin; [exact Hb|intros; apply NZ; assumption]]. intros i Hi. unfold rets_of. cbv beta. field. apply NZ. lia. }
  pose proof (@beta_raw_fin _ _ n _ _ _ _ p (delivers_feeds Px) (delivers_feeds Py) Hp1) as A.
  pose proof (@beta_raw_fin _ _ n _ _ _ _ p (delivers_feeds Py) (delivers_feeds Px) Hp1) as B.
  destruct (@correl_fin _ _ n _ _ _ _ p 1%Z false (delivers_feeds Px) Py Hp) as (CM & CL & CW & CV). fold c in CM, CL, CW, CV.
  rewrite !Nat.max_id in *.
  assert (DC : delivers c n (k + r + p - 1) (fun i => match nth_error (lser c) i with Some v => v | None => NaN end)).
  { split; [split; [exact CM|split; [exact CL|]]|].
    - intros i Hi. destruct (nth_error (lser c) i) eqn:E; [reflexivity|]. apply nth_error_None in E. lia.
    - intros i Hi Hi'. now apply CW. }
  pose proof (@binop_delivers _ _ vmul _ _ _ _ _ _ _ (delivers_feeds A) (delivers_feeds B)) as L.
  pose proof (@binop_delivers _ _ vmul _ _ _ _ _ _ _ (delivers_feeds DC) (delivers_feeds DC)) as RR.
  unfold lmul. same L RR. intros i Hi. cbv beta. specialize (CV i ltac:(lia)). cbv zeta in CV.
  set (l := lastp (rets_of x r) i p) in *. set (m := lastp (rets_of y r) i p) in *.
  assert (El : length l = length m) by (unfold l, m; now rewrite !lastp_length). destruct CV as [C1 C2].
  assert (nanl : forall v, vmul (NaN : ext R) v = NaN) by (intros []; reflexivity). assert (nanr : forall v, vmul v (NaN : ext R) = NaN) by (intros []; reflexivity).
  destruct (Req_EM_T (sqdev l) 0) as [Zl|Zl].
  { rewrite C1 by (left; now apply sqdev_zero). rewrite Zl, (codev_const El) by (left; now apply sqdev_zero). rewrite quot_00. now rewrite !nanl. }
  destruct (Req_EM_T (sqdev m) 0) as [Zm|Zm].
  { rewrite C1 by (right; now apply sqdev_zero). rewrite Zm, (codev_const (eq_sym El)) by (left; now apply sqdev_zero). rewrite quot_00. now rewrite nanr, nanl. }
  destruct C2 as [-> _]; [now rewrite <- sqdev_zero|now rewrite <- sqdev_zero|].
  rewrite !quot_fin by assumption. rewrite !vmul_fin. f_equal. unfold pearson. rewrite (codev_sym m l) by now symmetry.
  assert (0 <= sqdev l * sqdev m).
  { apply Rmult_le_pos; apply Rsum_nonneg; intros v V; apply in_map_iff in V; destruct V as (u & <- & _); apply pow2_ge_0. }
  assert (sqrt (sqdev l * sqdev m) * sqrt (sqdev l * sqdev m) = sqdev l * sqdev m) by now apply sqrt_sqrt.
  assert (sqrt (sqdev l * sqdev m) <> 0) by (intro Z; rewrite Z in *; assert (sqdev l * sqdev m = 0) by lra; apply Rmult_integral in H1; tauto).
  transitivity (codev l m * codev l m / (sqrt (sqdev l * sqdev m) * sqrt (sqdev l * sqdev m))); [|field; assumption].
  rewrite H0. field. split; assumption.
Qed.

(** ** ppo and apo *)
Lemma ppo_apo (ma masig : ma_fun (ext R)) (a : lineR) n k x pf ps pg : averages ma -> averages masig -> feeds a n k (fin x) ->
  (1 <= pf <= ps)%nat -> (1 <= pg)%nat -> (k + (ps - 1) + pg <= n)%nat ->
  exists slow s, ma ps a = Ok slow /\ delivers slow n (k + ps - 1) (fin s) /\
    ((forall i, (k + ps - 1 <= i < n)%nat -> s i <> 0) ->
     exists p sg h o, ppo ma masig pf ps pg a = Ok (p, sg, h) /\ apo ma pf ps a = Ok o /\ p = ldiv (rbinop_s vmul (Fin 100) o) slow).
Proof.
  intros A B F Hf Hg Hn.
  destruct (ppo_fin A B F Hf Hg Hn) as (yf & ys & f & s & E1 & D1 & E2 & D2 & K & _).
  exists ys, s. split; [exact E2|]. split; [exact D2|]. intro NZ. destruct (K NZ) as (m & sg & h & g & E3 & _ & D3 & _).
  destruct (macd_fin A B F Hf Hg Hn) as (yf' & ys' & f' & s' & m' & sg' & h' & g' & E1' & _ & E2' & _ & _ & EA & _ & DA & _).
  assert (yf' = yf) by congruence. assert (ys' = ys) by congruence. subst yf' ys'.
  exists m, sg, h, (lsub yf ys). split; [exact E3|].
  assert (EO : apo ma pf ps a = Ok (lsub yf ys)) by (unfold apo, posc; rewrite E1, E2; reflexivity). split; [exact EO|].
  pose proof (lsub_fin (delivers_feeds D1) (delivers_feeds D2)) as DS. pose proof (rmuls_fin 100 (delivers_feeds DS)) as D100.
  pose proof (ldiv_quot (delivers_feeds D100) (delivers_feeds D2)) as T. same D3 T. intros i Hi. cbv beta. rewrite quot_fin by (apply NZ; lia).
  unfold fin. f_equal. field. apply NZ. lia.
Qed.
