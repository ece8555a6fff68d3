(** Moving averages of finite lines. *)
From Coq Require Import ZArith List Bool Lia Arith Reals Lra.
From Verif Require Import Num Series Line Spec RSpec LineFacts ScanFacts RFacts IndMA.
Import ListNotations.
Set Implicit Arguments.
Local Open Scope R_scope.

Notation lineR := (line (ext R)).

(** ** sma, sum *)

Lemma sma_fin (a : lineR) n k x p :
  feeds a n k (fin x) -> (1 <= p)%nat ->
  delivers (sma p a) n (k + p - 1) (fin (fun i => Rmean (lastp x i p))).
Proof.
  intros Ha Hp. eapply delivers_ext; [|apply rolling_delivers; eauto].
  intros i Hi. cbv beta. rewrite win_fin, guard_win_fin.
  rewrite win_mean_fin by (apply win_nonnil; lia). reflexivity.
Qed.

Lemma sumn_fin (a : lineR) n k x p :
  feeds a n k (fin x) -> (1 <= p)%nat ->
  delivers (sumn p a) n (k + p - 1) (fin (fun i => Rsum (lastp x i p))).
Proof.
  intros Ha Hp. eapply delivers_ext; [|apply rolling_delivers; eauto].
  intros i Hi. cbv beta. rewrite win_fin, guard_win_fin.
  unfold win_sum. rewrite vsum_fin. reflexivity.
Qed.

Lemma sma_within x k i p lo hi :
  (1 <= p)%nat -> (k + p <= S i)%nat -> within x k i lo hi -> lo <= Rmean (lastp x i p) <= hi.
Proof.
  intros Hp Hi Hw. apply Rmean_bounds; [now apply win_nonnil|].
  intros v Hv. eapply win_S_within; eauto.
Qed.

(** ** ema, smma *)

Lemma ema_fin (a : lineR) n k x p :
  feeds a n k (fin x) -> (1 <= p)%nat -> (k + p <= n)%nat ->
  exists y e, ema p a = Ok y /\ is_ema p k x e /\ delivers y n (k + p - 1) (fin e).
Proof.
  intros Ha Hp Hn. destruct (ewm_span_delivers Ha Hp Hn) as (y & Hy & Hd).
  exists y, (fun i => es (2 / (INR p + 1)) (Rmean (lastp x (k + p - 1) p)) x (k + p - 1)
                         (i - (k + p - 1))).
  split; [exact Hy|]. split.
  - split.
    + rewrite Nat.sub_diag. reflexivity.
    + intros i Hi. replace (S i - (k + p - 1))%nat with (S (i - (k + p - 1))) by lia.
      cbn [es]. do 3 f_equal. lia.
  - eapply delivers_ext; [|exact Hd]. intros i Hi. cbv beta.
    rewrite win_fin, ser_mean_fin by (apply win_nonnil; lia).
    rewrite prep_fin, alpha_span_fin by lia. apply ewma_val_fin.
Qed.

Lemma smma_fin (a : lineR) n k x p :
  feeds a n k (fin x) -> (1 <= p)%nat -> (k + p <= n)%nat ->
  exists y e, smma p a = Ok y /\ is_smma p k x e /\ delivers y n (k + p - 1) (fin e).
Proof.
  intros Ha Hp Hn. destruct (ewm_com_delivers Ha Hp Hn) as (y & Hy & Hd).
  exists y, (fun i => es (1 / INR p) (Rmean (lastp x (k + p - 1) p)) x (k + p - 1)
                         (i - (k + p - 1))).
  split; [exact Hy|]. split.
  - split.
    + rewrite Nat.sub_diag. reflexivity.
    + intros i Hi. replace (S i - (k + p - 1))%nat with (S (i - (k + p - 1))) by lia.
      cbn [es]. replace (k + p - 1 + S (i - (k + p - 1)))%nat with (S i) by lia.
      pose proof (INR_pos Hp). field. lra.
  - eapply delivers_ext; [|exact Hd]. intros i Hi. cbv beta.
    rewrite win_fin, ser_mean_fin by (apply win_nonnil; lia).
    rewrite prep_fin, alpha_com_fin by lia. apply ewma_val_fin.
Qed.

Lemma is_ema_within p k x e i lo hi :
  (1 <= p)%nat -> is_ema p k x e -> (k + p - 1 <= i)%nat -> within x k i lo hi ->
  lo <= e i <= hi.
Proof.
  intros Hp [H0 Hs] Hi. replace i with (k + p - 1 + (i - (k + p - 1)))%nat by lia.
  generalize (i - (k + p - 1))%nat as d. clear i Hi. intro d.
  assert (Hal : 0 <= 2 / (INR p + 1) <= 1).
  { assert (1 <= INR p) by (change 1 with (INR 1); apply le_INR; lia). split.
    - apply Rmult_le_pos; [lra|]. left. apply Rinv_0_lt_compat. lra.
    - apply Rmult_le_reg_r with (INR p + 1); [lra|]. unfold Rdiv.
      rewrite Rmult_assoc, Rinv_l by lra. lra. }
  induction d as [|d IH]; intro Hw.
  - rewrite Nat.add_0_r, H0. eapply sma_within with (k := k); eauto; [lia|].
    intros j Hj. apply Hw. lia.
  - replace (k + p - 1 + S d)%nat with (S (k + p - 1 + d)) in * by lia.
    rewrite Hs by lia.
    assert (H1 : lo <= e (k + p - 1 + d)%nat <= hi) by (apply IH; intros j Hj; apply Hw; lia).
    assert (H2 : lo <= x (S (k + p - 1 + d)) <= hi) by (apply Hw; lia).
    split; nra.
Qed.

Lemma is_smma_within p k x e i lo hi :
  (1 <= p)%nat -> is_smma p k x e -> (k + p - 1 <= i)%nat -> within x k i lo hi ->
  lo <= e i <= hi.
Proof.
  intros Hp [H0 Hs] Hi. replace i with (k + p - 1 + (i - (k + p - 1)))%nat by lia.
  generalize (i - (k + p - 1))%nat as d. clear i Hi. intro d.
  assert (H1p : 1 <= INR p) by (change 1 with (INR 1); apply le_INR; lia).
  induction d as [|d IH]; intro Hw.
  - rewrite Nat.add_0_r, H0. eapply sma_within with (k := k); eauto; [lia|].
    intros j Hj. apply Hw. lia.
  - replace (k + p - 1 + S d)%nat with (S (k + p - 1 + d)) in * by lia.
    rewrite Hs by lia.
    assert (H1 : lo <= e (k + p - 1 + d)%nat <= hi) by (apply IH; intros j Hj; apply Hw; lia).
    assert (H2 : lo <= x (S (k + p - 1 + d)) <= hi) by (apply Hw; lia).
    split; apply Rmult_le_reg_r with (INR p); try lra; unfold Rdiv;
      rewrite Rmult_assoc, Rinv_l by lra; nra.
Qed.

(** the recurrence determines the average *)
Lemma is_ema_unique p k x e e' :
  is_ema p k x e -> is_ema p k x e' -> forall i, (k + p - 1 <= i)%nat -> e i = e' i.
Proof.
  intros [H0 Hs] [H0' Hs'] i Hi. induction Hi as [|i Hi IH]; [congruence|].
  rewrite Hs, Hs', IH by lia. reflexivity.
Qed.

Lemma is_smma_unique p k x e e' :
  is_smma p k x e -> is_smma p k x e' -> forall i, (k + p - 1 <= i)%nat -> e i = e' i.
Proof.
  intros [H0 Hs] [H0' Hs'] i Hi. induction Hi as [|i Hi IH]; [congruence|].
  rewrite Hs, Hs', IH by lia. reflexivity.
Qed.

(** ** wma *)

Lemma map2_fin_mul l m :
  map2 vmul (map (@Fin R) l) (map Fin m) = map Fin (map (fun '(a, b) => a * b) (combine m l)).
Proof.
  revert m; induction l as [|a l IH]; intros [|b m]; simpl; auto.
  rewrite IH. do 2 f_equal. apply Rmult_comm.
Qed.

Lemma Rsum_INR_seq p : Rsum (map INR (seq 1 p)) = INR p * (INR p + 1) / 2.
Proof.
  induction p as [|p IH].
  - unfold Rsum. simpl. lra.
  - rewrite seq_S, map_app, Rsum_app, IH. cbn [map]. unfold Rsum. cbn [fold_right].
    replace (1 + p)%nat with (S p) by lia. rewrite S_INR. lra.
Qed.

Lemma wma_fin (a : lineR) n k x p :
  feeds a n k (fin x) -> (1 <= p)%nat ->
  delivers (wma p a) n (k + p - 1)
    (fin (fun i => wmean (map INR (seq 1 p)) (lastp x i p))).
Proof.
  intros Ha Hp. unfold wma.
  eapply delivers_ext; [|apply rbinop_s_delivers, delivers_feeds, rolling_delivers; eauto].
  intros i Hi. cbv beta. rewrite win_fin, guard_win_fin.
  unfold win_wma. rewrite map_length, win_length.
  assert (E : map (fun j => vofZ (Z.of_nat j)) (seq 1 p) = map (@Fin R) (map INR (seq 1 p))).
  { rewrite map_map. apply map_ext. intro j. now rewrite vofZ_fin, IZR_nat. }
  rewrite E, map2_fin_mul, vsum_fin, !vofZ_fin.
  pose proof (INR_pos Hp) as H0.
  rewrite mult_IZR, plus_IZR, IZR_nat.
  rewrite vdiv_fin by (apply Rmult_integral_contrapositive_currified; lra).
  rewrite vmul_fin. unfold fin. f_equal. unfold wmean, Rdot. rewrite Rsum_INR_seq.
  unfold lastp. field. lra.
Qed.

Lemma wmean_bounds w l lo hi :
  length w = length l -> (forall v, In v w -> 0 < v) -> l <> [] ->
  (forall v, In v l -> lo <= v <= hi) -> lo <= wmean w l <= hi.
Proof.
  intros Hl Hw Hn Hb.
  assert (H : 0 <= Rsum w /\ lo * Rsum w <= Rdot w l <= hi * Rsum w /\ (l <> [] -> 0 < Rsum w)).
  { clear Hn. revert l Hl Hb. induction w as [|a w IH]; intros [|b l] Hl Hb; try discriminate.
    - unfold Rdot, Rsum. simpl. repeat split; try lra. congruence.
    - unfold Rdot. cbn [combine map]. unfold Rsum. cbn [fold_right]. fold (Rsum w).
      fold (Rsum (map (fun '(a, b) => a * b) (combine w l))). fold (Rdot w l).
      destruct (IH (fun v Hv => Hw v (or_intror Hv)) l) as (H1 & H2 & H3);
        [simpl in Hl; lia|intros v Hv; apply Hb; right; auto|].
      pose proof (Hw a (or_introl eq_refl)). pose proof (Hb b (or_introl eq_refl)).
      repeat split; try nra. }
  destruct H as (_ & [H1 H2] & H3). specialize (H3 Hn). unfold wmean.
  split; apply Rmult_le_reg_r with (Rsum w); auto; unfold Rdiv; rewrite Rmult_assoc, Rinv_l by lra; lra.
Qed.

(** ** composite averages *)

Ltac step_ok H := rewrite H; cbn [bind].

Lemma dema_fin (a : lineR) n k x p :
  feeds a n k (fin x) -> (1 <= p)%nat -> (k + 2 * (p - 1) + 1 <= n)%nat ->
  exists y e1 e2, dema ema p a = Ok y /\
    is_ema p k x e1 /\ is_ema p (k + (p - 1)) e1 e2 /\
    delivers y n (k + 2 * (p - 1)) (fin (fun i => 2 * e1 i - e2 i)).
Proof.
  intros Ha Hp Hn. unfold dema.
  destruct (ema_fin Ha Hp) as (y1 & e1 & E1 & S1 & D1); [lia|]. step_ok E1.
  destruct (ema_fin (delivers_feeds D1) Hp) as (y2 & e2 & E2 & S2 & D2); [lia|]. step_ok E2.
  eexists _, e1, e2. split; [reflexivity|]. split; auto.
  replace (k + (p - 1))%nat with (k + p - 1)%nat by lia. split; auto.
  pose proof (binop_delivers vsub
    (delivers_feeds (rbinop_s_delivers vmul (vofZ 2) (delivers_feeds D1)))
    (delivers_feeds D2)) as D.
  replace (Nat.max (k + p - 1) (k + p - 1 + p - 1)) with (k + 2 * (p - 1))%nat in D by lia.
  exact D.
Qed.

Lemma ema3_fin (a : lineR) n k x p :
  feeds a n k (fin x) -> (1 <= p)%nat -> (k + 3 * (p - 1) + 1 <= n)%nat ->
  exists y1 y2 y3 e1 e2 e3,
    ema p a = Ok y1 /\ ema p y1 = Ok y2 /\ ema p y2 = Ok y3 /\
    is_ema p k x e1 /\ is_ema p (k + (p - 1)) e1 e2 /\ is_ema p (k + 2 * (p - 1)) e2 e3 /\
    delivers y1 n (k + (p - 1)) (fin e1) /\
    delivers y2 n (k + 2 * (p - 1)) (fin e2) /\
    delivers y3 n (k + 3 * (p - 1)) (fin e3).
Proof.
  intros Ha Hp Hn.
  destruct (ema_fin Ha Hp) as (y1 & e1 & E1 & S1 & D1); [lia|].
  destruct (ema_fin (delivers_feeds D1) Hp) as (y2 & e2 & E2 & S2 & D2); [lia|].
  destruct (ema_fin (delivers_feeds D2) Hp) as (y3 & e3 & E3 & S3 & D3); [lia|].
  exists y1, y2, y3, e1, e2, e3.
  replace (k + p - 1 + p - 1 + p - 1)%nat with (k + 3 * (p - 1))%nat in D3 by lia.
  replace (k + p - 1 + p - 1)%nat with (k + 2 * (p - 1))%nat in * by lia.
  replace (k + p - 1)%nat with (k + (p - 1))%nat in * by lia.
  repeat (split; [assumption|]). assumption.
Qed.

Lemma tema_fin (a : lineR) n k x p :
  feeds a n k (fin x) -> (1 <= p)%nat -> (k + 3 * (p - 1) + 1 <= n)%nat ->
  exists y e1 e2 e3, tema ema p a = Ok y /\
    is_ema p k x e1 /\ is_ema p (k + (p - 1)) e1 e2 /\ is_ema p (k + 2 * (p - 1)) e2 e3 /\
    delivers y n (k + 3 * (p - 1)) (fin (fun i => 3 * e1 i - 3 * e2 i + e3 i)).
Proof.
  intros Ha Hp Hn. unfold tema.
  destruct (ema3_fin Ha Hp Hn) as
    (y1 & y2 & y3 & e1 & e2 & e3 & E1 & E2 & E3 & S1 & S2 & S3 & D1 & D2 & D3).
  step_ok E1. step_ok E2. step_ok E3.
  eexists _, e1, e2, e3. split; [reflexivity|].
  repeat (split; [assumption|]).
  pose proof (binop_delivers vadd (delivers_feeds (binop_delivers vsub
    (delivers_feeds (rbinop_s_delivers vmul (vofZ 3) (delivers_feeds D1)))
    (delivers_feeds (rbinop_s_delivers vmul (vofZ 3) (delivers_feeds D2)))))
    (delivers_feeds D3)) as D.
  match type of D with delivers _ _ ?m _ => replace m with (k + 3 * (p - 1))%nat in D by lia end.
  exact D.
Qed.

Lemma gdema_fin (a : lineR) n k x p v :
  feeds a n k (fin x) -> (1 <= p)%nat -> (k + 2 * (p - 1) + 1 <= n)%nat ->
  exists y e1 e2, gdema ema p (Fin v) a = Ok y /\
    is_ema p k x e1 /\ is_ema p (k + (p - 1)) e1 e2 /\
    delivers y n (k + 2 * (p - 1)) (fin (fun i => (1 + v) * e1 i - v * e2 i)).
Proof.
  intros Ha Hp Hn. unfold gdema.
  destruct (ema_fin Ha Hp) as (y1 & e1 & E1 & S1 & D1); [lia|]. step_ok E1.
  destruct (ema_fin (delivers_feeds D1) Hp) as (y2 & e2 & E2 & S2 & D2); [lia|]. step_ok E2.
  eexists _, e1, e2. split; [reflexivity|]. split; auto.
  replace (k + (p - 1))%nat with (k + p - 1)%nat by lia. split; auto.
  pose proof (binop_delivers vsub
    (delivers_feeds (rbinop_s_delivers vmul (vadd v1 (Fin v)) (delivers_feeds D1)))
    (delivers_feeds (rbinop_s_delivers vmul (Fin v) (delivers_feeds D2)))) as D.
  replace (Nat.max (k + p - 1) (k + p - 1 + p - 1)) with (k + 2 * (p - 1))%nat in D by lia.
  exact D.
Qed.

Lemma t3_fin (a : lineR) n k x p v :
  feeds a n k (fin x) -> (1 <= p)%nat -> (k + 6 * (p - 1) + 1 <= n)%nat ->
  exists y e1 e2 e3 e4 e5 e6, t3 p (Fin v) a = Ok y /\
    is_ema p k x e1 /\ is_ema p (k + (p - 1)) e1 e2 /\ is_ema p (k + 2 * (p - 1)) e2 e3 /\
    is_ema p (k + 3 * (p - 1)) e3 e4 /\ is_ema p (k + 4 * (p - 1)) e4 e5 /\
    is_ema p (k + 5 * (p - 1)) e5 e6 /\
    delivers y n (k + 6 * (p - 1)) (fin (fun i =>
      - v ^ 3 * e6 i + (3 * v ^ 2 + 3 * v ^ 3) * e5 i
      + (- 6 * v ^ 2 - 3 * v - 3 * v ^ 3) * e4 i
      + (1 + 3 * v + v ^ 3 + 3 * v ^ 2) * e3 i)).
Proof.
  intros Ha Hp Hn. unfold t3.
  destruct (ema3_fin Ha Hp) as
    (y1 & y2 & y3 & e1 & e2 & e3 & E1 & E2 & E3 & S1 & S2 & S3 & D1 & D2 & D3); [lia|].
  destruct (ema3_fin (delivers_feeds D3) Hp) as
    (y4 & y5 & y6 & e4 & e5 & e6 & E4 & E5 & E6 & S4 & S5 & S6 & D4 & D5 & D6); [lia|].
  step_ok E1. step_ok E2. step_ok E3. step_ok E4. step_ok E5. step_ok E6.
  eexists _, e1, e2, e3, e4, e5, e6. split; [reflexivity|].
  replace (k + 3 * (p - 1) + 3 * (p - 1))%nat with (k + 6 * (p - 1))%nat in * by lia.
  replace (k + 3 * (p - 1) + 2 * (p - 1))%nat with (k + 5 * (p - 1))%nat in * by lia.
  replace (k + 3 * (p - 1) + (p - 1))%nat with (k + 4 * (p - 1))%nat in * by lia.
  repeat (split; [assumption|]).
  match goal with |- delivers (ladd (ladd (ladd (rbinop_s _ ?c1 _) (rbinop_s _ ?c2 _))
                                       (rbinop_s _ ?c3 _)) (rbinop_s _ ?c4 _)) _ _ _ =>
    pose proof (binop_delivers vadd (delivers_feeds (binop_delivers vadd
      (delivers_feeds (binop_delivers vadd
        (delivers_feeds (rbinop_s_delivers vmul c1 (delivers_feeds D6)))
        (delivers_feeds (rbinop_s_delivers vmul c2 (delivers_feeds D5)))))
      (delivers_feeds (rbinop_s_delivers vmul c3 (delivers_feeds D4)))))
      (delivers_feeds (rbinop_s_delivers vmul c4 (delivers_feeds D3)))) as D
  end.
  match type of D with delivers _ _ ?m _ => replace m with (k + 6 * (p - 1))%nat in D by lia end.
  eapply delivers_ext; [|exact D].
  intros i Hi. cbv beta. unfold fin. cbn. f_equal. ring.
Qed.

Lemma trima_fin (a : lineR) n k x p :
  feeds a n k (fin x) -> (1 <= p)%nat ->
  exists p1 p2, (1 <= p1)%nat /\ (1 <= p2)%nat /\ (p1 + p2 = p + 1)%nat /\ (p2 <= p1 <= p2 + 1)%nat /\
    delivers (trima p a) n (k + p - 1)
      (fin (fun i => Rmean (lastp (fun j => Rmean (lastp x j p2)) i p1))).
Proof.
  intros Ha Hp. unfold trima.
  assert (H : exists p1 p2, (if Nat.odd p then (((p + 1) / 2)%nat, ((p + 1) / 2)%nat)
                             else ((p / 2 + 1)%nat, (p / 2)%nat)) = (p1, p2) /\
            (1 <= p1)%nat /\ (1 <= p2)%nat /\ (p1 + p2 = p + 1)%nat /\ (p2 <= p1 <= p2 + 1)%nat).
  { pose proof (Nat.div_mod p 2 ltac:(lia)) as Hd.
    pose proof (Nat.div_mod (p + 1) 2 ltac:(lia)) as Hd1.
    pose proof (Nat.mod_upper_bound p 2 ltac:(lia)).
    pose proof (Nat.mod_upper_bound (p + 1) 2 ltac:(lia)).
    destruct (Nat.odd p) eqn:Ho.
    - apply Nat.odd_spec in Ho. destruct Ho as [q Hq].
      do 2 eexists. split; [reflexivity|]. subst p.
      replace (2 * q + 1 + 1)%nat with ((q + 1) * 2)%nat in * by lia.
      rewrite Nat.div_mul by lia. lia.
    - assert (He : Nat.even p = true) by (rewrite <- Nat.negb_odd, Ho; reflexivity).
      apply Nat.even_spec in He. destruct He as [q Hq].
      do 2 eexists. split; [reflexivity|]. subst p.
      replace (2 * q)%nat with (q * 2)%nat in * by lia.
      rewrite Nat.div_mul by lia. lia. }
  destruct H as (p1 & p2 & E & H1 & H2 & H3 & H4). exists p1, p2. rewrite E.
  repeat (split; [assumption|]).
  pose proof (sma_fin (delivers_feeds (sma_fin Ha H2)) H1) as D.
  replace (k + p2 - 1 + p1 - 1)%nat with (k + p - 1)%nat in D by lia. exact D.
Qed.

Lemma trix_fin (a : lineR) n k x p :
  feeds a n k (fin x) -> (1 <= p)%nat -> (k + 3 * (p - 1) + 1 <= n)%nat ->
  exists y e1 e2 e3, trix ema p a = Ok y /\
    is_ema p k x e1 /\ is_ema p (k + (p - 1)) e1 e2 /\ is_ema p (k + 2 * (p - 1)) e2 e3 /\
    ((forall i, (k + 3 * (p - 1) <= i)%nat -> e3 i <> 0) ->
     delivers y n (k + 3 * (p - 1) + 1)
       (fin (fun i => 100 * ((e3 i - e3 (i - 1)%nat) / e3 (i - 1)%nat)))).
Proof.
  intros Ha Hp Hn. unfold trix.
  destruct (ema3_fin Ha Hp Hn) as
    (y1 & y2 & y3 & e1 & e2 & e3 & E1 & E2 & E3 & S1 & S2 & S3 & D1 & D2 & D3).
  step_ok E1. step_ok E2. step_ok E3.
  eexists _, e1, e2, e3. split; [reflexivity|].
  repeat (split; [assumption|]). intro Hz.
  pose proof (at_ago_delivers (p := 1) (delivers_feeds D3) ltac:(lia)) as Ds.
  pose proof (rbinop_s_delivers vmul (vofZ 100) (delivers_feeds (binop_s_delivers vsub (vofZ 1)
    (delivers_feeds (binop_delivers vdiv (delivers_feeds D3) (delivers_feeds Ds)))))) as D.
  match type of D with delivers _ _ ?m _ => replace m with (k + 3 * (p - 1) + 1)%nat in D by lia end.
  eapply delivers_ext; [|exact D].
  intros i Hi. cbv beta. unfold fin.
  assert (Hz1 : e3 (i - 1)%nat <> 0) by (apply Hz; lia).
  rewrite vdiv_fin, !vofZ_fin, vsub_fin, vmul_fin by auto. f_equal. field. auto.
Qed.
