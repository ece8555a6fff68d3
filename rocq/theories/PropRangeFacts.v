(** Lemmas behind the property theorems C52-C56. *)
From Coq Require Import ZArith QArith List Bool Lia Arith Reals Lra Psatz.
From Verif Require Import Num Series Line Spec RSpec BoundSpec RangeSpec LineFacts ScanFacts RFacts OpFacts
  IndMA MAFacts RLineFacts IndBasic BasicFacts BoundFacts IndRange RangeFacts RangeFacts2.
Import ListNotations.
Set Implicit Arguments.
Local Open Scope R_scope.

Lemma truerange_all (h l c : lineR) n k q xh xl xc :
  (1 <= q)%nat -> feeds h n k (fin xh) -> feeds l n k (fin xl) -> feeds c n k (fin xc) ->
  exists t,
    delivers (truerange q h l c) n (k + q) (fin t) /\
    delivers (truelow q l c) n (k + q) (fin (fun i => Rmin (xl i) (xc (i - q)%nat))) /\
    forall i, 0 <= t i /\
      (xl i <= xh i ->
       is_max (t i) [xh i - xl i; Rabs (xh i - xc (i - q)%nat); Rabs (xc (i - q)%nat - xl i)]).
Proof.
  intros Hq Hh Hl Hc. exists (true_range xh xl xc q). split; [now apply truerange_fin|].
  split; [now apply truelow_fin|]. intro i. split; [apply true_range_nonneg|]. intro H. now apply true_range_max.
Qed.

Lemma atr_all (h l c : lineR) n k q p xh xl xc :
  (1 <= q)%nat -> feeds h n k (fin xh) -> feeds l n k (fin xl) -> feeds c n k (fin xc) ->
  (1 <= p)%nat -> (k + q + p <= n)%nat ->
  exists t y z e,
    delivers (truerange q h l c) n (k + q) (fin t) /\
    atr smma p q h l c = Ok y /\ natr smma p q h l c = Ok z /\
    is_smma p (k + q) t e /\
    delivers y n (k + q + p - 1) (fin e) /\
    (forall i, (k + q + p - 1 <= i)%nat -> 0 <= e i) /\
    delivers z n (k + q + p - 1) (fun i => quot (100 * e i) (xc i)).
Proof.
  intros Hq Hh Hl Hc Hp Hn. assert (T := @truerange_fin h l c n k q xh xl xc Hq Hh Hl Hc).
  destruct (@smma_fin _ n (k + q) _ p (delivers_feeds T) Hp ltac:(lia)) as (y & e & E & S & D).
  exists (true_range xh xl xc q), y, (ldiv (rbinop_s vmul (vofZ 100) y) c), e.
  split; [exact T|]. split; [exact E|]. split; [unfold natr, atr; now rewrite E|]. split; [exact S|]. split; [exact D|].
  split.
  - intros i Hi. 
    assert (W : exists hi, within (true_range xh xl xc q) (k + q) i 0 hi).
    { clear. induction i as [|i [hi IH]].
      - exists (true_range xh xl xc q 0). intros j Hj. replace j with 0%nat by lia. split; [apply true_range_nonneg|lra].
      - exists (Rmax hi (true_range xh xl xc q (S i))). intros j Hj. split; [apply true_range_nonneg|].
        destruct (Nat.eq_dec j (Datatypes.S i)) as [->|Hne]; [apply Rmax_r|].
        eapply Rle_trans; [apply (IH j); lia|apply Rmax_l]. }
    destruct W as [hi W]. eapply (is_smma_within Hp S Hi W).
  - eapply del_ext; [| |eapply ldiv_quot; [eapply delivers_feeds; rewrite vofZ_fin; apply rmuls_fin; eapply delivers_feeds; exact D|exact Hc]].
    + lia.
    + reflexivity.
Qed.

(** any average that delivers gives an atr *)
Lemma atr_ma (ma : ma_fun (ext R)) (h l c : lineR) n k q p xh xl xc :
  averages ma ->
  (1 <= q)%nat -> feeds h n k (fin xh) -> feeds l n k (fin xl) -> feeds c n k (fin xc) ->
  (1 <= p)%nat -> (k + q + p <= n)%nat ->
  exists y e, ma p (truerange q h l c) = Ok y /\ atr ma p q h l c = Ok y /\
    delivers y n (k + q + p - 1) (fin e) /\
    exists z, natr ma p q h l c = Ok z /\ delivers z n (k + q + p - 1) (fun i => quot (100 * e i) (xc i)).
Proof.
  intros Hma Hq Hh Hl Hc Hp Hn. assert (T := @truerange_fin h l c n k q xh xl xc Hq Hh Hl Hc).
  destruct (Hma p _ n (k + q)%nat _ (delivers_feeds T) Hp ltac:(lia)) as (y & e & E & D).
  exists y, e. split; [exact E|]. split; [exact E|]. split; [exact D|].
  exists (ldiv (rbinop_s vmul (vofZ 100) y) c). split; [unfold natr, atr; now rewrite E|].
  eapply del_ext; [| |eapply ldiv_quot; [eapply delivers_feeds; rewrite vofZ_fin; apply rmuls_fin; eapply delivers_feeds; exact D|exact Hc]].
  - lia.
  - reflexivity.
Qed.

Lemma truehigh_fails {V} {N : Num V} q (low close : line V) : truehigh q low close = Raise AttributeError.
Proof. reflexivity. Qed.

(** ** Directional movement *)

Lemma moves_all (h l : lineR) n k q xh xl :
  (1 <= q)%nat -> feeds h n k (fin xh) -> feeds l n k (fin xl) ->
  exists P M,
    delivers (pdm1 q h l) n (k + q) (fin P) /\ delivers (mdm1 q h l) n (k + q) (fin M) /\
    forall i,
      let up := xh i - xh (i - q)%nat in
      let down := xl (i - q)%nat - xl i in
      P i = (if Rlt_dec down up then Rmax up 0 else 0) /\
      M i = (if Rlt_dec up down then Rmax down 0 else 0) /\
      0 <= P i /\ 0 <= M i /\ (P i = 0 \/ M i = 0).
Proof.
  intros Hq Hh Hl. exists (plus_move xh xl q), (minus_move xh xl q).
  split; [now apply pdm1_fin|]. split; [now apply mdm1_fin|]. intros i up down.
  split; [reflexivity|]. split; [reflexivity|]. apply move_exclusive.
Qed.

Section DX.
  Variables (h l c : lineR) (n k q : nat) (xh xl xc : nat -> R).
  Variables (sm : lineR -> res lineR) (first : nat -> nat).
  Hypothesis Hh : feeds h n k (fin xh).
  Hypothesis Hl : feeds l n k (fin xl).
  Hypothesis Hc : feeds c n k (fin xc).
  Hypothesis Hq : (1 <= q)%nat.
  Hypothesis Hsm : smooths sm first.
  Hypothesis Hn : (first (k + q) < n)%nat.
  Hypothesis Hbar : forall i, (k <= i < n)%nat -> xl i <= xc i <= xh i.

  Lemma di_bounded :
    exists pd md,
      plus_di sm q h l c = Ok pd /\ minus_di sm q h l c = Ok md /\ di sm q h l c = Ok (pd, md) /\
      bounded pd n (S (first (k + q))) 0 100 /\ bounded md n (S (first (k + q))) 0 100.
  Proof.
    destruct (@di_fin h l c n k q xh xl xc sm first Hh Hl Hc Hq Hsm Hn Hbar)
      as (p & m & pd & md & P & M & T & _ & _ & _ & E1 & E2 & E3 & _ & _ & _ & D1 & D2 & B).
    exists pd, md. do 3 (split; [assumption|]).
    split; eexists; (split; [eassumption|]); intros i Hi; destruct (B i ltac:(lia)) as [BP BM].
    - apply quot_in; lra.
    - apply quot_in; lra.
  Qed.

  Lemma dx_fin :
    exists p m y P M,
      dm sm q h l = Ok (p, m) /\
      delivers p n (first (k + q)) (fin P) /\ delivers m n (first (k + q)) (fin M) /\
      dx sm q h l c = Ok y /\
      (forall i, (first (k + q) <= i < n)%nat -> 0 <= P i /\ 0 <= M i) /\
      delivers y n (S (first (k + q))) (fun i => quot (100 * Rabs (P i - M i)) (P i + M i)) /\
      bounded y n (S (first (k + q))) 0 100.
  Proof.
    destruct (@di_fin h l c n k q xh xl xc sm first Hh Hl Hc Hq Hsm Hn Hbar)
      as (p & m & pd & md & P & M & T & _ & _ & E0 & E1 & E2 & E3 & Dp & Dm & _ & D1 & D2 & B).
    assert (D : delivers (ldiv (rbinop_s vmul (vofZ 100) (labs (lsub pd md))) (ladd pd md)) n (S (first (k + q)))
       (fun i => quot (100 * Rabs (P i - M i)) (P i + M i))).
    { eapply del_ext; [| |eapply binop_delivers;
        [eapply delivers_feeds, rbinop_s_delivers, delivers_feeds, mapop_delivers, delivers_feeds, binop_delivers;
           eapply delivers_feeds; [exact D1|exact D2]
        |eapply delivers_feeds, binop_delivers; eapply delivers_feeds; [exact D1|exact D2]]].
      - lia.
      - intros i Hi. cbv beta. rewrite vofZ_fin. apply dx_point; apply B; lia. }
    exists p, m, (ldiv (rbinop_s vmul (vofZ 100) (labs (lsub pd md))) (ladd pd md)), P, M.
    split; [exact E0|]. split; [exact Dp|]. split; [exact Dm|].
    split; [unfold dx; now rewrite E3|]. 
    assert (B' : forall i, (first (k + q) <= i < n)%nat -> 0 <= P i /\ 0 <= M i).
    { intros i Hi. destruct (B i Hi). lra. }
    split; [exact B'|]. split; [exact D|]. eexists. split; [exact D|].
    intros i Hi. apply dx_in; apply B'; lia.
  Qed.

  Lemma adx_bounded (ma : ma_fun (ext R)) p :
    keeps_range ma -> (1 <= p)%nat -> (S (first (k + q)) + p <= n)%nat ->
    exists y, adx ma p sm q h l c = Ok y /\ bounded y n (S (first (k + q)) + p - 1) 0 100.
  Proof.
    intros Hma Hp Hn'. destruct dx_fin as (_ & _ & d & _ & _ & _ & _ & _ & E & _ & _ & (f & D & Hf)).
    destruct (Hma p d n _ f 0 100 (delivers_feeds D) Hp Hn' Hf) as (y & Ey & By).
    exists y. split; [unfold adx; now rewrite E|exact By].
  Qed.

  Lemma half_sum_in lo hi u v : num_in lo hi u -> num_in lo hi v -> num_in lo hi (vdiv (vadd u v) (Fin 2)).
  Proof.
    intros [->|(r & -> & Hr)] [->|(s & -> & Hs)]; try (left; reflexivity).
    rewrite vadd_fin, vdiv_fin by lra. apply num_in_fin. lra.
  Qed.

  (** [r]: the distance of the rating *)
  Lemma adxr_bounded (ma : ma_fun (ext R)) p (talib : bool) prating :
    keeps_range ma -> (1 <= p)%nat -> (S (first (k + q)) + p <= n)%nat ->
    let base := if Nat.eqb prating 0 then p else prating in
    let r := if talib then (base - 1)%nat else base in
    (1 <= r)%nat ->
    exists y z, adx ma p sm q h l c = Ok y /\ adxr talib prating ma p sm q h l c = Ok z /\
      exists f, delivers y n (S (first (k + q)) + p - 1) f /\
        delivers z n (S (first (k + q)) + p - 1 + r) (fun i => vdiv (vadd (f i) (f (i - r)%nat)) (Fin 2)) /\
        bounded z n (S (first (k + q)) + p - 1 + r) 0 100.
  Proof.
    intros Hma Hp Hn' base r Hr. destruct (@adx_bounded ma p Hma Hp Hn') as (y & Ey & (f & D & Hf)).
    assert (Hb : (1 <= base)%nat). { subst base. destruct (Nat.eqb_spec prating 0); lia. }
    set (k' := (S (first (k + q)) + p - 1)%nat) in *.
    assert (A : feeds (at_ago y (- (Z.of_nat base - (if talib then 1 else 0)))) n (k' + r)
                  (fun i => f (i - r)%nat)).
    { replace (Z.of_nat base - (if talib then 1 else 0))%Z with (Z.of_nat r) by (subst r; destruct talib; lia).
      eapply delivers_feeds, at_ago_delivers; [eapply delivers_feeds; exact D|exact Hr]. }
    exists y. eexists. split; [exact Ey|]. split; [unfold adxr; rewrite Ey; reflexivity|].
    exists f. split; [exact D|].
    assert (DZ : delivers (binop_s vdiv (ladd y (at_ago y (- (Z.of_nat base - (if talib then 1 else 0))))) (vofZ 2))
      n (k' + r) (fun i => vdiv (vadd (f i) (f (i - r)%nat)) (Fin 2))).
    { eapply del_ext; [| |eapply binop_s_delivers, delivers_feeds, binop_delivers; [eapply delivers_feeds; exact D|exact A]].
      - lia.
      - intros i _. cbv beta. now rewrite vofZ_fin. }
    split; [exact DZ|]. eexists. split; [exact DZ|]. intros i Hi. apply half_sum_in; apply Hf; lia.
  Qed.

  (** a rating over one bar in ta-lib mode looks back 0 bars *)
  Lemma adxr_one (ma : ma_fun (ext R)) p prating :
    keeps_range ma -> (1 <= p)%nat -> (S (first (k + q)) + p <= n)%nat ->
    prating = 1%nat \/ (prating = 0%nat /\ p = 1%nat) ->
    exists z, adxr true prating ma p sm q h l c = Ok z /\ lser z = repeat NaN n.
  Proof.
    intros Hma Hp Hn' Hr. destruct (@adx_bounded ma p Hma Hp Hn') as (y & Ey & (f & D & Hf)).
    assert (Hb : (if Nat.eqb prating 0 then p else prating) = 1%nat).
    { destruct Hr as [->|[-> ->]]; reflexivity. }
    eexists. split; [unfold adxr; rewrite Ey, Hb; reflexivity|].
    set (k' := (S (first (k + q)) + p - 1)%nat) in *.
    assert (A : feeds (at_ago y (- (Z.of_nat 1 - 1))) n k' (fun _ => NaN)).
    { exact (delivers_feeds (at_ago_zero (delivers_feeds D))). }
    assert (DZ : delivers (binop_s vdiv (ladd y (at_ago y (- (Z.of_nat 1 - 1)))) (vofZ 2)) n (Nat.max k' k') (fun _ => NaN)).
    { eapply del_ext; [| |eapply binop_s_delivers, delivers_feeds, binop_delivers; [eapply delivers_feeds; exact D|exact A]].
      - reflexivity.
      - intros i _. cbv beta. destruct (f i); reflexivity. }
    destruct DZ as [[_ [L Z]] W]. apply nth_error_ext; [now rewrite repeat_length|]. intros i Hi.
    rewrite nth_error_repeat_ok by lia.
    destruct (Nat.ltb_spec i (Nat.max k' k')); [apply W; lia|apply Z; lia].
  Qed.
End DX.

(** ** C55 *)

Lemma di_late (h l c : lineR) n k q xh xl xc sm (first : nat -> nat) :
  feeds h n k (fin xh) -> feeds l n k (fin xl) -> feeds c n k (fin xc) -> (1 <= q)%nat ->
  smooths sm first -> (first (k + q) < n)%nat ->
  (forall i, (k <= i < n)%nat -> xl i <= xc i <= xh i) ->
  exists p m t pd md P M T,
    dm sm q h l = Ok (p, m) /\ sm (truerange q h l c) = Ok t /\ di sm q h l c = Ok (pd, md) /\
    delivers p n (first (k + q)%nat) (fin P) /\ delivers m n (first (k + q)%nat) (fin M) /\
    delivers t n (first (k + q)%nat) (fin T) /\
    delivers pd n (first (k + q) + 1)%nat (fun i => quot (100 * P i) (T i)) /\
    delivers md n (first (k + q) + 1)%nat (fun i => quot (100 * M i) (T i)).
Proof.
  intros Hh Hl Hc Hq Hsm Hn Hbar.
  destruct (@di_fin h l c n k q xh xl xc sm first Hh Hl Hc Hq Hsm Hn Hbar)
    as (p & m & pd & md & P & M & T & _ & _ & E0 & E1 & E2 & E3 & Dp & Dm & (t & Et & Dt) & D1 & D2 & B).
  exists p, m, t, pd, md, P, M, T. replace (first (k + q)%nat + 1)%nat with (S (first (k + q)%nat)) by lia.
  do 7 (split; [assumption|]). assumption.
Qed.

(** ** Short histories *)
Lemma smacc_short {V} {N : Num V} (a : line V) n k f p :
  feeds a n k f -> (1 <= p)%nat -> (n < k + p)%nat -> smacc p false SEED_SUM a = Raise IndexError.
Proof.
  intros Ha Hp Hn. unfold smacc. apply (@ewm_short _ _ a n k f); auto; lia.
Qed.
