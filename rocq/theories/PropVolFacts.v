(** Lemmas behind the property theorem C64. *)
From Coq Require Import ZArith QArith List Bool Lia Arith Reals Lra Psatz.
From Verif Require Import Num Series Line Spec RSpec BoundSpec VolSpec LineFacts ScanFacts RFacts OpFacts
  IndMA MAFacts RLineFacts IndBasic BasicFacts StatFacts IndVol VolFacts.
Import ListNotations.
Set Implicit Arguments.
Local Open Scope R_scope.

Lemma obv_all (c v : lineR) n k xc xv q :
  feeds c n k (fin xc) -> feeds v n k (fin xv) ->
  exists f, delivers (obv false q c v) n (k + q) (fin f) /\
    f (k + q)%nat = signed_volume xc xv q (k + q) /\
    forall i, (k + q <= i)%nat -> f (S i) = f i + signed_volume xc xv q (S i).
Proof.
  intros Hc Hv. eexists. split; [exact (@obv_fin c v n k xc xv q Hc Hv)|]. split; [apply total_first|]. intros i Hi. now apply total_S.
Qed.
Lemma obv_talib_all (c v : lineR) n k xc xv q :
  feeds c n k (fin xc) -> feeds v n k (fin xv) -> (1 <= q)%nat ->
  exists f, delivers (obv true q c v) n (k + q - 1) (fin f) /\
    f (k + q - 1)%nat = xv (k + q - 1)%nat /\
    forall i, (k + q - 1 <= i)%nat -> f (S i) = f i + signed_volume xc xv q (S i).
Proof.
  intros Hc Hv Hq. eexists. split; [exact (@obv_talib_fin c v n k xc xv q Hc Hv Hq)|]. split.
  - rewrite total_first. now rewrite Nat.eqb_refl.
  - intros i Hi. rewrite total_S by exact Hi. destruct (Nat.eqb_spec (S i) (k + q - 1)); [lia|reflexivity].
Qed.

Lemma ad_all (h l c v : lineR) n k xh xl xc xv :
  feeds h n k (fin xh) -> feeds l n k (fin xl) -> feeds c n k (fin xc) -> feeds v n k (fin xv) ->
  (forall i, (k <= i < n)%nat -> xl i <= xc i <= xh i) ->
  exists f T, delivers (ad h l c v) n k f /\
    T k = close_position xh xl xc k * xv k /\
    (forall i, (k <= i)%nat -> T (S i) = T i + close_position xh xl xc (S i) * xv (S i)) /\
    (forall i, (k <= i < n)%nat ->
       (xh i = xl i -> f i = NaN) /\ (xh i <> xl i -> f i = Fin (T i)) /\
       -1 <= close_position xh xl xc i <= 1).
Proof.
  intros Hh Hl Hc Hv Hb. eexists. exists (total (fun j => close_position xh xl xc j * xv j) k).
  split; [exact (@ad_fin h l c v n k xh xl xc xv Hh Hl Hc Hv Hb)|]. split; [apply total_first|].
  split; [intros i Hi; now apply total_S|]. intros i Hi. cbv beta.
  split; [|split].
  - intro E. now destruct (Req_EM_T (xh i) (xl i)).
  - intro E. now destruct (Req_EM_T (xh i) (xl i)).
  - apply close_position_bound. now apply Hb.
Qed.

(** a close outside a bar without range is never forgotten *)
Definition notfin (v : ext R) : Prop := forall r, v <> Fin r.
Lemma notfin_add u v : notfin u -> notfin (vadd u v).
Proof.
  intros Hu r. destruct u as [| | |u]; [destruct v; discriminate| | |exfalso; exact (Hu u eq_refl)].
  all: destruct v; discriminate.
Qed.
Lemma cum_poison (f : nat -> ext R) k b acc d :
  notfin (f (k + b)%nat) -> f (k + b)%nat <> NaN -> (b <= d)%nat ->
  notfin (scan_st (cumsum_step (V:=ext R)) f k acc (S d)) /\
  notfin (snd (cumsum_step (scan_st (cumsum_step (V:=ext R)) f k acc d) (f (k + d)%nat))).
Proof.
  intros Hn Hne. induction 1 as [|d Hd IH].
  - cbn [scan_st]. unfold cumsum_step at 1 3.
    assert (visnan (f (k + b)%nat) = false) as ->. { destruct (f (k + b)%nat); try reflexivity. congruence. }
    cbv zeta. cbn [fst snd].
    assert (X : forall u v : ext R, notfin v -> notfin (vadd u v)).
    { intros u w Hw r. destruct w as [| | |w]; [| | |exfalso; exact (Hw w eq_refl)]; destruct u; discriminate. }
    split; apply X; exact Hn.
  - destruct IH as [A _]. set (st := scan_st (cumsum_step (V:=ext R)) f k acc (S d)) in *.
    change (scan_st (cumsum_step (V:=ext R)) f k acc (S (S d))) with (fst (cumsum_step st (f (k + S d)%nat))).
    unfold cumsum_step. destruct (visnan (f (k + S d)%nat)); cbv zeta; cbn [fst snd].
    + split; [exact A|]. intros r. discriminate.
    + split; now apply notfin_add.
Qed.
Lemma ad_poison (h l c v : lineR) n k xh xl xc xv b :
  feeds h n k (fin xh) -> feeds l n k (fin xl) -> feeds c n k (fin xc) -> feeds v n k (fin xv) ->
  (k <= b < n)%nat -> xh b = xl b -> xc b <> xl b -> xv b <> 0 ->
  exists f, delivers (ad h l c v) n k f /\ forall i r, (b <= i < n)%nat -> f i <> Fin r.
Proof.
  intros Hh Hl Hc Hv Hb E1 E2 E3. unfold ad. cbv zeta.
  assert (M := @mfm_fin h l c n k xh xl xc Hh Hl Hc).
  set (g := fun i => vmul (quot (2 * xc i - xh i - xl i) (xh i - xl i)) (Fin (xv i))).
  assert (D : delivers (lmul (ldiv (lsub (lsub (rbinop_s vmul (vofZ 2) c) h) l) (lsub h l)) v) n k g).
  { eapply del_ext; [| |eapply binop_delivers; [eapply delivers_feeds; exact M|exact Hv]]; [lia|]. reflexivity. }
  exists (fun i => snd (cumsum_step (scan_st (cumsum_step (V:=ext R)) g k v0 (i - k)) (g i))). split.
  - eapply stdop_delivers; [eapply delivers_feeds; exact D|]. unfold ser_cumsum. now rewrite cumsum_scan, scan_seq.
  - intros i r Hi. assert (G : notfin (g b) /\ g b <> NaN).
    { unfold g. replace (xh b - xl b) with 0 by lra.
      assert (Q : quot (2 * xc b - xh b - xl b) 0 = PInf \/ quot (2 * xc b - xh b - xl b) 0 = NInf).
      { destruct (Rlt_dec 0 (2 * xc b - xh b - xl b)); [left; now apply quot_pos0|right; apply quot_neg0; lra]. }
      assert (SI : forall w : R, w <> 0 -> (vmul PInf (Fin w) = PInf \/ vmul PInf (Fin w) = NInf :> ext R) /\
                          (vmul NInf (Fin w) = PInf \/ vmul NInf (Fin w) = NInf :> ext R)).
      { intros w Hw. change (vmul PInf (Fin w)) with (inf_signed w). change (vmul NInf (Fin w)) with (inf_opp w).
        unfold inf_signed, inf_opp, bpos, bneg, b0. cbn. destruct (Rltb_spec 0 w); [tauto|].
        destruct (Rltb_spec w 0); [tauto|lra]. }
      destruct (SI (xv b) E3) as [SP SN].
      destruct Q as [-> | ->]; [destruct SP as [-> | ->]|destruct SN as [-> | ->]]; (split; [intros w|]; discriminate). }
    destruct G as [G1 G2].
    replace b with (k + (b - k))%nat in G1, G2 by lia.
    destruct (@cum_poison g k (b - k) v0 (i - k) G1 G2 ltac:(lia)) as [_ X].
    replace (k + (i - k))%nat with i in X by lia. apply X.
Qed.

Lemma adosc_all (ma : ma_fun (ext R)) (h l c v : lineR) n k xh xl xc xv pfast pslow :
  averages ma ->
  feeds h n k (fin xh) -> feeds l n k (fin xl) -> feeds c n k (fin xc) -> feeds v n k (fin xv) ->
  (forall i, (k <= i < n)%nat -> xl i <= xc i <= xh i /\ xl i <> xh i) ->
  (1 <= pfast <= pslow)%nat -> (k + pslow <= n)%nat ->
  exists y yf ys f s,
    adosc ma pfast pslow h l c v = Ok y /\
    ma pfast (ad h l c v) = Ok yf /\ delivers yf n (k + pfast - 1) (fin f) /\
    ma pslow (ad h l c v) = Ok ys /\ delivers ys n (k + pslow - 1) (fin s) /\
    delivers y n (k + pslow - 1) (fin (fun i => f i - s i)).
Proof.
  intros Hma Hh Hl Hc Hv Hb Hp Hn.
  assert (A : feeds (ad h l c v) n k (fin (total (fun j => close_position xh xl xc j * xv j) k))).
  { eapply feeds_ext; [|eapply delivers_feeds, (@ad_fin h l c v n k xh xl xc xv); auto; intros i Hi; now apply Hb].
    intros i Hi. cbv beta. destruct (Hb i Hi) as [_ H]. now destruct (Req_EM_T (xh i) (xl i)); [congruence|]. }
  destruct (Hma pfast _ n k _ A ltac:(lia) ltac:(lia)) as (yf & f & Ef & Df).
  destruct (Hma pslow _ n k _ A ltac:(lia) ltac:(lia)) as (ys & s & Es & Ds).
  exists (lsub yf ys), yf, ys, f, s. split; [unfold adosc; cbv zeta; now rewrite Ef, Es|].
  split; [exact Ef|]. split; [exact Df|]. split; [exact Es|]. split; [exact Ds|].
  eapply fin_ext; [| |eapply lsub_fin; eapply delivers_feeds; [exact Df|exact Ds]]; [lia|reflexivity].
Qed.
