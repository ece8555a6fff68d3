(** Property theorems C124: results of the exponential averages stop depending on old history, at a
    stated rate.  Models: IndMA.v, IndBasic.v, IndRange.v; specification: ForgetSpec.v, RSpec.v. *)
From Coq Require Import ZArith QArith List Bool Reals Lra Lia.
From Verif Require Import Num Series Line Spec RSpec RangeSpec VolSpec LineFacts IndMA IndBasic IndRange IndVol
  PropLinesFacts ForgetSpec ForgetSettle.
Import ListNotations.
Local Open Scope R_scope.

(** ema over a history ([a], [d + n] bars, usable from bar [k]) and over the same history without its
    first [d] bars ([a']): the difference shrinks by the factor 1 - 2/(p+1) with every further bar,
    starting from a difference no larger than the range of the prices. *)
Theorem C124_ema :
  forall (a a' : line (ext R)) (n d k p : nat) (x : nat -> R),
    feeds a (d + n) k (fin x) -> feeds a' n k (fin (fun i => x (d + i)%nat)) ->
    (1 <= p)%nat -> (k + p <= n)%nat ->
    exists y y' e e', ema p a = Ok y /\ ema p a' = Ok y' /\
      delivers y (d + n) (k + p - 1) (fin e) /\ delivers y' n (k + p - 1) (fin e') /\
      forall i, (k + p - 1 <= i)%nat ->
        e' i - e (d + i)%nat =
          (1 - 2 / (INR p + 1)) ^ (i - (k + p - 1)) * (e' (k + p - 1)%nat - e (d + (k + p - 1))%nat) /\
        forall lo hi, within x k (d + i) lo hi ->
          Rabs (e' i - e (d + i)%nat) <= (1 - 2 / (INR p + 1)) ^ (i - (k + p - 1)) * (hi - lo).
Proof. exact ema_forgets_plain. Qed.
Print Assumptions C124_ema.

(** ... and smma with the factor 1 - 1/p. *)
Theorem C124_smma :
  forall (a a' : line (ext R)) (n d k p : nat) (x : nat -> R),
    feeds a (d + n) k (fin x) -> feeds a' n k (fin (fun i => x (d + i)%nat)) ->
    (1 <= p)%nat -> (k + p <= n)%nat ->
    exists y y' e e', smma p a = Ok y /\ smma p a' = Ok y' /\
      delivers y (d + n) (k + p - 1) (fin e) /\ delivers y' n (k + p - 1) (fin e') /\
      forall i, (k + p - 1 <= i)%nat ->
        e' i - e (d + i)%nat =
          (1 - 1 / INR p) ^ (i - (k + p - 1)) * (e' (k + p - 1)%nat - e (d + (k + p - 1))%nat) /\
        forall lo hi, within x k (d + i) lo hi ->
          Rabs (e' i - e (d + i)%nat) <= (1 - 1 / INR p) ^ (i - (k + p - 1)) * (hi - lo).
Proof. exact smma_forgets_plain. Qed.
Print Assumptions C124_smma.

(** atr: the difference is at most (1 - 1/p)^m times the largest true range seen. *)
Theorem C124_atr :
  forall (h l c h' l' c' : line (ext R)) n d k p xh xl xc,
    feeds h (d + n) k (fin xh) -> feeds l (d + n) k (fin xl) -> feeds c (d + n) k (fin xc) ->
    feeds h' n k (fin (fun i => xh (d + i)%nat)) -> feeds l' n k (fin (fun i => xl (d + i)%nat)) ->
    feeds c' n k (fin (fun i => xc (d + i)%nat)) ->
    (1 <= p)%nat -> (k + 1 + p <= n)%nat ->
    exists y y' e e', atr smma p 1 h l c = Ok y /\ atr smma p 1 h' l' c' = Ok y' /\
      delivers y (d + n) (k + p) (fin e) /\ delivers y' n (k + p) (fin e') /\
      forall i B, (k + p <= i)%nat ->
        (forall j, (k < j <= d + i)%nat -> true_range xh xl xc 1 j <= B) ->
        Rabs (e' i - e (d + i)%nat) <= (1 - 1 / INR p) ^ (i - (k + p)) * B.
Proof. exact atr_forgets. Qed.
Print Assumptions C124_atr.

(** Averages of averages and macd: for every range of prices and every tolerance there is one number
    of bars that suffices, whatever was left out. *)
Theorem C124_settle :
  (forall p, (1 <= p)%nat ->
     settles (ema p) /\ settles (smma p) /\ settles (dema ema p) /\ settles (tema ema p) /\
     forall v, settles (t3 p (Fin v))) /\
  (forall pf ps pg, (1 <= pf <= ps)%nat -> (1 <= pg)%nat ->
     settles (fun a => bind (macd ema ema pf ps pg a) (fun t => Ok (fst (fst t)))) /\
     settles (fun a => bind (macd ema ema pf ps pg a) (fun t => Ok (snd (fst t)))) /\
     settles (fun a => bind (macd ema ema pf ps pg a) (fun t => Ok (snd t)))).
Proof. exact settle_all. Qed.
Print Assumptions C124_settle.

(** Any column of numbers, with and without its first bars, meets the hypotheses. *)
Definition fx : list R := [9; 5; 7; 9; 8; 8; 11; 12; 10; 9].
Example C124_met :
  feeds (raw (map Fin fx)) (3 + 7) 0 (fin (fun i => nth i fx 0)) /\
  feeds (raw (map Fin (skipn 3%nat fx))) 7 0 (fin (fun i => nth (3 + i) fx 0)) /\
  within (fun i => nth i fx 0) 0 9 5 12.
Proof.
  destruct (column_feeds fx 3 7 eq_refl) as [A B]. split; [exact A|]. split; [exact B|].
  intros i Hi. do 10 (destruct i as [|i]; [simpl; lra|]). lia.
Qed.
(** ... so three dropped bars leave at most (1/3)^5 * 7 < 3/100 of difference on the last of them for
    ema over 2 bars *)
Example C124_use :
  exists y y' v v', ema 2%nat (raw (map Fin fx)) = Ok y /\ ema 2%nat (raw (map Fin (skipn 3%nat fx))) = Ok y' /\
    nth_error (lser y) 9%nat = Some (Fin v) /\ nth_error (lser y') 6%nat = Some (Fin v') /\
    Rabs (v' - v) < 3 / 100.
Proof.
  destruct C124_met as (A & B & W).
  destruct (C124_ema _ _ _ _ _ 2 _ A B ltac:(lia) ltac:(lia)) as (y & y' & e & e' & E & E' & D & D' & F).
  exists y, y', (e 9%nat), (e' 6%nat). split; [exact E|]. split; [exact E'|].
  destruct D as [(_ & _ & D) _]. destruct D' as [(_ & _ & D') _].
  split; [exact (D 9%nat ltac:(lia))|]. split; [exact (D' 6%nat ltac:(lia))|].
  destruct (F 6%nat ltac:(lia)) as [_ F2]. specialize (F2 5 12 W). simpl in F2.
  eapply Rle_lt_trans; [exact F2|]. lra.
Qed.
(** ... and the same histories run on fractions: the difference is there and small *)
Example C124_run :
  exists y y' v v', ema 2%nat (raw (map Fin [9; 5; 7; 9; 8; 8; 11; 12; 10; 9]%Q)) = Ok y /\
    ema 2%nat (raw (map Fin [9; 8; 8; 11; 12; 10; 9]%Q)) = Ok y' /\
    nth_error (lser y) 9%nat = Some (Fin v) /\ nth_error (lser y') 6%nat = Some (Fin v') /\
    (v' - v == 7 # 4374)%Q.
Proof. do 4 eexists. repeat (apply conj); vm_compute; reflexivity. Qed.

(** Running totals never settle: what the dropped bars contributed to obv is missing from every later
    value, unchanged. *)
Theorem C124_obv :
  forall (c v c' v' : line (ext R)) n d k q xc xv,
    feeds c (d + n) k (fin xc) -> feeds v (d + n) k (fin xv) ->
    feeds c' n k (fin (fun i => xc (d + i)%nat)) -> feeds v' n k (fin (fun i => xv (d + i)%nat)) ->
    exists f f', delivers (obv false q c v) (d + n) (k + q) (fin f) /\
      delivers (obv false q c' v') n (k + q) (fin f') /\
      forall i, (k + q <= i)%nat ->
        f (d + i)%nat - f' i = Rsum (map (signed_volume xc xv q) (seq (k + q) d)).
Proof. exact obv_keeps. Qed.
Print Assumptions C124_obv.

(** The same for ad, whose value is missing on bars without range. *)
Theorem C124_ad :
  forall (h l c v h' l' c' v' : line (ext R)) n d k xh xl xc xv,
    feeds h (d + n) k (fin xh) -> feeds l (d + n) k (fin xl) -> feeds c (d + n) k (fin xc) ->
    feeds v (d + n) k (fin xv) ->
    feeds h' n k (fin (fun i => xh (d + i)%nat)) -> feeds l' n k (fin (fun i => xl (d + i)%nat)) ->
    feeds c' n k (fin (fun i => xc (d + i)%nat)) -> feeds v' n k (fin (fun i => xv (d + i)%nat)) ->
    (forall i, (k <= i < d + n)%nat -> xl i <= xc i <= xh i) ->
    exists f f', delivers (ad h l c v) (d + n) k f /\ delivers (ad h' l' c' v') n k f' /\
      forall i, (k <= i < n)%nat ->
        (xh (d + i)%nat = xl (d + i)%nat -> f (d + i)%nat = NaN /\ f' i = NaN) /\
        (xh (d + i)%nat <> xl (d + i)%nat -> exists t t', f (d + i)%nat = Fin t /\ f' i = Fin t' /\
           t - t' = Rsum (map (fun j => close_position xh xl xc j * xv j) (seq k d))).
Proof. exact ad_keeps. Qed.
Print Assumptions C124_ad.
Definition fh : list R := [10; 6; 9; 9; 12].
Definition fl : list R := [8; 5; 7; 9; 8].
Definition fc : list R := [9; 5; 9; 9; 9].
Example C124_ad_met :
  feeds (raw (map Fin fh)) (2 + 3) 0 (fin (fun i => nth i fh 0)) /\
  feeds (raw (map Fin (skipn 2 fh))) 3 0 (fin (fun i => nth (2 + i) fh 0)) /\
  forall i, (0 <= i < 2 + 3)%nat -> nth i fl 0 <= nth i fc 0 <= nth i fh 0.
Proof.
  destruct (column_feeds fh 2 3 eq_refl) as [A B]. split; [exact A|]. split; [exact B|].
  intros i Hi. do 5 (destruct i as [|i]; [simpl; lra|]). lia.
Qed.
Example C124_obv_run :
  lser (obv false 1 (raw (map Fin [9; 5; 7; 9; 8]%Q)) (raw (map Fin [1; 2; 3; 4; 5]%Q))) =
    [NaN; Fin (-2#1); Fin 1; Fin 5; Fin 0]%Q /\
  lser (obv false 1 (raw (map Fin [7; 9; 8]%Q)) (raw (map Fin [3; 4; 5]%Q))) = [NaN; Fin 4; Fin (-1#1)]%Q.
Proof. split; vm_compute; reflexivity. Qed.
