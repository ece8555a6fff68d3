(** Property theorem C64: volume accumulators.  Models: IndVol.v; definitions: VolSpec.v. *)
From Coq Require Import ZArith QArith List Bool Reals Lra Lia.
From Verif Require Import Num Series Line Spec RSpec VolSpec LineFacts RFacts OpFacts IndMA MAFacts
  RLineFacts IndBasic BasicFacts IndVol VolFacts PropLinesFacts PropVolFacts.
Import ListNotations.
Local Open Scope R_scope.

(** concrete inputs; the third bar has no range *)
Definition vh : list R := [10; 12; 9; 14; 15; 13].
Definition vl : list R := [8; 9; 9; 10; 12; 10].
Definition vc : list R := [9; 11; 9; 13; 13; 11].
Definition vv : list R := [4; 3; 7; 8; 9; 10].
Example vh_feeds : feeds (raw (map Fin vh)) 6 0 (fin (fun i => nth i vh 0)).
Proof. exact (raw_fin_feeds vh). Qed.
Example vl_feeds : feeds (raw (map Fin vl)) 6 0 (fin (fun i => nth i vl 0)).
Proof. exact (raw_fin_feeds vl). Qed.
Example vc_feeds : feeds (raw (map Fin vc)) 6 0 (fin (fun i => nth i vc 0)).
Proof. exact (raw_fin_feeds vc). Qed.
Example vv_feeds : feeds (raw (map Fin vv)) 6 0 (fin (fun i => nth i vv 0)).
Proof. exact (raw_fin_feeds vv). Qed.
Example vbar : forall i, (0 <= i < 6)%nat -> nth i vl 0 <= nth i vc 0 <= nth i vh 0.
Proof. intros i Hi. do 6 (destruct i as [|i]; [simpl; lra|]). lia. Qed.
Definition qh : line (ext Q) := raw (map Fin [10; 12; 9; 14; 15; 13]%Q).
Definition ql : line (ext Q) := raw (map Fin [8; 9; 9; 10; 12; 10]%Q).
Definition qc : line (ext Q) := raw (map Fin [9; 11; 9; 13; 13; 11]%Q).
Definition qv : line (ext Q) := raw (map Fin [4; 3; 7; 8; 9; 10]%Q).

(** on balance volume; [q] is the parameter [_period] (default 1) *)
Theorem C64_obv :
  forall (c v : lineR) n k xc xv q,
    feeds c n k (fin xc) -> feeds v n k (fin xv) ->
    exists f, delivers (obv false q c v) n (k + q) (fin f) /\
      f (k + q)%nat = signed_volume xc xv q (k + q) /\
      forall i, (k + q <= i)%nat -> f (S i) = f i + signed_volume xc xv q (S i).
Proof. exact obv_all. Qed.
Print Assumptions C64_obv.
(** the ta-lib emulation: one bar more, counted as a rise *)
Theorem C64_obv_talib :
  forall (c v : lineR) n k xc xv q,
    feeds c n k (fin xc) -> feeds v n k (fin xv) -> (1 <= q)%nat ->
    exists f, delivers (obv true q c v) n (k + q - 1) (fin f) /\
      f (k + q - 1)%nat = xv (k + q - 1)%nat /\
      forall i, (k + q - 1 <= i)%nat -> f (S i) = f i + signed_volume xc xv q (S i).
Proof. exact obv_talib_all. Qed.
Print Assumptions C64_obv_talib.
Example C64_obv_run :
  obv false 1 qc qv = mkLine 2 [NaN; Fin 3; Fin (-4#1); Fin 4; Fin 4; Fin (-6#1)]%Q /\
  obv true 1 qc qv = mkLine 1 [Fin 4; Fin 7; Fin 0; Fin 8; Fin 8; Fin (-2#1)]%Q.
Proof. split; vm_compute; reflexivity. Qed.
Example C64_obv_use : exists f, delivers (obv false 2 (raw (map Fin vc)) (raw (map Fin vv))) 6 2 (fin f) /\
  f 3%nat = f 2%nat + signed_volume (fun i => nth i vc 0) (fun i => nth i vv 0) 2 3.
Proof.
  destruct (C64_obv _ _ 6 0 _ _ 2 vc_feeds vv_feeds) as (f & D & _ & S). exists f. split; [exact D|]. apply S. lia.
Qed.

(** accumulation / distribution *)
Theorem C64_ad :
  forall (h l c v : lineR) n k xh xl xc xv,
    feeds h n k (fin xh) -> feeds l n k (fin xl) -> feeds c n k (fin xc) -> feeds v n k (fin xv) ->
    (forall i, (k <= i < n)%nat -> xl i <= xc i <= xh i) ->
    exists f T, delivers (ad h l c v) n k f /\
      T k = close_position xh xl xc k * xv k /\
      (forall i, (k <= i)%nat -> T (S i) = T i + close_position xh xl xc (S i) * xv (S i)) /\
      (forall i, (k <= i < n)%nat ->
         (xh i = xl i -> f i = NaN) /\ (xh i <> xl i -> f i = Fin (T i)) /\
         -1 <= close_position xh xl xc i <= 1).
Proof. exact ad_all. Qed.
Print Assumptions C64_ad.
(** the restriction to closes inside their bars is needed: a close outside a bar without
    range spoils every later value *)
Theorem C64_ad_close_outside :
  forall (h l c v : lineR) n k xh xl xc xv b,
    feeds h n k (fin xh) -> feeds l n k (fin xl) -> feeds c n k (fin xc) -> feeds v n k (fin xv) ->
    (k <= b < n)%nat -> xh b = xl b -> xc b <> xl b -> xv b <> 0 ->
    exists f, delivers (ad h l c v) n k f /\ forall i r, (b <= i < n)%nat -> f i <> Fin r.
Proof. exact ad_poison. Qed.
Print Assumptions C64_ad_close_outside.
Example C64_ad_close_outside_met := C64_ad_close_outside _ _ _ _ 3 0 _ _ _ _ 1 (raw_fin_feeds [10; 9; 14]) (raw_fin_feeds [8; 9; 10]) (raw_fin_feeds [9; 11; 13]) (raw_fin_feeds [4; 3; 8]) ltac:(lia) eq_refl ltac:(simpl; lra) ltac:(simpl; lra).
(** its oscillator *)
Theorem C64_adosc :
  forall (ma : ma_fun (ext R)) (h l c v : lineR) n k xh xl xc xv pfast pslow,
    averages ma ->
    feeds h n k (fin xh) -> feeds l n k (fin xl) -> feeds c n k (fin xc) -> feeds v n k (fin xv) ->
    (forall i, (k <= i < n)%nat -> xl i <= xc i <= xh i /\ xl i <> xh i) ->
    (1 <= pfast <= pslow)%nat -> (k + pslow <= n)%nat ->
    exists y yf ys f s,
      adosc ma pfast pslow h l c v = Ok y /\
      ma pfast (ad h l c v) = Ok yf /\ delivers yf n (k + pfast - 1) (fin f) /\
      ma pslow (ad h l c v) = Ok ys /\ delivers ys n (k + pslow - 1) (fin s) /\
      delivers y n (k + pslow - 1) (fin (fun i => f i - s i)).
Proof. exact adosc_all. Qed.
Print Assumptions C64_adosc.
Example C64_ad_run :
  ad qh ql qc qv = mkLine 1 [Fin 0; Fin 1; NaN; Fin 5; Fin 2; Fin (-4#3)]%Q /\
  ad (raw [Fin 9; Fin 10; Fin 10]%Q) (raw [Fin 9; Fin 8; Fin 8]%Q) (raw [Fin 10; Fin 9; Fin 10]%Q)
     (raw [Fin 1; Fin 1; Fin 1]%Q) = mkLine 1 [PInf; PInf; PInf].
Proof. split; vm_compute; reflexivity. Qed.
Example C64_ad_use : exists f T,
  delivers (ad (raw (map Fin vh)) (raw (map Fin vl)) (raw (map Fin vc)) (raw (map Fin vv))) 6 0 f /\
  f 2%nat = NaN /\ f 3%nat = Fin (T 3%nat).
Proof.
  destruct (C64_ad _ _ _ _ 6 0 _ _ _ _ vh_feeds vl_feeds vc_feeds vv_feeds vbar) as (f & T & D & _ & _ & H).
  exists f, T. split; [exact D|]. split.
  - apply (H 2%nat); [lia|]. reflexivity.
  - apply (H 3%nat); [lia|]. simpl. lra.
Qed.
Example C64_adosc_use : exists y,
  adosc ema 1 2 (raw (map Fin [10; 12; 14])) (raw (map Fin [8; 9; 10])) (raw (map Fin [9; 11; 13])) (raw (map Fin [4; 3; 8])) = Ok y.
Proof.
  destruct (C64_adosc ema _ _ _ _ 3 0 _ _ _ _ 1 2 averages_ema (raw_fin_feeds [10; 12; 14]) (raw_fin_feeds [8; 9; 10])
    (raw_fin_feeds [9; 11; 13]) (raw_fin_feeds [4; 3; 8])) as (y & _ & _ & _ & _ & E & _); [|lia|lia|now exists y].
  intros i Hi. do 3 (destruct i as [|i]; [simpl; lra|]). lia.
Qed.
