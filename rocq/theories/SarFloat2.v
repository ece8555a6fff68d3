(** sarext with the parameters of sar in float64. *)
From Coq Require Import ZArith QArith Reals List Bool Lia Lra Psatz.
From Flocq Require Import Core IEEE754.BinarySingleNaN.
From Verif Require Import Num Series Line Spec LineFacts IndSar Apply SarFacts CatalogW2 Float64 FloatSpec FloatFacts PropFloatFacts FlatFloat RunSpec RunFloat RocFloat SideFloat SarFloat.
Import ListNotations.
Set Implicit Arguments.
Local Open Scope R_scope.

Lemma same_pos (x y : float) : finite x -> finite y -> 0 < val y -> val x = val y -> x = y.
Proof.
  intros Fx Fy P E. assert (Q : 0 < val x) by lra. destruct x as [| | |sx mx ex Hx]; try discriminate Fx; [cbn in Q; lra|].
  destruct y as [| | |sy my ey Hy]; try discriminate Fy; [cbn in P; lra|]. apply B2R_inj; [reflexivity|reflexivity|exact E].
Qed.
Lemma no_offset (e s : float) : finite e -> finite s -> 0 < val e -> vadd e (vmul s v0) = e /\ vsub e (vmul s v0) = e.
Proof.
  intros Fe Fs P. assert (Z0 : finite v0) by (vm_compute; reflexivity).
  destruct (@mul_in v0 v0 s v0 Fs Z0) as (_ & Fm & Bm); [change (val v0) with 0; lra|]. change (val v0) with 0 in Bm.
  destruct (@add_in e e e (vmul s v0) Fe Fm) as (_ & F1 & B1); [lra|].
  destruct (@sub_in e e e (vmul s v0) Fe Fm) as (_ & F2 & B2); [lra|].
  split; apply same_pos; auto; lra.
Qed.
Lemma neg_val (s : float) : finite s -> finite (vneg s) /\ val (vneg s) = - val s.
Proof.
  intro F. assert (Z0 : finite v0) by (vm_compute; reflexivity).
  destruct (@sub_in (opp s) (opp s) v0 s Z0 F) as (_ & F1 & B1); [rewrite val_opp; change (val v0) with 0; lra|].
  rewrite val_opp in B1. unfold vneg. split; [exact F1|lra].
Qed.

Section Both.
  Variables (h l : nat -> float) (k n : nat) (AF AX : float).
  Hypothesis bars : forall i, (k <= i < n)%nat ->
    finite (h i) /\ finite (l i) /\ val (l i) <= val (h i) /\ - top <= val (l i) /\ val (h i) <= top.
  Hypothesis pos : forall i, (k <= i < n)%nat -> 0 < val (l i).
  Hypothesis acc : finite AF /\ 0 <= val AF <= 1 /\ finite AX /\ 0 <= val AX <= 1.
  Definition par : sarpar := mkSarPar AF AX AF AX (v0 : float).

  Definition rel (st : sarst (V:=float)) (xt : sarxst (V:=float)) : Prop :=
    x_trend xt = s_trend st /\ x_ep xt = s_ep st /\ x_sar xt = s_sar st /\ x_hi xt = s_hi st /\ x_lo xt = s_lo st /\
    x_afl xt = (if s_trend st then s_af st else x_afl xt) /\ x_afs xt = (if s_trend st then x_afs xt else s_af st).
  Definition signed (i : nat) (s t : float) : Prop :=
    finite t /\ Rabs (val t) = val s /\ (val s < val (l i) -> t = s) /\ (val (h i) < val s -> val t = - val s).

  Lemma price_pos i x : (i < n)%nat -> price_of h l k i x -> finite x /\ 0 < val x.
  Proof.
    intros Hi (j & Hj & E). destruct (bars (i := j)) as (Fh & Fl & A & _); [lia|]. pose proof (pos (i := j) ltac:(lia)).
    destruct E as [->| ->]; (split; [assumption|lra]).
  Qed.
  Lemma both_step i st xt : (k <= i < n)%nat -> inv h l k i st -> 0 <= val (s_sar st) -> rel st xt ->
    rel (fst (sar_step AF AX st (h i) (l i))) (fst (sarx_step par xt (h i) (l i))) /\
    signed i (snd (sar_step AF AX st (h i) (l i))) (snd (sarx_step par xt (h i) (l i))).
  Proof.
    intros Hi [Pe Ph Pl [Fs Bs] _ O] S0 (R1 & R2 & R3 & R4 & R5 & R6 & R7). destruct (bars Hi) as (Fhi & Fli & X & _).
    destruct (price_pos (proj2 Hi) Pe) as [Fe E0]. pose proof (pos Hi) as L0.
    destruct (no_offset Fe Fs E0) as [O1 O2]. destruct (neg_val Fe) as [N1 N2]. destruct (neg_val Fs) as [N3 N4].
    unfold sar_step, sarx_step, signed. rewrite R1, R2, R3, R4, R5. destruct (s_trend st).
    - destruct (vleb (l i) (s_sar st)) eqn:E.
      + apply leb_iff in E; [|exact Fli|exact Fs]. cbn [par OFFS AFS AFL AFXL AFXS fst snd]. rewrite O1.
        split; [unfold rel; cbn; auto 10|]. split; [exact N1|]. rewrite N2. split; [rewrite Rabs_Ropp; apply Rabs_right; lra|]. split; [lra|reflexivity].
      + assert (G : val (s_sar st) < val (l i)).
        { apply Rnot_le_lt. intro Y. apply (proj2 (leb_iff Fli Fs)) in Y. congruence. }
        rewrite R6. destruct (vltb (s_ep st) (h i)); cbn [fst snd];
          (split; [unfold rel; cbn; auto 10|]; split; [exact Fs|]; split; [apply Rabs_right; lra|]; split; [reflexivity|lra]).
    - destruct (vleb (s_sar st) (h i)) eqn:E.
      + apply leb_iff in E; [|exact Fs|exact Fhi]. cbn [par OFFS AFS AFL AFXL AFXS fst snd]. rewrite O2.
        split; [unfold rel; cbn; auto 10|]. split; [exact Fe|]. split; [apply Rabs_right; lra|]. split; [reflexivity|lra].
      + assert (G : val (h i) < val (s_sar st)).
        { apply Rnot_le_lt. intro Y. apply (proj2 (leb_iff Fs Fhi)) in Y. congruence. }
        rewrite R7. destruct (vltb (l i) (s_ep st)); cbn [fst snd];
          (split; [unfold rel; cbn; auto 10|]; split; [exact N3|]; rewrite N4; split; [rewrite Rabs_Ropp; apply Rabs_right; lra|]; split; [lra|reflexivity]).
  Qed.
  Lemma inv_pos i st : (k <= i < n)%nat -> inv h l k i st -> 0 <= val (s_sar st).
  Proof.
    intros Hi I. destruct (i_s I) as [_ B]. apply (B 0 (top)). intros j Hj. destruct (bars (i := j)) as (_ & _ & A & _ & C); [lia|].
    pose proof (pos (i := j) ltac:(lia)). lra.
  Qed.
  Lemma both_loop m : forall i st xt, (k <= i)%nat -> (i + m <= n)%nat -> inv h l k i st -> rel st xt -> forall d, (d < m)%nat ->
    exists s t, nth_error (sar_loop AF AX st (map h (seq i m)) (map l (seq i m))) d = Some s /\
      nth_error (sarx_loop par xt (map h (seq i m)) (map l (seq i m))) d = Some t /\ signed (i + d) s t.
  Proof.
    induction m as [|m IH]; intros i st xt Hk Hn I R d Hd; [lia|]. cbn [seq map sar_loop sarx_loop].
    destruct (@step_ok h l k n AF AX bars acc i st ltac:(lia) I) as [I' _].
    destruct (@both_step i st xt ltac:(lia) I (inv_pos (conj Hk (ltac:(lia) : (i < n)%nat)) I) R) as [R' G].
    destruct (sar_step AF AX st (h i) (l i)) as [st' v]. destruct (sarx_step par xt (h i) (l i)) as [xt' w]. cbn [fst snd] in I', R', G.
    destruct d as [|d].
    - exists v, w. split; [reflexivity|]. split; [reflexivity|]. now rewrite Nat.add_0_r.
    - cbn [nth_error]. replace (i + S d)%nat with (S i + d)%nat by lia. apply IH; try lia; [|exact R']. apply (@inv_le h l k i); [lia|exact I'].
  Qed.
End Both.

(** a list given by position *)
Lemma by_position (x : float) (out : list float) k n : (k + 2 <= n)%nat -> length out = (n - S k)%nat ->
  map (fun i => nth (i - k) (x :: out) vnan) (seq k (n - k)) = x :: out.
Proof.
  intros Hn Lo. set (r := fun i => nth (i - k) (x :: out) vnan).
  apply nth_ext with (d := r 0%nat) (d' := vnan); [rewrite map_length, seq_length; cbn [length]; lia|].
  intros j Hj. rewrite map_length, seq_length in Hj. rewrite (map_nth r), seq_nth by exact Hj. unfold r. now replace (k + j - k)%nat with j by lia.
Qed.
Lemma sarext_float (AF AX : float) (hl ll : line float) n kh kl h l :
  feeds hl n kh h -> feeds ll n kl l ->
  let k := Nat.max kh kl in
  (forall i, (k <= i < n)%nat -> finite (h i) /\ finite (l i) /\ 0 < val (l i) <= val (h i) /\ val (h i) <= bpow radix2 1000) ->
  finite AF -> 0 <= val AF <= 1 -> finite AX -> 0 <= val AX <= 1 -> (k + 2 <= n)%nat ->
  exists y z s t, sar AF AX hl ll = Ok y /\ delivers y n (S k) s /\
    sarext v0 (mkSarPar AF AX AF AX v0) hl ll = Ok z /\ delivers z n (S k) t /\
    forall i, (S k <= i < n)%nat ->
      finite (t i) /\ Rabs (val (t i)) = val (s i) /\
      (val (s i) < val (l i) -> t i = s i) /\ (val (h i) < val (s i) -> val (t i) = - val (s i)).
Proof.
  intros Hh Hl k Hp F1 B1 F2 B2 Hn.
  assert (Hb : forall i, (k <= i < n)%nat -> finite (h i) /\ finite (l i) /\ val (l i) <= val (h i) /\ - top <= val (l i) /\ val (h i) <= top).
  { intros i Hi. destruct (Hp i Hi) as (A & B & C & D). destruct top_room as (T0 & _). unfold top in *. repeat split; auto; lra. }
  assert (Hq : forall i, (k <= i < n)%nat -> 0 < val (l i)) by (intros i Hi; destruct (Hp i Hi) as (A & B & C & D); lra).
  set (acc := conj F1 (conj B1 (conj F2 B2))).
  set (st := let trend := start_trend (h k) (l k) (h (S k)) (l (S k)) in
              let '(ep, sar) := if trend then (h (S k), l k) else (l (S k), h k) in mkSar trend ep sar AF (h (S k)) (l (S k))).
  set (xt := let trend := start_trend (h k) (l k) (h (S k)) (l (S k)) in
              let '(trend, ep, sar) := if trend then (trend, h (S k), l k) else (trend, l (S k), h k) in mkSarx trend ep sar AF AF (h (S k)) (l (S k))).
  pose proof (@start_ok h l k n AF AX Hb acc Hn) as I. cbv zeta in I. fold st in I.
  assert (R : rel st xt) by (unfold rel, st, xt; destruct (start_trend (h k) (l k) (h (S k)) (l (S k))); cbn; auto 10).
  set (hs := map h (seq (S k) (n - S k))). set (ls := map l (seq (S k) (n - S k))).
  assert (Lh : length hs = length ls) by (unfold hs, ls; now rewrite !map_length).
  assert (Lh' : length hs = (n - S k)%nat) by (unfold hs; now rewrite map_length, seq_length).
  set (out := sar_loop AF AX st hs ls). set (outx := sarx_loop (par AF AX) xt hs ls).
  assert (Lo : length out = (n - S k)%nat) by (unfold out; rewrite (@sar_loop_length float NumF) by exact Lh; exact Lh').
  assert (Lx : length outx = (n - S k)%nat) by (unfold outx; rewrite (@sarx_loop_length float NumF) by exact Lh; exact Lh').
  assert (E : sarize AF AX (map h (seq k (n - k))) (map l (seq k (n - k))) = Ok (vnan :: out)).
  { unfold out, hs, ls. replace (n - k)%nat with (S (S (n - k - 2))) by lia. replace (n - S k)%nat with (S (n - k - 2)) by lia.
    unfold st. cbn [seq map sarize tl]. cbv zeta. destruct (start_trend (h k) (l k) (h (S k)) (l (S k))); reflexivity. }
  assert (Z : veqb (v0 : float) v0 = true) by (vm_compute; reflexivity).
  assert (Ex : sarxize v0 (par AF AX) (map h (seq k (n - k))) (map l (seq k (n - k))) = Ok (vnan :: outx)).
  { unfold outx, hs, ls. replace (n - k)%nat with (S (S (n - k - 2))) by lia. replace (n - S k)%nat with (S (n - k - 2)) by lia.
    unfold xt. cbn [seq map sarxize tl]. cbv zeta. rewrite Z. destruct (start_trend (h k) (l k) (h (S k)) (l (S k))); reflexivity. }
  set (r := fun i => nth (i - k) (vnan :: out) vnan). set (rx := fun i => nth (i - k) (vnan :: outx) vnan).
  destruct (@apply2_delivers _ _ (fun h args => match args with l :: _ => sarize AF AX h l | [] => Raise TypeError end)
      hl ll n kh kl h l r Hh Hl) as (y & Ey & D).
  { fold k. unfold r. rewrite (@by_position vnan out k n Hn Lo). exact E. }
  destruct (@apply2_delivers _ _ (fun h args => match args with l :: _ => sarxize v0 (par AF AX) h l | [] => Raise TypeError end)
      hl ll n kh kl h l rx Hh Hl) as (z & Ez & Dz).
  { fold k. unfold rx. rewrite (@by_position vnan outx k n Hn Lx). exact Ex. }
  fold k in D, Dz. unfold sar, sarext. fold (par AF AX). rewrite Ey, Ez. cbn [bind].
  exists (period_ y 1 false None), (period_ z 1 false None), r, rx. split; [reflexivity|].
  split; [apply period1_delivers; [exact D|unfold r; now rewrite Nat.sub_diag]|]. split; [reflexivity|].
  split; [apply period1_delivers; [exact Dz|unfold rx; now rewrite Nat.sub_diag]|].
  intros i Hi. destruct (@both_loop h l k n AF AX Hb Hq acc (n - S k) (S k) st xt ltac:(lia) ltac:(lia) I R (i - S k)%nat ltac:(lia)) as (s & t & Es & Et & G).
  fold hs ls in Es, Et. fold out in Es. fold outx in Et. replace (S k + (i - S k))%nat with i in G by lia.
  assert (Er : r i = s) by (unfold r; replace (i - k)%nat with (S (i - S k)) by lia; cbn [nth]; now apply nth_error_nth).
  assert (Et' : rx i = t) by (unfold rx; replace (i - k)%nat with (S (i - S k)) by lia; cbn [nth]; now apply nth_error_nth).
  rewrite Er, Et'. exact G.
Qed.
