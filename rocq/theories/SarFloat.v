(** The parabolic stop and reverse in float64. *)
From Coq Require Import ZArith QArith Reals List Bool Lia Lra Psatz.
From Flocq Require Import Core IEEE754.BinarySingleNaN.
From Verif Require Import Num Series Line Spec LineFacts IndSar Apply SarFacts CatalogW2 Float64 FloatSpec FloatFacts PropFloatFacts FlatFloat RunSpec RunFloat RocFloat SideFloat.
Import ListNotations.
Set Implicit Arguments.
Local Open Scope R_scope.

Lemma pymin_f (a b : float) : finite a -> finite b -> finite (pymin a b) /\ val (pymin a b) = Rmin (val a) (val b).
Proof.
  intros Fa Fb. unfold pymin. destruct (vltb b a) eqn:E.
  - apply ltb_iff in E; auto. split; [exact Fb|]. rewrite Rmin_right; lra.
  - split; [exact Fa|]. rewrite Rmin_left; [reflexivity|]. apply Rnot_lt_le. intro L. apply (proj2 (ltb_iff Fb Fa)) in L. congruence.
Qed.
Lemma pymax_f (a b : float) : finite a -> finite b -> finite (pymax a b) /\ val (pymax a b) = Rmax (val a) (val b).
Proof.
  intros Fa Fb. unfold pymax. destruct (vltb a b) eqn:E.
  - apply ltb_iff in E; auto. split; [exact Fb|]. rewrite Rmax_right; lra.
  - split; [exact Fa|]. rewrite Rmax_left; [reflexivity|]. apply Rnot_lt_le. intro L. apply (proj2 (ltb_iff Fa Fb)) in L. congruence.
Qed.

(** the size of prices *)
Definition top : R := bpow radix2 1000.
Lemma top_room : 0 < top /\ 8 * top <= bpow radix2 1010 /\ rn (2 * top) = 2 * top.
Proof.
  unfold top. split; [apply bpow_gt_0|]. split.
  - change 8 with (bpow radix2 3). rewrite <- bpow_plus. apply bpow_le. lia.
  - change 2 with (bpow radix2 1). rewrite <- bpow_plus. apply round_generic; [apply valid_rnd_N|]. apply generic_format_bpow. vm_compute. discriminate.
Qed.
(** one move of the stop towards the extreme price *)
Lemma move_up (s e a : float) : finite s -> finite e -> finite a -> 0 <= val a <= 1 -> Rabs (val s) <= top -> Rabs (val e) <= top ->
  val s <= val e -> finite (vadd s (vmul a (vsub e s))) /\ val s <= val (vadd s (vmul a (vsub e s))).
Proof.
  intros Fs Fe Fa A Bs Be L. apply Rabs_le_inv in Bs, Be. destruct top_room as (T0 & T8 & T2). destruct big1010 as [_ VB].
  destruct (@sub_in v0 (big 1010) e s Fe Fs) as (V & F & B); [rewrite VB; change (val v0) with 0; lra|].
  change (val v0) with 0 in B. assert (B2 : val (vsub e s) <= 2 * top) by (rewrite V, <- T2; apply rn_le; lra).
  destruct (@mul_in v0 (vsub e s) a (vsub e s) Fa F) as (_ & Fm & Bm); [change (val v0) with 0; nra|]. change (val v0) with 0 in Bm.
  destruct (@add_in s (big 1010) s (vmul a (vsub e s)) Fs Fm) as (_ & Fx & Bx); [rewrite VB; lra|]. split; [exact Fx|lra].
Qed.
Lemma move_down (s e a : float) : finite s -> finite e -> finite a -> 0 <= val a <= 1 -> Rabs (val s) <= top -> Rabs (val e) <= top ->
  val e <= val s -> finite (vadd s (vmul a (vsub e s))) /\ val (vadd s (vmul a (vsub e s))) <= val s.
Proof.
  intros Fs Fe Fa A Bs Be L. apply Rabs_le_inv in Bs, Be. destruct top_room as (T0 & T8 & T2). destruct big1010 as [_ VB].
  destruct (@sub_in (opp (big 1010)) v0 e s Fe Fs) as (V & F & B); [rewrite val_opp, VB; change (val v0) with 0; lra|].
  change (val v0) with 0 in B. assert (B2 : - (2 * top) <= val (vsub e s)) by (rewrite V, <- T2, <- rn_opp; apply rn_le; lra).
  destruct (@mul_in (vsub e s) v0 a (vsub e s) Fa F) as (_ & Fm & Bm); [change (val v0) with 0; nra|]. change (val v0) with 0 in Bm.
  destruct (@add_in (opp (big 1010)) s s (vmul a (vsub e s)) Fs Fm) as (_ & Fx & Bx); [rewrite val_opp, VB; lra|]. split; [exact Fx|lra].
Qed.

Section Run.
  Variables (h l : nat -> float) (k n : nat) (AF AX : float).
  Hypothesis bars : forall i, (k <= i < n)%nat ->
    finite (h i) /\ finite (l i) /\ val (l i) <= val (h i) /\ - top <= val (l i) /\ val (h i) <= top.
  Hypothesis acc : finite AF /\ 0 <= val AF <= 1 /\ finite AX /\ 0 <= val AX <= 1.

  Definition bnd (i : nat) (L H : R) : Prop := forall j, (k <= j <= i)%nat -> L <= val (l j) /\ val (h j) <= H.
  Definition price_of (i : nat) (x : float) : Prop := exists j, (k <= j <= i)%nat /\ (x = h j \/ x = l j).
  Definition goodv (i : nat) (s : float) : Prop :=
    finite s /\ (forall L H, bnd i L H -> L <= val s <= H) /\
    (val s < val (l i) \/ val (h i) < val s \/ price_of i s).
  Record inv (i : nat) (st : sarst (V:=float)) : Prop := {
    i_ep : price_of i (s_ep st);
    i_hi : price_of i (s_hi st);
    i_lo : price_of i (s_lo st);
    i_s : finite (s_sar st) /\ forall L H, bnd i L H -> L <= val (s_sar st) <= H;
    i_af : finite (s_af st) /\ 0 <= val (s_af st) <= 1;
    i_ord : if s_trend st then val (s_sar st) <= val (s_ep st) else val (s_ep st) <= val (s_sar st) }.

  Lemma bnd_le i j L H : (i <= j)%nat -> bnd j L H -> bnd i L H.
  Proof. intros IJ B x Hx. apply B. lia. Qed.
  Lemma bnd_top i : (i < n)%nat -> bnd i (- top) top.
  Proof. intros Hi j Hj. destruct (bars (i := j)) as (_ & _ & A & B & C); [lia|]. lra. Qed.
  Lemma price_fin i x : (i < n)%nat -> price_of i x -> finite x /\ forall L H, bnd i L H -> L <= val x <= H.
  Proof.
    intros Hi (j & Hj & E). destruct (bars (i := j)) as (Fh & Fl & A & _); [lia|].
    destruct E as [->| ->]; (split; [assumption|]); intros L H B; specialize (B j Hj); lra.
  Qed.
  Lemma price_le i j x : (i <= j)%nat -> price_of i x -> price_of j x.
  Proof. intros IJ (y & Hy & E). exists y. split; [lia|exact E]. Qed.
  Lemma inv_le i j st : (i <= j)%nat -> inv i st -> inv j st.
  Proof.
    intros IJ [A B C [D D'] E F]. constructor; try (eapply price_le; eauto; fail); auto. split; [exact D|].
    intros L H X. apply D'. now apply (bnd_le IJ).
  Qed.
  Lemma next_af af : finite af -> 0 <= val af <= 1 -> finite (pymin (vadd af AF) AX) /\ 0 <= val (pymin (vadd af AF) AX) <= 1.
  Proof.
    intros F B. destruct acc as (F1 & B1 & F2 & B2). destruct (fofZ_exact 2) as [F3 V3]; [vm_compute; discriminate|].
    destruct (@add_in v0 (vofZ 2) af AF F F1) as (_ & Fs & Bs); [rewrite V3; change (val v0) with 0; lra|]. change (val v0) with 0 in Bs.
    destruct (@pymin_f (vadd af AF) AX Fs F2) as [X V]. split; [exact X|]. rewrite V. split; [apply Rmin_glb; lra|].
    eapply Rle_trans; [apply Rmin_r|lra].
  Qed.
  Lemma here i : (k <= i < n)%nat -> price_of i (h i) /\ price_of i (l i).
  Proof. intro Hi. split; exists i; (split; [lia|auto]). Qed.

  (** staying below or above *)
  Lemma clip_long i s e a lo1 : (k <= i < n)%nat -> finite s -> (forall L H, bnd i L H -> L <= val s <= H) -> price_of i e -> price_of i lo1 ->
    finite a -> 0 <= val a <= 1 -> val s <= val e -> val (l i) <= val e ->
    let s' := pymin (pymin (vadd s (vmul a (vsub e s))) (l i)) lo1 in
    (finite s' /\ forall L H, bnd i L H -> L <= val s' <= H) /\ val s' <= val e.
  Proof.
    intros Hi Fs Bs Pe Pl Fa Ba L Le s'. destruct (price_fin (proj2 Hi) Pe) as [Fe Be]. destruct (price_fin (proj2 Hi) Pl) as [Fl Bl].
    destruct (bars Hi) as (_ & Fli & X & _). pose proof (bnd_top (proj2 Hi)) as BT. pose proof (Bs _ _ BT). pose proof (Be _ _ BT).
    destruct (@move_up s e a Fs Fe Fa Ba) as [Fm Bm]; [apply Rabs_le; lra|apply Rabs_le; lra|exact L|].
    destruct (pymin_f Fm Fli) as [F1 V1]. destruct (pymin_f F1 Fl) as [F2 V2]. fold s' in F2, V2. rewrite V1 in V2.
    assert (U : val s' <= val (l i)) by (rewrite V2; eapply Rle_trans; [apply Rmin_l|apply Rmin_r]).
    split; [|lra]. split; [exact F2|]. intros A B BB. pose proof (Bs _ _ BB). pose proof (Bl _ _ BB). destruct (BB i ltac:(lia)).
    split; [|lra]. rewrite V2. repeat apply Rmin_glb; lra.
  Qed.
  Lemma clip_short i s e a hi1 : (k <= i < n)%nat -> finite s -> (forall L H, bnd i L H -> L <= val s <= H) -> price_of i e -> price_of i hi1 ->
    finite a -> 0 <= val a <= 1 -> val e <= val s -> val e <= val (h i) ->
    let s' := pymax (pymax (vadd s (vmul a (vsub e s))) (h i)) hi1 in
    (finite s' /\ forall L H, bnd i L H -> L <= val s' <= H) /\ val e <= val s'.
  Proof.
    intros Hi Fs Bs Pe Pl Fa Ba L Le s'. destruct (price_fin (proj2 Hi) Pe) as [Fe Be]. destruct (price_fin (proj2 Hi) Pl) as [Fl Bl].
    destruct (bars Hi) as (Fhi & _ & X & _). pose proof (bnd_top (proj2 Hi)) as BT. pose proof (Bs _ _ BT). pose proof (Be _ _ BT).
    destruct (@move_down s e a Fs Fe Fa Ba) as [Fm Bm]; [apply Rabs_le; lra|apply Rabs_le; lra|exact L|].
    destruct (pymax_f Fm Fhi) as [F1 V1]. destruct (pymax_f F1 Fl) as [F2 V2]. fold s' in F2, V2. rewrite V1 in V2.
    assert (U : val (h i) <= val s') by (rewrite V2; eapply Rle_trans; [apply Rmax_r|apply Rmax_l]).
    split; [|lra]. split; [exact F2|]. intros A B BB. pose proof (Bs _ _ BB). pose proof (Bl _ _ BB). destruct (BB i ltac:(lia)).
    split; [lra|]. rewrite V2. repeat apply Rmax_lub; lra.
  Qed.

  Lemma step_ok i st : (k <= i < n)%nat -> inv i st ->
    inv i (fst (sar_step AF AX st (h i) (l i))) /\ goodv i (snd (sar_step AF AX st (h i) (l i))).
  Proof.
    intros Hi [Pe Ph Pl [Fs Bs] [Fa Ba] O]. destruct (bars Hi) as (Fhi & Fli & X & _). destruct (here Hi) as [Hh Hl].
    destruct (price_fin (proj2 Hi) Pe) as [Fe Be]. destruct acc as (F1 & B1 & _).
    unfold sar_step. destruct (s_trend st).
    - destruct (vleb (l i) (s_sar st)) eqn:E.
      + apply leb_iff in E; [|exact Fli|exact Fs]. cbn [fst snd].
        destruct (@clip_short i (s_ep st) (l i) AF (s_hi st) Hi Fe Be Hl Ph F1 B1 ltac:(lra) X) as [C D].
        split; [constructor; cbn; auto|]. split; [exact Fe|]. split; [exact Be|auto].
      + assert (G : val (s_sar st) < val (l i)).
        { apply Rnot_le_lt. intro Y. apply (proj2 (leb_iff Fli Fs)) in Y. congruence. }
        destruct (vltb (s_ep st) (h i)) eqn:U; cbn [fst snd].
        * apply ltb_iff in U; [|exact Fe|exact Fhi]. destruct (next_af Fa Ba) as [F2 B2].
          destruct (@clip_long i (s_sar st) (h i) _ (s_lo st) Hi Fs Bs Hh Pl F2 B2 ltac:(lra) X) as [C D].
          split; [constructor; cbn; auto|]. split; [exact Fs|]. split; [exact Bs|auto].
        * assert (G2 : val (h i) <= val (s_ep st)).
          { apply Rnot_lt_le. intro Y. apply (proj2 (ltb_iff Fe Fhi)) in Y. congruence. }
          destruct (@clip_long i (s_sar st) (s_ep st) (s_af st) (s_lo st) Hi Fs Bs Pe Pl Fa Ba O ltac:(lra)) as [C D].
          split; [constructor; cbn; auto|]. split; [exact Fs|]. split; [exact Bs|auto].
    - destruct (vleb (s_sar st) (h i)) eqn:E.
      + apply leb_iff in E; [|exact Fs|exact Fhi]. cbn [fst snd].
        destruct (@clip_long i (s_ep st) (h i) AF (s_lo st) Hi Fe Be Hh Pl F1 B1 ltac:(lra) X) as [C D].
        split; [constructor; cbn; auto|]. split; [exact Fe|]. split; [exact Be|auto].
      + assert (G : val (h i) < val (s_sar st)).
        { apply Rnot_le_lt. intro Y. apply (proj2 (leb_iff Fs Fhi)) in Y. congruence. }
        destruct (vltb (l i) (s_ep st)) eqn:U; cbn [fst snd].
        * apply ltb_iff in U; [|exact Fli|exact Fe]. destruct (next_af Fa Ba) as [F2 B2].
          destruct (@clip_short i (s_sar st) (l i) _ (s_hi st) Hi Fs Bs Hl Ph F2 B2 ltac:(lra) X) as [C D].
          split; [constructor; cbn; auto|]. split; [exact Fs|]. split; [exact Bs|auto].
        * assert (G2 : val (s_ep st) <= val (l i)).
          { apply Rnot_lt_le. intro Y. apply (proj2 (ltb_iff Fli Fe)) in Y. congruence. }
          destruct (@clip_short i (s_sar st) (s_ep st) (s_af st) (s_hi st) Hi Fs Bs Pe Ph Fa Ba O ltac:(lra)) as [C D].
          split; [constructor; cbn; auto|]. split; [exact Fs|]. split; [exact Bs|auto].
  Qed.
  Lemma loop_ok m : forall i st, (k <= i)%nat -> (i + m <= n)%nat -> inv i st -> forall d, (d < m)%nat ->
    exists s, nth_error (sar_loop AF AX st (map h (seq i m)) (map l (seq i m))) d = Some s /\ goodv (i + d) s.
  Proof.
    induction m as [|m IH]; intros i st Hk Hn I d Hd; [lia|]. cbn [seq map sar_loop].
    destruct (@step_ok i st ltac:(lia) I) as [I' G]. destruct (sar_step AF AX st (h i) (l i)) as [st' v]. cbn [fst snd] in I', G.
    destruct d as [|d].
    - exists v. split; [reflexivity|]. now rewrite Nat.add_0_r.
    - cbn [nth_error]. replace (i + S d)%nat with (S i + d)%nat by lia. apply IH; try lia. apply (@inv_le i); [lia|exact I'].
  Qed.
  Lemma start_ok : (k + 2 <= n)%nat -> let i := S k in
    let st := let trend := start_trend (h k) (l k) (h i) (l i) in
              let '(ep, sar) := if trend then (h i, l k) else (l i, h k) in mkSar trend ep sar AF (h i) (l i) in inv i st.
  Proof.
    intros Hn i st. destruct (bars (i := k)) as (Fh & Fl & X & XL & XH); [lia|]. destruct (bars (i := i)) as (Fhi & Fli & Y & YL & YH); [unfold i; lia|].
    destruct (@here i ltac:(unfold i; lia)) as [Hh Hl]. destruct acc as (F1 & B1 & _).
    assert (Pk : price_of i (h k) /\ price_of i (l k)) by (split; exists k; (split; [unfold i; lia|auto])). destruct Pk as [Pk1 Pk2].
    destruct top_room as (T0 & T8 & T2). destruct big1010 as [_ VB].
    destruct (@sub_in (opp (big 1010)) (big 1010) (h i) (h k) Fhi Fh) as (Vu & Fu & _); [rewrite val_opp, VB; lra|].
    destruct (@sub_in (opp (big 1010)) (big 1010) (l k) (l i) Fl Fli) as (Vd & Fd & _); [rewrite val_opp, VB; lra|].
    assert (Z0 : finite v0) by (vm_compute; reflexivity).
    destruct (@pymax_f (vsub (l k) (l i)) v0 Fd Z0) as [Fm Vm]. change (val v0) with 0 in Vm.
    destruct val1 as [Fo Vo].
    assert (D0 : val (l i) < val (l k) -> 0 < val (vsub (l k) (l i))).
    { intro W. pose proof (rn_minus (l k) (l i)) as R. rewrite <- Vd, (Rabs_right (val (l k) - val (l i))) in R by lra. apply Rabs_le_inv in R.
      assert (U : 0 < ulp1 <= / 4) by (split; [apply bpow_gt_0|change (/ 4) with (bpow radix2 (-2)); apply bpow_le; lia]). nra. }
    assert (R0 : rn 0 = 0) by (unfold rn; apply round_0, valid_rnd_N).
    assert (T : if start_trend (h k) (l k) (h i) (l i) then val (l k) <= val (h i) else val (l i) <= val (h k)).
    { unfold start_trend. set (mx := pymax (vsub (l k) (l i)) v0) in *. destruct (vltb (vsub (h i) (h k)) (vsub (l k) (l i))) eqn:E; cbn [vofbool].
      - destruct (@mul_in mx mx mx v1 Fm Fo) as (_ & Fp & Bp); [change (val v1) with (val (vofZ 1)); rewrite Vo; lra|].
        destruct (vltb v0 (vmul mx v1)) eqn:Z; cbn [negb].
        + apply ltb_iff in Z; [|reflexivity|exact Fp]. change (val v0) with 0 in Z. apply Rnot_lt_le. intro W.
          assert (H : rn (val (l k) - val (l i)) <= rn 0) by (apply rn_le; lra). rewrite R0, <- Vd in H. rewrite Rmax_right in Vm by lra. lra.
        + apply Rnot_lt_le. intro W. specialize (D0 ltac:(lra)). rewrite Rmax_left in Vm by lra.
          assert (Z' : vltb v0 (vmul mx v1) = true) by (apply ltb_iff; [reflexivity|exact Fp|change (val v0) with 0; lra]). congruence.
      - destruct (@mul_in v0 v0 mx v0 Fm Z0) as (_ & Fp & Bp); [change (val v0) with 0; lra|]. change (val v0) with 0 in Bp.
        destruct (vltb v0 (vmul mx v0)) eqn:Z; cbn [negb].
        + apply ltb_iff in Z; [|reflexivity|exact Fp]. change (val v0) with 0 in Z. lra.
        + apply Rnot_lt_le. intro W. specialize (D0 ltac:(lra)).
          assert (H : rn (val (h i) - val (h k)) <= rn 0) by (apply rn_le; lra). rewrite R0, <- Vu in H.
          assert (E' : vltb (vsub (h i) (h k)) (vsub (l k) (l i)) = true) by (apply ltb_iff; [exact Fu|exact Fd|lra]). congruence. }
    unfold st, i in *. destruct (start_trend (h k) (l k) (h (S k)) (l (S k))).
    - constructor; cbn; auto. apply (@price_fin (S k)); [lia|exact Pk2].
    - constructor; cbn; auto. apply (@price_fin (S k)); [lia|exact Pk1].
  Qed.
End Run.

Lemma sar_float (AF AX : float) (hl ll : line float) n kh kl h l :
  feeds hl n kh h -> feeds ll n kl l ->
  let k := Nat.max kh kl in
  (forall i, (k <= i < n)%nat ->
     finite (h i) /\ finite (l i) /\ val (l i) <= val (h i) /\ - bpow radix2 1000 <= val (l i) /\ val (h i) <= bpow radix2 1000) ->
  finite AF -> 0 <= val AF <= 1 -> finite AX -> 0 <= val AX <= 1 -> (k + 2 <= n)%nat ->
  exists y s, sar AF AX hl ll = Ok y /\ delivers y n (S k) s /\
    forall i, (S k <= i < n)%nat ->
      finite (s i) /\
      (forall L H, (forall j, (k <= j <= i)%nat -> L <= val (l j) /\ val (h j) <= H) -> L <= val (s i) <= H) /\
      (val (s i) < val (l i) \/ val (h i) < val (s i) \/ exists j, (k <= j <= i)%nat /\ (s i = h j \/ s i = l j)).
Proof.
  intros Hh Hl k Hb F1 B1 F2 B2 Hn.
  set (st := let trend := start_trend (h k) (l k) (h (S k)) (l (S k)) in
              let '(ep, sar) := if trend then (h (S k), l k) else (l (S k), h k) in mkSar trend ep sar AF (h (S k)) (l (S k))).
  pose proof (@start_ok h l k n AF AX Hb (conj F1 (conj B1 (conj F2 B2))) Hn) as I. cbv zeta in I. fold st in I.
  set (out := sar_loop AF AX st (map h (seq (S k) (n - S k))) (map l (seq (S k) (n - S k)))).
  assert (Lo : length out = (n - S k)%nat) by (unfold out; rewrite (@sar_loop_length float NumF) by (now rewrite !map_length); now rewrite map_length, seq_length).
  assert (E : sarize AF AX (map h (seq k (n - k))) (map l (seq k (n - k))) = Ok (vnan :: out)).
  { unfold out. replace (n - k)%nat with (S (S (n - k - 2))) by lia. replace (n - S k)%nat with (S (n - k - 2)) by lia.
    unfold st. cbn [seq map sarize tl]. cbv zeta. destruct (start_trend (h k) (l k) (h (S k)) (l (S k))); reflexivity. }
  set (r := fun i => nth (i - k) (vnan :: out) vnan).
  assert (R : map r (seq k (n - k)) = vnan :: out).
  { apply nth_ext with (d := r 0%nat) (d' := vnan); [rewrite map_length, seq_length; cbn [length]; lia|].
    intros j Hj. rewrite map_length, seq_length in Hj. rewrite (map_nth r), seq_nth by exact Hj. unfold r. now replace (k + j - k)%nat with j by lia. }
  destruct (@apply2_delivers _ _ (fun h args => match args with l :: _ => sarize AF AX h l | [] => Raise TypeError end)
      hl ll n kh kl h l r Hh Hl) as (y & Ey & D).
  { fold k. rewrite R. exact E. }
  fold k in D. unfold sar. rewrite Ey. cbn [bind]. exists (period_ y 1 false None), r. split; [reflexivity|].
  split; [apply period1_delivers; [exact D|unfold r; now rewrite Nat.sub_diag]|].
  intros i Hi. destruct (@loop_ok h l k n AF AX Hb (conj F1 (conj B1 (conj F2 B2))) (n - S k) (S k) st ltac:(lia) ltac:(lia) I (i - S k)%nat ltac:(lia)) as (s & Es & G).
  fold out in Es. replace (S k + (i - S k))%nat with i in G by lia.
  assert (Er : r i = s).
  { unfold r. replace (i - k)%nat with (S (i - S k)) by lia. cbn [nth]. now apply nth_error_nth. }
  rewrite Er. exact G.
Qed.
