(** Prices that do not move, in double precision. *)
From Coq Require Import ZArith Reals List Bool Lia Lra Psatz.
From Flocq Require Import Core IEEE754.BinarySingleNaN.
From Verif Require Import Num Series Line Spec LineFacts OpFacts ScanFacts RLineFacts IndMA IndBasic IndStat IndRange IndOsc
  Float64 FloatSpec FloatFacts FloatLine FloatAvg PropFloatFacts EmaFloat UltFloat FlatSpec.
Import ListNotations.
Set Implicit Arguments.
Local Open Scope R_scope.

Lemma nil_cases x : nothing x -> x = B754_nan \/ exists s, x = B754_zero s.
Proof.
  intros [M|[F V]]; destruct x as [s|s| |s m e B]; try discriminate; eauto.
  exfalso. unfold val in V. cbn in V. unfold F2R in V. cbn [Fnum Fexp] in V. apply Rmult_integral in V. destruct V as [V|V].
  - apply eq_IZR in V. destruct s; discriminate.
  - pose proof (bpow_gt_0 radix2 e). lra.
Qed.
Lemma nil_nan : nothing vnan. Proof. left. reflexivity. Qed.
Lemma nil_nan' : nothing (B754_nan : float). Proof. left. reflexivity. Qed.
Lemma nil_zero s : nothing (B754_zero s : float). Proof. right. split; reflexivity. Qed.
Lemma nil_0 : nothing v0. Proof. apply nil_zero. Qed.
Local Hint Resolve nil_nan nil_nan' nil_zero nil_0 : core.
Lemma nil_add x y : nothing x -> nothing y -> nothing (vadd x y).
Proof. intros [->|[s ->]]%nil_cases [->|[t ->]]%nil_cases; auto. destruct s, t; cbn; auto. Qed.
Lemma nil_sub x y : nothing x -> nothing y -> nothing (vsub x y).
Proof. intros [->|[s ->]]%nil_cases [->|[t ->]]%nil_cases; auto. destruct s, t; cbn; auto. Qed.
Lemma nil_mul x y : nothing y -> nothing (vmul x y).
Proof. intros [->|[s ->]]%nil_cases; destruct x; cbn; auto. Qed.
Lemma nil_mul' x y : nothing x -> nothing (vmul x y).
Proof. intros [->|[s ->]]%nil_cases; destruct y; cbn; auto. Qed.
Lemma nil_div x y : nothing x -> nothing (vdiv x y).
Proof. intros [->|[s ->]]%nil_cases; destruct y; cbn; auto. Qed.
Lemma nil_abs x : nothing x -> nothing (vabs x).
Proof. intros [->|[s ->]]%nil_cases; cbn; auto. Qed.
Lemma nil_clip_lo x : nothing x -> nothing (clip_lo v0 x).
Proof. intros [->|[s ->]]%nil_cases; cbn; auto. Qed.
Lemma nil_clip_hi x : nothing x -> nothing (clip_hi v0 x).
Proof. intros [->|[s ->]]%nil_cases; cbn; auto. Qed.
(** a quotient of nothings is missing *)
Lemma nil_quot x y : nothing x -> nothing y -> missing (vdiv x y).
Proof. intros [->|[s ->]]%nil_cases [->|[t ->]]%nil_cases; reflexivity. Qed.

Lemma nil_sum l : Forall nothing l -> nothing (vsum l).
Proof. apply vsum_keep; [apply nil_add|exact nil_0]. Qed.
Lemma nil_ser_mean l : Forall nothing l -> nothing (ser_mean l).
Proof.
  intro H. apply notnan_keep in H. unfold ser_mean. destruct (notnan l) as [|x q]; [exact nil_nan|].
  apply nil_div. now apply nil_sum.
Qed.
Lemma nil_ser_sum l : Forall nothing l -> nothing (ser_sum l).
Proof. intro H. apply nil_sum. now apply notnan_keep. Qed.
Lemma nil_ewma alpha adjust s : Forall nothing s -> Forall nothing (ser_ewma alpha adjust s).
Proof.
  apply ser_ewma_keep with (W := fun _ => True); auto. intros. apply nil_div, nil_add; now apply nil_mul.
Qed.
Lemma nil_weaken l : Forall (fun x : float => nothing x /\ clean x) l -> Forall nothing l.
Proof. apply Forall_impl. intros x [H _]. exact H. Qed.
Lemma nil_sma q b : every nothing b -> every nothing (sma q b).
Proof.
  intro Hb. apply every_rolling with (P := nothing); auto. intros l Hl _. apply nil_div, nil_sum. now apply nil_weaken.
Qed.
Lemma nil_sumn q b : every nothing b -> every nothing (sumn q b).
Proof. intro Hb. apply every_rolling with (P := nothing); auto. intros l Hl _. apply nil_sum. now apply nil_weaken. Qed.
Lemma averages_nil :
  keeps_nothing (fun p a => Ok (sma p a)) /\ keeps_nothing (fun p a => Ok (sumn p a)) /\
  (forall sd, keeps_nothing (fun p a => ema_full p sd 0 a)) /\
  (forall sd, keeps_nothing (fun p a => smma_seed p sd a)) /\
  (forall adjust, keeps_nothing (fun p a => Ok (ewma p adjust a))) /\
  keeps_nothing (fun p a => Ok (wma p a)) /\
  keeps_nothing (fun p a => Ok (trima p a)).
Proof.
  repeat split.
  - intros p a y _ Ha E. injection E as <-. now apply nil_sma.
  - intros p a y _ Ha E. injection E as <-. now apply nil_sumn.
  - intros sd p a y _ Ha E. refine (every_ewm_call (P := nothing) _ _ _ _ _ _ nil_nan nil_0 nil_ser_mean nil_ser_sum _ Ha E).
    intros t r Ht Er. injection Er as <-. now apply nil_ewma.
  - intros sd p a y _ Ha E. refine (every_ewm_call (P := nothing) _ _ _ _ _ _ nil_nan nil_0 nil_ser_mean nil_ser_sum _ Ha E).
    intros t r Ht Er. injection Er as <-. now apply nil_ewma.
  - intros adjust p a y _ Ha E. injection E as <-. unfold every, ewma, ewm_mean, clone; cbn [lser].
    apply Forall_set_from; [apply every_nans, nil_nan|]. apply nil_ewma. now apply Forall_slice_from.
  - intros p a y _ Ha E. injection E as <-. apply every_rbinop_s with (P := nothing); [exact nil_nan|intros; now apply nil_mul|].
    apply every_rolling with (P := nothing); auto. intros l Hl _. apply nil_sum.
    apply Forall_map2 with (R := nothing) (S := fun _ => True); [intros; now apply nil_mul'|now apply nil_weaken|apply Forall_True].
  - intros p a y _ Ha E. injection E as <-. unfold trima. destruct (Nat.odd p); auto using nil_sma.
Qed.

(** ** A line that stays at [c] *)
Lemma sub_self (c : float) : finite c -> vsub c c = v0.
Proof.
  intro F. pose proof (Bminus_correct prec emax _ _ mode_NE c c F F) as C. cbv zeta in C.
  replace (B2R c - B2R c) with 0 in C by ring. rewrite round_0 in C by typeclasses eauto. rewrite Rabs_R0, Rlt_bool_true in C by apply bpow_gt_0.
  destruct C as (E & Fd & S). change (Bminus mode_NE c c) with (vsub c c) in *.
  destruct (nil_cases (x := vsub c c)) as [N|[s N]]; [right; now split|rewrite N in Fd; discriminate|].
  rewrite N in *. cbn in S. rewrite Rcompare_Eq in S by reflexivity. destruct (Bsign c); cbn in S; now subst.
Qed.
Lemma div_self (c : float) : finite c -> val c <> 0 -> vdiv c c = v1.
Proof.
  intros F H. pose proof (Bdiv_correct prec emax _ _ mode_NE c c H) as C. cbv zeta in C. destruct val1 as [F1 V1].
  fold (val c) in C. replace (val c / val c) with 1 in C by (field; exact H).
  change (round radix2 fexp64 (round_mode mode_NE)) with rn in C.
  assert (E1 : rn 1 = 1) by (apply round_generic; [apply valid_rnd_N|rewrite <- V1; apply fmt_val]). rewrite E1 in C.
  rewrite Rabs_R1, Rlt_bool_true in C by (change 1 with (bpow radix2 0); apply bpow_lt; reflexivity).
  destruct C as (E & Fd & S). rewrite F in Fd. change (Bdiv mode_NE c c) with (vdiv c c) in *.
  apply B2R_Bsign_inj; [exact Fd|exact F1| |].
  - rewrite E. symmetry. exact V1.
  - rewrite S by (destruct (vdiv c c); try discriminate Fd; reflexivity). now destruct (Bsign c).
Qed.
Lemma mul_1 (x : float) : finite x -> vmul x v1 = x.
Proof.
  intros F. pose proof (Bmult_correct prec emax _ _ mode_NE x v1) as C. cbv zeta in C. destruct val1 as [F1 V1].
  change (B2R (v1 : float)) with (val (vofZ 1)) in C. fold (val x) in C. rewrite V1, Rmult_1_r in C.
  change (round radix2 fexp64 (round_mode mode_NE)) with rn in C.
  assert (E1 : rn (val x) = val x) by (apply round_generic; [apply valid_rnd_N|apply fmt_val]). rewrite E1 in C.
  rewrite Rlt_bool_true in C by apply abs_B2R_lt_emax.
  destruct C as (E & Fd & S). rewrite F in Fd. change (Bmult mode_NE x v1) with (vmul x v1) in *.
  apply B2R_Bsign_inj; [exact Fd|exact F|exact E|].
  rewrite S by (destruct (vmul x v1); try discriminate Fd; reflexivity). cbn. now destruct (Bsign x).
Qed.
Lemma clip_self_lo (c : float) : clip_lo c c = c.
Proof. unfold clip_lo. destruct (visnan c); [reflexivity|]. now destruct (vleb c c). Qed.
Lemma clip_self_hi (c : float) : clip_hi c c = c.
Proof. unfold clip_hi. destruct (visnan c); [reflexivity|]. now destruct (vleb c c). Qed.
Lemma win_flat (c : float) i w : win (fun _ => c) i w = repeat c w.
Proof. unfold win. generalize (S i - w)%nat. induction w as [|w IH]; intro j; cbn; [reflexivity|]. now rewrite IH. Qed.
Lemma guard_flat G (c : float) w : finite c -> guard_win G (repeat c w) = G (repeat c w).
Proof. intro F. apply guard_finite. apply Forall_forall. intros x Hx. apply repeat_spec in Hx. now subst. Qed.
Lemma max_flat (c : float) w : (1 <= w)%nat -> win_max (repeat c w) = c.
Proof.
  intro H. destruct w as [|w]; [lia|]. cbn [repeat win_max]. clear H. induction w as [|w IH]; [reflexivity|].
  cbn [repeat fold_left]. unfold vmax2 at 2. destruct (vltb c c); exact IH.
Qed.
Lemma min_flat (c : float) w : (1 <= w)%nat -> win_min (repeat c w) = c.
Proof.
  intro H. destruct w as [|w]; [lia|]. cbn [repeat win_min]. clear H. induction w as [|w IH]; [reflexivity|].
  cbn [repeat fold_left]. unfold vmin2 at 2. destruct (vltb c c); exact IH.
Qed.

Lemma ok_eq {A} (x y : A) : Ok x = Ok y -> y = x.
Proof. congruence. Qed.
Section Flat.
  Variables (n k : nat) (c : float).
  Hypothesis Fc : finite c.
  Definition flat (a : line float) : Prop := feeds a n k (fun _ => c).
  Lemma flat_diff p a : flat a -> delivers (diff a (Z.of_nat p)) n (k + p) (fun _ => v0).
  Proof.
    intro H. eapply delivers_ext; [|apply diff_delivers; [intros []; reflexivity|exact H]]. intros i _. now apply sub_self.
  Qed.
  Lemma flat_mom p a : flat a -> delivers (mom p a) n (k + p) (fun _ => v0).
  Proof. apply flat_diff. Qed.
  Lemma flat_rocbase p a : (1 <= p)%nat -> val c <> 0 -> flat a -> delivers (rocbase p a) n (k + p) (fun _ => v1).
  Proof.
    intros Hp Hc H. unfold rocbase. eapply del_ext; [| |eapply binop_delivers; [exact H|apply delivers_feeds, at_ago_delivers; [exact H|exact Hp]]]; [lia|].
    intros i _. now apply div_self.
  Qed.
  Lemma flat_roc p a : (1 <= p)%nat -> val c <> 0 -> flat a ->
    delivers (rocr p a) n (k + p) (fun _ => v1) /\ delivers (rocr100 p a) n (k + p) (fun _ => vofZ 100) /\
    delivers (rocp p a) n (k + p) (fun _ => v0) /\ delivers (roc p a) n (k + p) (fun _ => v0).
  Proof.
    intros Hp Hc H. pose proof (flat_rocbase Hp Hc H) as D. split; [exact D|]. split; [|split].
    - eapply delivers_ext; [|apply rbinop_s_delivers, delivers_feeds, D]. intros i _. cbv beta. apply mul_1. apply val100.
    - eapply delivers_ext; [|apply binop_s_delivers, delivers_feeds, D]. intros i _. cbv beta. apply sub_self, val1.
    - eapply delivers_ext; [|apply rbinop_s_delivers, delivers_feeds, binop_s_delivers, delivers_feeds, D]. intros i _. cbv beta.
      change (vofZ 1) with (v1 : float). rewrite sub_self by apply val1. reflexivity.
  Qed.
  Lemma every_of_delivers (P : float -> Prop) a k' f : P vnan -> (forall i, P (f i)) -> delivers a n k' f -> every P a.
  Proof. intros Pn H D. eapply delivers_every; eauto. Qed.
  Lemma flat_up q a : flat a -> every nothing (updays q a).
  Proof.
    intro H. unfold updays. apply every_clip_lo with (P := nothing); auto using nil_clip_lo.
    eapply every_of_delivers; [exact nil_nan|intro; exact nil_0|now apply flat_diff].
  Qed.
  Lemma flat_down q a : flat a -> every nothing (downdays q a).
  Proof.
    intro H. unfold downdays. apply every_mapop with (P := nothing); auto using nil_abs.
    eapply every_of_delivers with (f := fun _ => clip_hi v0 v0); [exact nil_nan|intro; apply nil_clip_hi, nil_0|].
    apply lclip_hi_delivers, delivers_feeds, flat_diff, H.
  Qed.
  Lemma nil_ldiv a b : every nothing a -> every nothing b -> every missing (ldiv a b).
  Proof. intros. apply every_binop with (P := nothing) (Q := nothing); auto using nil_quot. reflexivity. Qed.
  Lemma miss_l (op : float -> float -> float) v : op v B754_nan = B754_nan -> forall x, missing x -> missing (op v x).
  Proof. intros E x M. destruct x; try discriminate M. rewrite E. reflexivity. Qed.
  Lemma flat_rsi ma p q a y : keeps_nothing ma -> (1 <= p)%nat -> flat a -> rsi ma p q a = Ok y -> every missing y.
  Proof.
    intros K Hp H E. unfold rsi in E. destruct (ma p (updays q a)) as [u|] eqn:Eu; [|discriminate]. cbn [bind] in E.
    destruct (ma p (downdays q a)) as [d|] eqn:Ed; [|discriminate]. apply ok_eq in E; subst y.
    pose proof (nil_ldiv (K _ _ _ Hp (flat_up q H) Eu) (K _ _ _ Hp (flat_down q H) Ed)) as M.
    unfold strength. repeat (apply every_rbinop_s with (P := missing); [reflexivity|apply miss_l; reflexivity|]). exact M.
  Qed.
  Lemma flat_cmo ma p a y : keeps_nothing ma -> (1 <= p)%nat -> flat a -> cmo ma p a = Ok y -> every missing y.
  Proof.
    intros K Hp H E. unfold cmo in E. destruct (ma p (updays 1 a)) as [u|] eqn:Eu; [|discriminate]. cbn [bind] in E.
    destruct (ma p (downdays 1 a)) as [d|] eqn:Ed; [|discriminate]. apply ok_eq in E; subst y.
    pose proof (K _ _ _ Hp (flat_up 1 H) Eu). pose proof (K _ _ _ Hp (flat_down 1 H) Ed).
    apply nil_ldiv; [|apply every_binop with (P := nothing) (Q := nothing); auto using nil_add].
    apply every_rbinop_s with (P := nothing); [exact nil_nan|intros; now apply nil_mul|].
    apply every_binop with (P := nothing) (Q := nothing); auto using nil_sub.
  Qed.
  Variables (h l cl : line float).
  Hypothesis Hh : flat h.
  Hypothesis Hl : flat l.
  Hypothesis Hcl : flat cl.
  Lemma flat_truerange q : (1 <= q)%nat -> delivers (truerange q h l cl) n (k + q) (fun _ => v0).
  Proof.
    intro Hq. unfold truerange, lclip_lo_l, lclip_hi_l. pose proof (delivers_feeds (at_ago_delivers Hcl Hq)) as D1.
    eapply del_ext; [| |apply binop_delivers; apply delivers_feeds; eapply stdop2_delivers; try eassumption; cbv zeta; apply map2_map_seq]; [lia|].
    intros i _. cbv beta. rewrite clip_self_lo, clip_self_hi. now apply sub_self.
  Qed.
  Lemma nil_truerange q : (1 <= q)%nat -> every nothing (truerange q h l cl).
  Proof. intro Hq. eapply every_of_delivers; [exact nil_nan|intro; exact nil_0|now apply flat_truerange]. Qed.
  Lemma flat_atr ma p q y : keeps_nothing ma -> (1 <= p)%nat -> (1 <= q)%nat -> atr ma p q h l cl = Ok y -> every nothing y.
  Proof. intros K Hp Hq E. exact (K _ _ _ Hp (nil_truerange Hq) E). Qed.
  Lemma flat_natr ma p q y : keeps_nothing ma -> (1 <= p)%nat -> (1 <= q)%nat -> natr ma p q h l cl = Ok y -> every nothing y.
  Proof.
    intros K Hp Hq E. unfold natr in E. destruct (atr ma p q h l cl) as [a|] eqn:Ea; [|discriminate]. apply ok_eq in E; subst y.
    apply every_binop with (P := nothing) (Q := fun _ => True); auto using nil_div, every_True.
    apply every_rbinop_s with (P := nothing); [exact nil_nan|intros; now apply nil_mul|]. exact (flat_atr K Hp Hq Ea).
  Qed.
  Lemma flat_max p a : (1 <= p)%nat -> flat a -> delivers (max_ind p a) n (k + p - 1) (fun _ => c).
  Proof.
    intros Hp H. eapply delivers_ext; [|apply rolling_delivers; [exact Hp|exact H]]. intros i _. cbv beta.
    rewrite win_flat, guard_flat by exact Fc. now apply max_flat.
  Qed.
  Lemma flat_min p a : (1 <= p)%nat -> flat a -> delivers (min_ind p a) n (k + p - 1) (fun _ => c).
  Proof.
    intros Hp H. eapply delivers_ext; [|apply rolling_delivers; [exact Hp|exact H]]. intros i _. cbv beta.
    rewrite win_flat, guard_flat by exact Fc. now apply min_flat.
  Qed.
  Lemma nil_lsub a b ka kb : feeds a n ka (fun _ => c) -> feeds b n kb (fun _ => c) -> every nothing (lsub a b).
  Proof.
    intros Ha Hb. eapply every_of_delivers; [exact nil_nan| |apply binop_delivers; [exact Ha|exact Hb]].
    intro. cbv beta. rewrite sub_self by exact Fc. exact nil_0.
  Qed.
  Lemma flat_stoch p : (1 <= p)%nat -> every missing (stoch_k p h l cl) /\ every missing (williamsr p h l cl).
  Proof.
    intro Hp. pose proof (delivers_feeds (flat_max Hp Hh)) as X. pose proof (delivers_feeds (flat_min Hp Hl)) as N.
    split; apply nil_ldiv; try exact (nil_lsub X N); (apply every_rbinop_s with (P := nothing); [exact nil_nan|intros; now apply nil_mul|]).
    - exact (nil_lsub Hcl N).
    - exact (nil_lsub X Hcl).
  Qed.
  Lemma flat_bop o : flat o -> every missing (bop o h l cl).
  Proof. intro Ho. apply nil_ldiv; [exact (nil_lsub Hcl Ho)|exact (nil_lsub Hh Hl)]. Qed.
  Lemma nil_pdm q : (1 <= q)%nat -> every nothing (pdm1 q h l) /\ every nothing (mdm1 q h l).
  Proof.
    intro Hq. assert (U : every nothing (upmove q h)) by (eapply every_of_delivers; [exact nil_nan|intro; exact nil_0|apply flat_diff, Hh]).
    assert (D : every nothing (downmove q l)) by exact (nil_lsub (delivers_feeds (at_ago_delivers Hl Hq)) Hl).
    split; (apply every_mul_b with (P := nothing); auto; [intros; now apply nil_mul'|]); apply every_clip_lo with (P := nothing); auto using nil_clip_lo.
  Qed.
  Lemma flat_di sm q y : (forall a y, every nothing a -> sm a = Ok y -> every nothing y) -> (1 <= q)%nat ->
    (plus_di sm q h l cl = Ok y -> every missing y) /\ (minus_di sm q h l cl = Ok y -> every missing y).
  Proof.
    intros K Hq. destruct (nil_pdm Hq) as [Np Nm].
    assert (R : forall d t z, every nothing d -> di_range sm q h l cl = Ok t -> z = ldiv (rbinop_s vmul (vofZ 100) d) t -> every missing z).
    { intros d t z Hd Et ->. unfold di_range in Et. destruct (sm (truerange q h l cl)) as [t'|] eqn:Es; [|discriminate]. apply ok_eq in Et; subst t.
      apply nil_ldiv; [apply every_rbinop_s with (P := nothing); [exact nil_nan|intros; now apply nil_mul|exact Hd]|]. exact (K _ _ (nil_truerange Hq) Es). }
    split; intro E; [unfold plus_di, plus_dm in E|unfold minus_di, minus_dm in E];
      (destruct (sm _) as [d|] eqn:Ed; [|discriminate]; cbn [bind] in E; destruct (di_range sm q h l cl) as [t|] eqn:Et; [|discriminate];
       apply ok_eq in E; subst y; refine (R d t _ _ eq_refl eq_refl); eapply K; [|exact Ed]; assumption).
  Qed.
End Flat.

(** ** Indicators that see a movement in prices that stay at 10.01 *)
Definition ten01 : float := vofQ (QArith_base.Qmake 1001 100).
Lemma ten01_fin : finite ten01. Proof. vm_compute. reflexivity. Qed.
Lemma ema_stuck p c w n : (1 <= p <= n)%nat -> finite c -> finite w -> ser_mean (repeat c p) = w ->
  ewma_step (alpha_span (vofZ (Z.of_nat p))) false (w, v1) c = ((w, v1), w) ->
  exists y, ema p (raw (repeat c n)) = Ok y /\ delivers y n (p - 1) (fun _ => w).
Proof.
  intros Hp Fc Fw Em W. pose proof (raw_const c n) as Ha.
  destruct (ewm_span_delivers (p := p) Ha) as (y & Hy & Dy); [lia|lia|]. exists y. split; [exact Hy|].
  eapply delivers_ext; [|exact Dy]. intros i Hi. cbv beta. rewrite win_flat, Em, (@prep_fin_id _ Fw).
  apply ewma_val_fixed with (c := c); auto.
Qed.
Lemma step_check al (w c : float) (r := ewma_step al false (w, v1) c) :
  B2SF (snd r) = B2SF w -> B2SF (fst (fst r)) = B2SF w -> B2SF (snd (fst r)) = B2SF (v1 : float) -> r = ((w, v1), w).
Proof.
  clearbody r. intros E1 E2 E3. apply B2SF_inj in E1. apply B2SF_inj in E2. apply B2SF_inj in E3. destruct r as [[u o] v]. cbn [fst snd] in *. now subst.
Qed.
Definition fast01 : float := ser_mean (repeat ten01 12).
Definition slow01 : float := ser_mean (repeat ten01 26).
Definition gap01 : float := vsub fast01 slow01.
Lemma check_gt (z : Z) (v : float) : is_finite v && vltb (vofZ z) v = true -> is_finite (vofZ z : float) = true -> finite v /\ val (vofZ z) < val v.
Proof. intros H Fz. apply andb_true_iff in H. destruct H as [F L]. split; [exact F|]. now apply ltb_iff. Qed.
Lemma check_lt (z : Z) (v : float) : is_finite v && vltb v (vofZ z) = true -> is_finite (vofZ z : float) = true -> finite v /\ val v < val (vofZ z).
Proof. intros H Fz. apply andb_true_iff in H. destruct H as [F L]. split; [exact F|]. now apply ltb_iff. Qed.
Lemma gap01_pos : finite gap01 /\ 0 < val gap01.
Proof. destruct (@check_gt 0 gap01) as [F L]; [vm_compute; reflexivity|reflexivity|]. rewrite val0 in L. now split. Qed.
Lemma macd_flat n : (34 <= n)%nat -> exists m s d, macd ema ema 12 26 9 (raw (repeat ten01 n)) = Ok (m, s, d) /\
  delivers m n 25 (fun _ => gap01).
Proof.
  intro Hn. assert (A : (1 <= 12 <= n)%nat) by lia. assert (B : (1 <= 26 <= n)%nat) by lia.
  destruct (@ema_stuck 12 ten01 fast01 n A ten01_fin) as (y1 & E1 & D1);
    [vm_compute; reflexivity|reflexivity|apply step_check; vm_compute; reflexivity|].
  destruct (@ema_stuck 26 ten01 slow01 n B ten01_fin) as (y2 & E2 & D2);
    [vm_compute; reflexivity|reflexivity|apply step_check; vm_compute; reflexivity|].
  unfold macd, macd_from. rewrite E1. cbn [bind]. rewrite E2. cbn [bind].
  assert (D : delivers (lsub y1 y2) n 25 (fun _ => gap01)).
  { pose proof (binop_delivers vsub (delivers_feeds D1) (delivers_feeds D2)) as D. exact D. }
  destruct (ewm_span_delivers (p := 9) (delivers_feeds D)) as (s & Hs & _); [lia|lia|].
  change (ema 9%nat (lsub y1 y2)) with (ewm_span 9 0 SEED_AVG (lsub y1 y2)). rewrite Hs. cbn [bind]. eauto.
Qed.
Definition tp01 : float := vdiv (vadd (vadd ten01 ten01) ten01) (vofZ 3).
Definition f015 : float := vofQ (QArith_base.Qmake 15 1000).
Definition cci01 : float := vdiv (vsub tp01 (win_mean (repeat tp01 20))) (vmul (win_mad (repeat tp01 20)) f015).
Lemma cci01_val : finite cci01 /\ 66 < val cci01.
Proof.
  destruct (@check_gt 66 cci01) as [F L]; [vm_compute; reflexivity|reflexivity|]. split; [exact F|].
  destruct (fofZ_exact 66) as [_ V]; [vm_compute; discriminate|]. rewrite V in L. exact L.
Qed.
Lemma cci_flat n (a := raw (repeat ten01 n)) : exists y, cci 20 f015 sma_ sma_ a a a = Ok y /\ delivers y n 19 (fun _ => cci01).
Proof.
  pose proof (raw_const ten01 n : feeds a n 0 (fun _ => ten01)) as Ha. unfold cci. cbv zeta.
  set (tp := binop_s vdiv (ladd (ladd a a) a) (vofZ 3)).
  assert (Ht : feeds tp n 0 (fun _ => tp01)).
  { exact (delivers_feeds (binop_s_delivers vdiv (vofZ 3) (delivers_feeds (binop_delivers vadd (delivers_feeds (binop_delivers vadd Ha Ha)) Ha)))). }
  clearbody tp. assert (Ft : finite tp01) by (vm_compute; reflexivity).
  pose proof (rolling_delivers (w := 20) win_mean ltac:(lia) Ht) as Dm. pose proof (rolling_delivers (w := 20) win_mad ltac:(lia) Ht) as Dd.
  eexists. split; [reflexivity|].
  eapply del_ext; [| |eapply binop_delivers; [apply delivers_feeds, binop_delivers; [exact Ht|exact (delivers_feeds Dm)]|
    apply delivers_feeds, binop_s_delivers; exact (delivers_feeds Dd)]]; [reflexivity|].
  intros i _. cbv beta. rewrite !win_flat, !guard_flat by exact Ft. reflexivity.
Qed.
Definition slope01 : float :=
  vdiv (vsub (vmul (vofZ 14) (win_dot 1 (repeat ten01 14))) (vmul (vdiv (vofZ (14 * 15)) (vofZ 2)) (win_sum (repeat ten01 14))))
       (vsub (vmul (vofZ 14) (vdiv (vofZ (14 * 15 * 29)) (vofZ 6))) (vmul (vdiv (vofZ (14 * 15)) (vofZ 2)) (vdiv (vofZ (14 * 15)) (vofZ 2)))).
Lemma slope01_neg : finite slope01 /\ val slope01 < 0.
Proof. destruct (@check_lt 0 slope01) as [F L]; [vm_compute; reflexivity|reflexivity|]. rewrite val0 in L. now split. Qed.
Lemma slope_flat n : delivers (linearreg_slope 14 (raw (repeat ten01 n))) n 13 (fun _ => slope01).
Proof.
  pose proof (raw_const ten01 n) as Ha.
  pose proof (rolling_delivers (w := 14) win_sum ltac:(lia) Ha) as Dy. pose proof (rolling_delivers (w := 14) (win_dot 1) ltac:(lia) Ha) as Dxy.
  unfold linearreg_slope, linreg_mb. cbv zeta. cbn [fst].
  eapply del_ext; [| |apply binop_s_delivers, delivers_feeds, binop_delivers; apply delivers_feeds, rbinop_s_delivers;
    [exact (delivers_feeds Dxy)|exact (delivers_feeds Dy)]]; [reflexivity|].
  intros i _. cbv beta. rewrite !win_flat, !guard_flat by exact ten01_fin. reflexivity.
Qed.
Lemma macd_flat' n : (34 <= n)%nat -> exists m s d v, macd ema ema 12 26 9 (raw (repeat ten01 n)) = Ok (m, s, d) /\
  finite v /\ 0 < val v /\ delivers m n 25 (fun _ => v).
Proof. intro H. destruct (macd_flat H) as (m & s & d & E & D). exists m, s, d, gap01. destruct gap01_pos. auto. Qed.
Lemma cci_flat' n (a := raw (repeat ten01 n)) : exists y v, cci 20 f015 sma_ sma_ a a a = Ok y /\
  finite v /\ 66 < val v /\ delivers y n 19 (fun _ => v).
Proof. destruct (cci_flat n) as (y & E & D). exists y, cci01. destruct cci01_val. auto. Qed.
Lemma slope_flat' n : exists v, finite v /\ val v < 0 /\ delivers (linearreg_slope 14 (raw (repeat ten01 n))) n 13 (fun _ => v).
Proof. exists slope01. destruct slope01_neg. split; [assumption|]. split; [assumption|]. apply slope_flat. Qed.

(** ** Statements used by Prop_Flat.v *)
Lemma flat_mom_stmt n k (c : float) p (a : line float) : finite c -> feeds a n k (fun _ => c) ->
  delivers (mom p a) n (k + p) (fun _ => v0).
Proof. intros F H. now apply (flat_mom (c := c)). Qed.
Lemma flat_roc_stmt n k (c : float) p (a : line float) : finite c -> val c <> 0 -> (1 <= p)%nat -> feeds a n k (fun _ => c) ->
  delivers (rocr p a) n (k + p) (fun _ => v1) /\ delivers (rocr100 p a) n (k + p) (fun _ => vofZ 100) /\
  delivers (rocp p a) n (k + p) (fun _ => v0) /\ delivers (roc p a) n (k + p) (fun _ => v0).
Proof. intros F Hc Hp H. now apply (flat_roc (c := c)). Qed.
Lemma flat_strength_stmt n k (c : float) ma p q (a y : line float) : finite c -> feeds a n k (fun _ => c) -> keeps_nothing ma -> (1 <= p)%nat ->
  (rsi ma p q a = Ok y -> every missing y) /\ (cmo ma p a = Ok y -> every missing y).
Proof. intros F H K Hp. split; intro E; [exact (flat_rsi F q K Hp H E)|exact (flat_cmo F K Hp H E)]. Qed.
Lemma flat_range_stmt n k (c : float) (h l cl : line float) : finite c ->
  feeds h n k (fun _ => c) -> feeds l n k (fun _ => c) -> feeds cl n k (fun _ => c) ->
  (forall q, (1 <= q)%nat -> delivers (truerange q h l cl) n (k + q) (fun _ => v0)) /\
  (forall ma p q y, keeps_nothing ma -> (1 <= p)%nat -> (1 <= q)%nat ->
     (atr ma p q h l cl = Ok y -> every nothing y) /\ (natr ma p q h l cl = Ok y -> every nothing y)) /\
  (forall p, (1 <= p)%nat -> every missing (stoch_k p h l cl) /\ every missing (williamsr p h l cl)) /\
  (forall o, feeds o n k (fun _ => c) -> every missing (bop o h l cl)) /\
  (forall sm q y, (forall a z, every nothing a -> sm a = Ok z -> every nothing z) -> (1 <= q)%nat ->
     (plus_di sm q h l cl = Ok y -> every missing y) /\ (minus_di sm q h l cl = Ok y -> every missing y)).
Proof.
  intros F Hh Hl Hc. split; [|split; [|split; [|split]]].
  - intros q Hq. exact (flat_truerange F Hh Hl Hc Hq).
  - intros ma p q y K Hp Hq. split; intro E; [exact (flat_atr F Hh Hl Hc K Hp Hq E)|exact (flat_natr F Hh Hl Hc K Hp Hq E)].
  - intros p Hp. exact (flat_stoch F Hh Hl Hc Hp).
  - intros o Ho. exact (flat_bop F Hh Hl Hc Ho).
  - intros sm q y K Hq. exact (flat_di F Hh Hl Hc sm y K Hq).
Qed.
