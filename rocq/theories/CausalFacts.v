(** No repainting: every causal operator commutes with extending the history. *)
From Coq Require Import ZArith List Bool Lia Arith.
From Verif Require Import Num Series Line Spec LineFacts ScanFacts Expr.
Import ListNotations.
Set Implicit Arguments.
Arguments skipn : simpl never.
Arguments firstn : simpl never.

Definition prefix {A} (l m : list A) : Prop := exists t, m = l ++ t.

Definition causal {A B} (F : list A -> list B) : Prop :=
  (forall l, length (F l) = length l) /\ (forall l t, prefix (F l) (F (l ++ t))).

Definition plc {B} (d : B) (n k : nat) (r : list B) : list B :=
  set_from (repeat d n) (Z.of_nat k) r.

Lemma plc_form {B} (d : B) n k r : plc d n k r = repeat d (Nat.min k n) ++ r.
Proof.
  unfold plc, set_from. rewrite repeat_length, slice_lo_nat. f_equal.
  generalize (Nat.min k n) as m, (Nat.le_min_r k n). intros m Hm.
  replace n with (m + (n - m)) by lia. rewrite repeat_app, firstn_app, repeat_length, Nat.sub_diag.
  rewrite firstn_O, app_nil_r, firstn_all2; auto. rewrite repeat_length; lia.
Qed.

Lemma plc_length {B} (d : B) n k r : length r = n - k -> length (plc d n k r) = n.
Proof. intro H. rewrite plc_form, app_length, repeat_length. lia. Qed.

Lemma plc_prefix {B} (d : B) n n' k (r r' : list B) :
  length r = n - k -> n <= n' -> (k <= n -> prefix r r') ->
  prefix (plc d n k r) (plc d n' k r').
Proof.
  intros Hr Hn Hp. rewrite !plc_form.
  destruct (Nat.le_gt_cases k n) as [H|H].
  - destruct (Hp H) as [t ->]. exists t. rewrite !Nat.min_l by lia. now rewrite app_assoc.
  - assert (r = []) by (apply length_zero_iff_nil; lia). subst r.
    rewrite app_nil_r, (Nat.min_r k n) by lia.
    exists (repeat d (Nat.min k n' - n) ++ r'). rewrite app_assoc, <- repeat_app.
    do 2 f_equal. lia.
Qed.

Lemma skipn_prefix {A} (k : nat) (s t : list A) :
  k <= length s -> skipn k (s ++ t) = skipn k s ++ t.
Proof.
  intro H. rewrite skipn_app. replace (k - length s) with 0 by lia. reflexivity.
Qed.

Lemma firstn_prefix {A} a b (l t : list A) :
  a <= length l -> a <= b -> prefix (firstn a l) (firstn b (l ++ t)).
Proof.
  intros Ha Hb. exists (skipn a (firstn b (l ++ t))).
  rewrite <- (firstn_skipn a (firstn b (l ++ t))) at 1. f_equal.
  rewrite firstn_firstn, Nat.min_l by lia. rewrite firstn_app.
  replace (a - length l) with 0 by lia. now rewrite firstn_O, app_nil_r.
Qed.

Lemma map2_app {A B C} (f : A -> B -> C) l m t u :
  length l = length m -> map2 f (l ++ t) (m ++ u) = map2 f l m ++ map2 f t u.
Proof.
  revert m; induction l as [|a l IH]; intros [|b m] H; simpl in *; try discriminate; auto.
  f_equal. apply IH; lia.
Qed.

Lemma causal_map {A B} (f : A -> B) : causal (map f).
Proof.
  split; [intro l; apply map_length|]. intros l t. exists (map f t). apply map_app.
Qed.

Lemma causal_scan {S A B} (step : S -> A -> S * B) s : causal (scan step s).
Proof.
  split; [intro l; apply scan_length|].
  intros l t. destruct (scan_app step s l t) as [s' H]. exists (scan step s' t). exact H.
Qed.

Section Facts.
  Context {V : Type} {N : Num V}.

  Lemma causal_cumsum : causal (ser_cumsum (V:=V)).
  Proof.
    pose proof (causal_scan (cumsum_step (V:=V)) v0) as [H1 H2]. unfold ser_cumsum.
    split; intros; rewrite ?cumsum_scan; auto.
  Qed.

  Lemma causal_ffill : causal (ser_ffill (V:=V)).
  Proof.
    pose proof (causal_scan (ffill_step (V:=V)) vnan) as [H1 H2]. unfold ser_ffill.
    split; intros; rewrite ?ffill_scan; auto.
  Qed.

  Lemma causal_repl0 : causal (ser_replace0_ffill (V:=V)).
  Proof.
    pose proof (causal_scan (repl0_step (V:=V)) None) as [H1 H2]. unfold ser_replace0_ffill.
    split; intros; rewrite ?repl0_scan; auto.
  Qed.

  Lemma ser_shift_length (s : list V) p : length (ser_shift s p) = length s.
  Proof.
    unfold ser_shift. destruct (p <? 0)%Z;
      rewrite app_length, repeat_length, ?skipn_length, ?firstn_length; lia.
  Qed.

  Lemma causal_shift p : causal (fun s : list V => ser_shift s (Z.of_nat p)).
  Proof.
    split; [intro l; apply ser_shift_length|]. intros l t. unfold ser_shift.
    destruct (Z.ltb_spec (Z.of_nat p) 0); [lia|]. rewrite Nat2Z.id, app_length.
    destruct (Nat.le_gt_cases p (length l)) as [H1|H1].
    - rewrite !Nat.min_l by lia.
      destruct (@firstn_prefix V (length l - p) (length l + length t - p) l t) as [u Hu]; try lia.
      exists u. now rewrite Hu, app_assoc.
    - rewrite (Nat.min_r p (length l)) by lia. replace (length l - p) with 0 by lia.
      rewrite firstn_O, app_nil_r.
      exists (repeat vnan (Nat.min p (length l + length t) - length l) ++
              firstn (length l + length t - p) (l ++ t)).
      rewrite app_assoc, <- repeat_app. do 2 f_equal. lia.
  Qed.

  Lemma causal_comp {A B C} (F : list B -> list C) (G : list A -> list B) :
    causal F -> causal G -> causal (fun l => F (G l)).
  Proof.
    intros [HF1 HF2] [HG1 HG2]. split; [intro l; now rewrite HF1|].
    intros l t. destruct (HG2 l t) as [u Hu]. rewrite Hu. apply HF2.
  Qed.

  Lemma causal_map2 {A B C D} (op : B -> C -> D) (F : list A -> list B) (G : list A -> list C) :
    causal F -> causal G -> causal (fun l => map2 op (F l) (G l)).
  Proof.
    intros [HF1 HF2] [HG1 HG2]. split.
    - intro l. rewrite map2_length, HF1, HG1. lia.
    - intros l t. destruct (HF2 l t) as [u Hu], (HG2 l t) as [v Hv]. rewrite Hu, Hv.
      exists (map2 op u v). apply map2_app. now rewrite HF1, HG1.
  Qed.

  Lemma causal_id {A} : causal (fun l : list A => l).
  Proof. split; auto. intros l t. now exists t. Qed.

  Lemma causal_diff p : causal (fun s : list V => ser_diff s (Z.of_nat p)).
  Proof. unfold ser_diff. apply causal_map2; [apply causal_id|apply causal_shift]. Qed.

  Lemma causal_pct p : causal (fun s : list V => ser_pct_change s (Z.of_nat p)).
  Proof.
    unfold ser_pct_change.
    apply (causal_comp (F := map (fun x => vsub x v1))
             (G := fun s : list V => map2 vdiv (ser_ffill s) (ser_shift (ser_ffill s) (Z.of_nat p)))).
    - apply causal_map.
    - apply causal_map2; [apply causal_ffill|].
      apply (causal_comp (F := fun s => ser_shift s (Z.of_nat p))); [apply causal_shift|apply causal_ffill].
  Qed.

  Lemma window_app {A} (l t : list A) i w :
    i < length l -> w <= S i -> window (l ++ t) i w = window l i w.
  Proof.
    intros Hi Hw. unfold window. rewrite skipn_prefix by lia.
    rewrite firstn_app. rewrite skipn_length.
    replace (w - (length l - (S i - w))) with 0 by lia. now rewrite firstn_O, app_nil_r.
  Qed.

  Lemma causal_rolling w (G : list V -> V) : causal (ser_rolling w G).
  Proof.
    split.
    - intro l. unfold ser_rolling. now rewrite map_length, seq_length.
    - intros l t. unfold ser_rolling. rewrite app_length, seq_app, map_app.
      match goal with |- prefix _ (_ ++ ?u) => exists u end. f_equal.
      apply map_ext_seq. intros i Hi.
      destruct (Nat.ltb_spec (S i) w); auto. now rewrite window_app by lia.
  Qed.

  Lemma causal_ewma alpha adj : causal (ser_ewma (V:=V) alpha adj).
  Proof.
    split.
    - intro l. unfold ser_ewma. rewrite <- (map_length prep l).
      destruct (map prep l) as [|x s]; auto. simpl. now rewrite ewma_scan, scan_length.
    - intros l t. unfold ser_ewma. rewrite map_app.
      destruct (map prep l) as [|x s]; simpl.
      + eexists; reflexivity.
      + rewrite !ewma_scan. destruct (scan_app (ewma_step alpha adj) (x, v1) s (map prep t)) as [s' H].
        rewrite H. eexists; reflexivity.
  Qed.

  Lemma causal_mean_exp al be : causal (mean_exp (V:=V) al be).
  Proof.
    split.
    - intro l. unfold mean_exp. rewrite <- (map_length prep l).
      destruct (map prep l) as [|x s]; auto. simpl. now rewrite mean_exp_scan, scan_length.
    - intros l t. unfold mean_exp. rewrite map_app.
      destruct (map prep l) as [|x s]; simpl.
      + eexists; reflexivity.
      + rewrite !mean_exp_scan.
        destruct (scan_app (mean_exp_step al (eff_beta al be)) x s (map prep t)) as [s' H].
        rewrite H. eexists; reflexivity.
  Qed.

  (** ** The relation kept by every operator *)

  Lemma clone_pos (l : line V) s p : (1 <= p)%Z -> clone l s p = mkLine p s.
  Proof. intro H. unfold clone. destruct (Z.eqb_spec p 0); auto; lia. Qed.
  Lemma bclone_pos m s p : (1 <= p)%Z -> bclone m s p = mkBLine p s.
  Proof. intro H. unfold bclone. destruct (Z.eqb_spec p 0); auto; lia. Qed.

  Lemma mi_nat m : (1 <= m)%Z -> exists k, (m - 1 = Z.of_nat k)%Z.
  Proof. intro H. exists (Z.to_nat (m - 1)). lia. Qed.

  (** unary: placed values of a causal function of the slice *)
  Variables n n' : nat.
  Hypothesis Hnn : n <= n'.

  Definition Rl (l l' : line V) : Prop :=
    (1 <= lmp l)%Z /\ length (lser l) = n /\ length (lser l') = n' /\
    lmp l = lmp l' /\ prefix (lser l) (lser l').
  Definition BRl (l l' : bline) : Prop :=
    (1 <= bmp l)%Z /\ length (bser l) = n /\ length (bser l') = n' /\
    bmp l = bmp l' /\ prefix (bser l) (bser l').

  Lemma unary_prefix {A B} (F : list A -> list B) (d : B) (s s' : list A) k :
    causal F -> length s = n -> length s' = n' -> prefix s s' ->
    prefix (plc d n k (F (skipn k s))) (plc d n' k (F (skipn k s'))) /\
    length (plc d n k (F (skipn k s))) = n /\ length (plc d n' k (F (skipn k s'))) = n'.
  Proof.
    intros [HF1 HF2] Hs Hs' [t Ht]. split; [|split].
    - apply plc_prefix; auto.
      + rewrite HF1, skipn_length. lia.
      + intro Hk. rewrite Ht, skipn_prefix by lia. apply HF2.
    - apply plc_length. rewrite HF1, skipn_length. lia.
    - apply plc_length. rewrite HF1, skipn_length. lia.
  Qed.

  Lemma binary_prefix {A B C} (op : A -> B -> C) (d : C) s s' u u' k :
    length s = n -> length s' = n' -> prefix s s' ->
    length u = n -> length u' = n' -> prefix u u' ->
    prefix (plc d n k (map2 op (skipn k s) (skipn k u))) (plc d n' k (map2 op (skipn k s') (skipn k u'))) /\
    length (plc d n k (map2 op (skipn k s) (skipn k u))) = n /\
    length (plc d n' k (map2 op (skipn k s') (skipn k u'))) = n'.
  Proof.
    intros Hs Hs' [t Ht] Hu Hu' [w Hw]. split; [|split].
    - apply plc_prefix; auto.
      + rewrite map2_length, !skipn_length. lia.
      + intro Hk. rewrite Ht, Hw, !skipn_prefix by lia.
        exists (map2 op t w). apply map2_app. rewrite !skipn_length. lia.
    - apply plc_length. rewrite map2_length, !skipn_length. lia.
    - apply plc_length. rewrite map2_length, !skipn_length. lia.
  Qed.

  Ltac norm_mp k Hk m :=
    destruct (@mi_nat m) as [k Hk]; [lia|]; rewrite ?Hk, ?slice_from_nat.

  (** every unary operator of the library has this shape *)
  Lemma R_unary (F : list V -> list V) l l' mp (inc : Z) :
    Rl l l' -> causal F -> mp = (lmp l)%Z -> (0 <= inc)%Z ->
    Rl (mkLine (mp + inc) (set_from (nans (bars l)) (mp - 1) (F (slice_from (lser l) (mp - 1)))))
      (mkLine (mp + inc) (set_from (nans (bars l')) (mp - 1) (F (slice_from (lser l') (mp - 1))))).
  Proof.
    intros (H1 & H2 & H3 & H4 & H5) HF -> Hinc. unfold bars. rewrite H2, H3.
    destruct (@mi_nat (lmp l)) as [k Hk]; auto. rewrite Hk, !slice_from_nat.
    destruct (unary_prefix vnan k HF H2 H3 H5) as (P1 & P2 & P3).
    repeat split; cbn [lmp lser]; auto; lia.
  Qed.

  Lemma R_stdop F l l' : Rl l l' -> causal F -> Rl (stdop F l) (stdop F l').
  Proof.
    intros H HF. pose proof H as (H1 & H2 & H3 & H4 & H5). unfold stdop.
    rewrite <- H4, !clone_pos by lia.
    pose proof (@R_unary F l l' (lmp l) 0 H HF eq_refl ltac:(lia)) as HR.
    now rewrite Z.add_0_r in HR.
  Qed.

  Lemma R_kwop_p F l l' p :
    Rl l l' -> causal (fun s => F s (Z.of_nat p)) ->
    Rl (kwop_p F l (Z.of_nat p)) (kwop_p F l' (Z.of_nat p)).
  Proof.
    intros H HF. pose proof H as (H1 & H2 & H3 & H4 & H5). unfold kwop_p.
    rewrite <- H4, !clone_pos by lia. cbn [lmp lser].
    apply (@R_unary (fun s => F s (Z.of_nat p))); auto. lia.
  Qed.

  Lemma R_rolling w G l l' : Rl l l' -> Rl (rolling (S w) G l) (rolling (S w) G l').
  Proof.
    intros H. pose proof H as (H1 & H2 & H3 & H4 & H5). unfold rolling.
    rewrite <- H4, !clone_pos by lia.
    replace (Z.max (lmp l + (Z.of_nat (S w) - 0 - 1)) 1) with (lmp l + Z.of_nat w)%Z by lia.
    apply R_unary; auto; [apply causal_rolling|lia].
  Qed.

  Lemma R_ewm_mean p adj l l' : Rl l l' -> Rl (ewm_mean (S p) adj l) (ewm_mean (S p) adj l').
  Proof.
    intros H. pose proof H as (H1 & H2 & H3 & H4 & H5). unfold ewm_mean.
    rewrite <- H4, !clone_pos by lia.
    replace (Z.max (lmp l + (Z.of_nat (S p) - 0 - 1)) 1) with (lmp l + Z.of_nat p)%Z by lia.
    apply R_unary; auto; [apply causal_ewma|lia].
  Qed.

  Lemma R_binop_s op l l' c : Rl l l' -> Rl (binop_s op l c) (binop_s op l' c).
  Proof.
    intros H. pose proof H as (H1 & H2 & H3 & H4 & H5). unfold binop_s.
    rewrite <- H4, !Z.max_l, !clone_pos by lia.
    pose proof (@R_unary (map (fun x => op x c)) l l' (lmp l) 0 H (causal_map _) eq_refl ltac:(lia)) as HR.
    now rewrite Z.add_0_r in HR.
  Qed.

  Lemma R_rbinop_s op l l' c : Rl l l' -> Rl (rbinop_s op c l) (rbinop_s op c l').
  Proof.
    intros H. pose proof H as (H1 & H2 & H3 & H4 & H5). unfold rbinop_s.
    rewrite <- H4, !Z.max_l, !clone_pos by lia.
    pose proof (@R_unary (map (fun x => op c x)) l l' (lmp l) 0 H (causal_map _) eq_refl ltac:(lia)) as HR.
    now rewrite Z.add_0_r in HR.
  Qed.

  Lemma R_binop op a a' b b' : Rl a a' -> Rl b b' -> Rl (binop op a b) (binop op a' b').
  Proof.
    intros (A1 & A2 & A3 & A4 & A5) (B1 & B2 & B3 & B4 & B5). unfold binop, bars.
    rewrite <- A4, <- B4, A2, A3.
    destruct (@mi_nat (Z.max (lmp a) (lmp b))) as [k Hk]; [lia|].
    rewrite Hk, !slice_from_nat, !clone_pos by lia.
    destruct (binary_prefix op vnan k A2 A3 A5 B2 B3 B5) as (P1 & P2 & P3).
    repeat split; cbn [lmp lser]; auto; lia.
  Qed.

  Lemma R_stdop2_map2 op a a' b b' :
    Rl a a' -> Rl b b' -> Rl (stdop2 (map2 op) a b) (stdop2 (map2 op) a' b').
  Proof. exact (@R_binop op a a' b b'). Qed.

  Lemma R_mul_b a a' b b' : Rl a a' -> BRl b b' -> Rl (mul_b a b) (mul_b a' b').
  Proof.
    intros (A1 & A2 & A3 & A4 & A5) (B1 & B2 & B3 & B4 & B5). unfold mul_b, bars.
    rewrite <- A4, <- B4, A2, A3.
    destruct (@mi_nat (Z.max (lmp a) (bmp b))) as [k Hk]; [lia|].
    rewrite Hk, !slice_from_nat, !clone_pos by lia.
    destruct (binary_prefix (fun x y => vmul x (vofbool y)) vnan k A2 A3 A5 B2 B3 B5) as (P1 & P2 & P3).
    repeat split; cbn [lmp lser]; auto; lia.
  Qed.

  Lemma R_rmul_b c b b' : BRl b b' -> Rl (rmul_b c b) (rmul_b c b').
  Proof.
    intros (B1 & B2 & B3 & B4 & B5). unfold rmul_b.
    rewrite <- B4, B2, B3, Z.max_l by lia.
    destruct (Z.eqb_spec (bmp b) 0); [lia|].
    destruct (@mi_nat (bmp b)) as [k Hk]; [lia|].
    rewrite Hk, !slice_from_nat.
    destruct (unary_prefix vnan k (causal_map (fun x => vmul c (vofbool x))) B2 B3 B5) as (P1 & P2 & P3).
    repeat split; cbn [lmp lser]; auto; lia.
  Qed.

  Lemma BR_cmpop op a a' b b' : Rl a a' -> Rl b b' -> BRl (cmpop op a b) (cmpop op a' b').
  Proof.
    intros (A1 & A2 & A3 & A4 & A5) (B1 & B2 & B3 & B4 & B5). unfold cmpop, bars.
    rewrite <- A4, <- B4, A2, A3.
    destruct (@mi_nat (Z.max (lmp a) (lmp b))) as [k Hk]; [lia|].
    rewrite Hk, !slice_from_nat, !bclone_pos by lia.
    destruct (binary_prefix op true k A2 A3 A5 B2 B3 B5) as (P1 & P2 & P3).
    repeat split; cbn [bmp bser]; auto; lia.
  Qed.

  Lemma BR_cmpop_s op a a' c : Rl a a' -> BRl (cmpop_s op a c) (cmpop_s op a' c).
  Proof.
    intros (A1 & A2 & A3 & A4 & A5). unfold cmpop_s, bars.
    rewrite <- A4, A2, A3, Z.max_l by lia.
    destruct (@mi_nat (lmp a)) as [k Hk]; [lia|].
    rewrite Hk, !slice_from_nat, !bclone_pos by lia.
    destruct (unary_prefix true k (causal_map (fun x => op x c)) A2 A3 A5) as (P1 & P2 & P3).
    repeat split; cbn [bmp bser]; auto; lia.
  Qed.

  Lemma BR_bbinop op a a' b b' : BRl a a' -> BRl b b' -> BRl (bbinop op a b) (bbinop op a' b').
  Proof.
    intros (A1 & A2 & A3 & A4 & A5) (B1 & B2 & B3 & B4 & B5). unfold bbinop.
    rewrite <- A4, <- B4, A2, A3.
    destruct (@mi_nat (Z.max (bmp a) (bmp b))) as [k Hk]; [lia|].
    rewrite Hk, !slice_from_nat, !bclone_pos by lia.
    destruct (binary_prefix op true k A2 A3 A5 B2 B3 B5) as (P1 & P2 & P3).
    repeat split; cbn [bmp bser]; auto; lia.
  Qed.

  (** seeded smoothing: if it does not raise on the short history, it gives the same seed
      and the same values on the long one *)
  Lemma slice_in {A} (s t : list A) i j :
    j <= length s -> slice (s ++ t) (Z.of_nat i) (Z.of_nat j) = slice s (Z.of_nat i) (Z.of_nat j).
  Proof.
    intro Hj. rewrite !slice_nat.
    destruct (Nat.le_gt_cases i (length s)) as [Hi|Hi].
    - rewrite skipn_prefix by lia. rewrite firstn_app, skipn_length.
      replace (j - i - (length s - i)) with 0 by lia. now rewrite firstn_O, app_nil_r.
    - replace (j - i) with 0 by lia. reflexivity.
  Qed.

  Lemma R_ewm_call p sd F l l' y :
    Rl l l' -> causal F ->
    ewm_call l (Z.of_nat (S p)) 0 0 1 sd (fun t => Ok (F t)) = Ok y ->
    exists y', ewm_call l' (Z.of_nat (S p)) 0 0 1 sd (fun t => Ok (F t)) = Ok y' /\ Rl y y'.
  Proof.
    intros (H1 & H2 & H3 & H4 & H5) [HF1 HF2] Hy.
    destruct (@mi_nat (lmp l)) as [k Hk]; auto.
    set (q := k + p).
    assert (Hpo : (let po1 := if (0 =? 0)%Z then Z.of_nat (S p) else 0%Z in
       if negb (Z.of_nat (S p) =? 0)%Z && (po1 <? 1)%Z then po1 + (1 - po1 - 1) else po1)%Z
       = Z.of_nat (S p)).
    { cbv zeta. rewrite Z.eqb_refl. destruct (Z.ltb_spec (Z.of_nat (S p)) 1); [lia|].
      now rewrite andb_false_r. }
    assert (Hp2 : (lmp l - 1 + Z.of_nat (S p) - 0 = Z.of_nat (S q))%Z) by (unfold q; lia).
    assert (Hmp : (Z.max (lmp l + (Z.of_nat (S p) - 0 - 1)) 1 = lmp l + Z.of_nat p)%Z) by lia.
    assert (Hshape : forall (m : line V) nn, lmp m = lmp l -> length (lser m) = nn -> q < nn ->
      ewm_call m (Z.of_nat (S p)) 0 0 1 sd (fun t => Ok (F t)) =
      Ok (mkLine (lmp l + Z.of_nat p)
            (plc vnan nn q (F (seed_of (lser m) sd (Z.of_nat (S q) - Z.of_nat (S p)) (Z.of_nat (S q))
                                :: skipn (S q) (lser m)))))).
    { intros m nn Hm Hlen Hq. unfold ewm_call.
      rewrite (@mf_ewm_ok V N m (Z.of_nat (S p)) 0 0 1 sd (Z.of_nat (S p)) q); auto; try lia.
      cbn [bind]. unfold mf_call. cbn [mf_line mf_mp mf_pval mf_pearly mf_alphap mf_minidx mf_trailer snd bind].
      rewrite Hm, Hmp, clone_pos by lia. unfold bars, plc, nans. now rewrite Hlen. }
    destruct (Nat.lt_ge_cases q n) as [Hq|Hq].
    - (* enough history *)
      rewrite (Hshape l n) in Hy by auto. injection Hy as <-.
      exists (mkLine (lmp l + Z.of_nat p)
            (plc vnan n' q (F (seed_of (lser l') sd (Z.of_nat (S q) - Z.of_nat (S p)) (Z.of_nat (S q))
                                :: skipn (S q) (lser l'))))).
      split; [apply Hshape; auto; lia|].
      destruct H5 as [t Ht].
      assert (Hseed : seed_of (lser l') sd (Z.of_nat (S q) - Z.of_nat (S p)) (Z.of_nat (S q)) =
                      seed_of (lser l) sd (Z.of_nat (S q) - Z.of_nat (S p)) (Z.of_nat (S q))).
      { replace (Z.of_nat (S q) - Z.of_nat (S p))%Z with (Z.of_nat k) by (unfold q; lia).
        rewrite Ht. destruct sd; cbn [seed_of]; auto.
        - f_equal. apply slice_in. lia.
        - replace (Z.to_nat (Z.of_nat (S q) - 1)) with q by lia. apply app_nth1. lia.
        - f_equal. apply slice_in. lia. }
      repeat split; cbn [lmp lser]; try lia.
      + apply plc_length. rewrite HF1. cbn [length]. rewrite skipn_length. lia.
      + apply plc_length. rewrite HF1. cbn [length]. rewrite skipn_length. lia.
      + apply plc_prefix; auto.
        * rewrite HF1. cbn [length]. rewrite skipn_length. lia.
        * intros _. rewrite Hseed, Ht, skipn_prefix by lia.
          exact (HF2 (seed_of (lser l) sd (Z.of_nat (S q) - Z.of_nat (S p)) (Z.of_nat (S q))
                        :: skipn (S q) (lser l)) t).
    - (* short history: only the seeds that do not write through [-1] survive *)
      assert (Hne : sd = SEED_NONE \/ sd = SEED_ZFILL).
      { destruct sd; auto; exfalso; unfold ewm_call in Hy;
          erewrite mf_ewm_short in Hy by
              (try exact Hpo; try exact Hp2; try lia; tauto); discriminate. }
      assert (Hs : slice (lser l) (Z.of_nat q) (Z.of_nat (S q)) = []).
      { rewrite slice_nat, skipn_all2 by lia. apply firstn_nil. }
      assert (HF0 : F [] = []) by (apply length_zero_iff_nil; now rewrite HF1).
      assert (Hy0 : y = mkLine (lmp l + Z.of_nat p) (plc vnan n q [])).
      { unfold ewm_call, mf_ewm in Hy. cbv zeta in Hpo. rewrite Hpo, Hp2 in Hy.
        replace (Z.of_nat (S q) - 1)%Z with (Z.of_nat q) in Hy by lia.
        rewrite Hs, slice_from_nat, skipn_all2 in Hy by lia.
        destruct Hne; subst sd; cbn [map bind app] in Hy; unfold mf_call in Hy;
          cbn [mf_line mf_mp mf_pval mf_pearly mf_alphap mf_minidx mf_trailer snd bind] in Hy;
          rewrite HF0, Hmp, clone_pos in Hy by lia; unfold bars, nans in Hy; rewrite H2 in Hy;
          injection Hy as <-; reflexivity. }
      destruct (Nat.lt_ge_cases q n') as [Hq'|Hq'].
      + eexists. split; [apply Hshape; eauto; lia|]. subst y.
        repeat split; cbn [lmp lser]; try lia.
        * apply plc_length. simpl. lia.
        * apply plc_length. rewrite HF1. cbn [length]. rewrite skipn_length. lia.
        * apply plc_prefix; [simpl; lia|lia|intros _; eexists; reflexivity].
      + exists (mkLine (lmp l + Z.of_nat p) (plc vnan n' q [])). split.
        * assert (Hs' : slice (lser l') (Z.of_nat q) (Z.of_nat (S q)) = []).
          { rewrite slice_nat, skipn_all2 by lia. apply firstn_nil. }
          unfold ewm_call, mf_ewm. cbv zeta in Hpo. rewrite Hpo, <- H4, Hp2.
          replace (Z.of_nat (S q) - 1)%Z with (Z.of_nat q) by lia.
          rewrite Hs', slice_from_nat, skipn_all2 by lia.
          destruct Hne; subst sd; cbn [map bind app]; unfold mf_call;
            cbn [mf_line mf_mp mf_pval mf_pearly mf_alphap mf_minidx mf_trailer snd bind];
            rewrite HF0, Hmp, clone_pos by lia; unfold bars, nans; rewrite H3; reflexivity.
        * subst y. repeat split; cbn [lmp lser]; try lia.
          -- apply plc_length. simpl. lia.
          -- apply plc_length. simpl. lia.
          -- apply plc_prefix; [simpl; lia|lia|intros _; eexists; reflexivity].
  Qed.

  (** ** Expressions *)

  Lemma bind_ok {A B} (x : res A) (f : A -> res B) y :
    bind x f = Ok y -> exists a, x = Ok a /\ f a = Ok y.
  Proof. destruct x as [a|e]; simpl; [eauto|discriminate]. Qed.

  Lemma eval_extends env env' :
    Forall2 Rl env env' ->
    (forall e l, eval env e = Ok l -> exists l', eval env' e = Ok l' /\ Rl l l') /\
    (forall b l, beval env b = Ok l -> exists l', beval env' b = Ok l' /\ BRl l l').
  Proof.
    intro Henv.
    assert (Hnth : forall v l, nth_error env v = Some l ->
              exists l', nth_error env' v = Some l' /\ Rl l l').
    { induction Henv as [|x y xs ys Hxy Hxs IH]; intros [|v] l Hl; simpl in *; try discriminate.
      - injection Hl as <-. eauto.
      - apply IH; auto. }
    apply expr_bexpr_ind; intros; cbn [eval beval] in *; fold (@beval V N) in *; fold (@eval V N) in *;
      repeat match goal with
             | H : bind _ _ = Ok _ |- _ =>
                 apply bind_ok in H; destruct H as (? & ? & H)
             | IH : (forall l, ?ev = Ok l -> _), H : ?ev = Ok _ |- _ =>
                 destruct (IH _ H) as (? & ? & ?); clear IH
             end;
      repeat match goal with
             | H : ?ev = Ok _ |- context [?ev] => rewrite H; cbn [bind]
             end;
      try match goal with H : Ok _ = Ok _ |- _ => injection H as <- end;
      try (eexists; split; [reflexivity|]).
    - destruct (nth_error env v) as [x|] eqn:E; [|discriminate]. injection H as <-.
      destruct (Hnth _ _ E) as (x' & Hx' & HR). rewrite Hx'. eauto.
    - apply R_binop; auto.
    - apply R_binop_s; auto.
    - apply R_rbinop_s; auto.
    - apply R_stdop; auto. apply causal_map.
    - apply R_stdop; auto. apply causal_cumsum.
    - apply R_stdop; auto. apply causal_ffill.
    - apply R_stdop; auto. apply causal_repl0.
    - apply R_stdop2_map2; auto.
    - apply R_stdop2_map2; auto.
    - apply R_kwop_p; auto. apply causal_shift.
    - apply R_kwop_p; auto. apply causal_diff.
    - apply R_kwop_p; auto. apply causal_pct.
    - apply R_rolling; auto.
    - apply R_ewm_mean; auto.
    - eapply R_ewm_call; eauto. apply causal_ewma.
    - unfold ewm_com in *. replace (Z.of_nat (S p) - 1 + 1)%Z with (Z.of_nat (S p)) in * by lia.
      eapply R_ewm_call; eauto. apply causal_ewma.
    - eapply R_ewm_call; eauto. apply causal_mean_exp.
    - apply R_mul_b; auto.
    - apply R_rmul_b; auto.
    - apply BR_cmpop; auto.
    - apply BR_cmpop_s; auto.
    - apply BR_bbinop; auto.
  Qed.
End Facts.
