(** Minimum period and warm-up of expressions over the causal operators. *)
From Coq Require Import ZArith List Bool Lia Arith.
From Verif Require Import Num Series Line Spec LineFacts ScanFacts Expr CausalFacts.
Import ListNotations.
Set Implicit Arguments.

(** NaN is absorbing for subtraction and division (true of IEEE-754 and of [ext F]). *)
Definition nan_laws {V} (N : Num V) : Prop :=
  (forall x : V, vsub x vnan = vnan) /\ (forall x : V, vsub vnan x = vnan) /\
  (forall x : V, vdiv x vnan = vnan).

Lemma nan_laws_ext {F} (B : Base F) : nan_laws (NumExt (F:=F)).
Proof. repeat split; try (intros [| | |x]; reflexivity). Qed.

Lemma nth_error_map2 {A B C} (f : A -> B -> C) l m i a b :
  nth_error l i = Some a -> nth_error m i = Some b -> nth_error (map2 f l m) i = Some (f a b).
Proof.
  revert m i; induction l as [|x l IH]; intros [|y m] [|i] Ha Hb; simpl in *; try discriminate.
  - congruence.
  - now apply IH.
Qed.

Section Facts.
  Context {V : Type} {N : Num V}.
  Hypothesis HN : nan_laws N.

  Definition warm (F : list V -> list V) (inc : nat) : Prop :=
    forall s i, i < inc -> i < length s -> nth_error (F s) i = Some vnan.

  Lemma warm0 F : warm F 0.
  Proof. intros s i Hi. lia. Qed.

  Lemma warm_shift p : warm (fun s => ser_shift s (Z.of_nat p)) p.
  Proof.
    intros s i Hi Hs. unfold ser_shift. destruct (Z.ltb_spec (Z.of_nat p) 0); [lia|].
    rewrite Nat2Z.id. rewrite nth_error_app1 by (rewrite repeat_length; lia).
    apply nth_error_repeat_ok. lia.
  Qed.

  Lemma some_at {A} (s : list A) i : i < length s -> exists a, nth_error s i = Some a.
  Proof.
    intro H. destruct (nth_error s i) eqn:E; eauto.
    apply nth_error_None in E. lia.
  Qed.

  Lemma warm_diff p : warm (fun s => ser_diff s (Z.of_nat p)) p.
  Proof.
    intros s i Hi Hs. unfold ser_diff. destruct (some_at s Hs) as [a Ha].
    erewrite nth_error_map2; [|eassumption|apply (@warm_shift p); auto].
    destruct HN as (H1 & _ & _). now rewrite H1.
  Qed.

  Lemma warm_pct p : warm (fun s => ser_pct_change s (Z.of_nat p)) p.
  Proof.
    intros s i Hi Hs. unfold ser_pct_change.
    assert (Hl : length (ser_ffill s) = length s) by apply causal_ffill.
    destruct (@some_at _ (ser_ffill s) i ltac:(lia)) as [a Ha].
    rewrite nth_error_map.
    erewrite nth_error_map2; [|eassumption|apply (@warm_shift p); lia].
    destruct HN as (_ & H2 & H3). cbn [option_map]. now rewrite H3, H2.
  Qed.

  Lemma warm_rolling w G : warm (ser_rolling (S w) G) w.
  Proof.
    intros s i Hi Hs. unfold ser_rolling. rewrite nth_error_map_seq by lia.
    destruct (Nat.ltb_spec (S (0 + i)) (S w)); auto; lia.
  Qed.

  Variable n : nat.

  Definition W (mp : Z) (prop : bool) (l : line V) : Prop :=
    lmp l = mp /\ (1 <= mp)%Z /\ length (lser l) = n /\
    (prop = true -> forall i, (Z.of_nat i < mp - 1)%Z -> i < n -> nth_error (lser l) i = Some vnan).
  Definition BW (mp : Z) (l : bline) : Prop :=
    bmp l = mp /\ (1 <= mp)%Z /\ length (bser l) = n.

  Lemma nth_plc {B} (d : B) k r i :
    i < n -> nth_error (plc d n k r) i =
             if i <? k then Some d else nth_error r (i - Nat.min k n).
  Proof.
    intro Hi. rewrite plc_form. destruct (Nat.ltb_spec i k).
    - rewrite nth_error_app1 by (rewrite repeat_length; lia). apply nth_error_repeat_ok; lia.
    - rewrite nth_error_app2 by (rewrite repeat_length; lia). now rewrite repeat_length.
  Qed.

  Lemma W_unary F l mp b inc b' :
    W mp b l -> causal F -> (b' = true -> warm F inc) ->
    W (mp + Z.of_nat inc) b'
      (mkLine (mp + Z.of_nat inc)
         (set_from (nans (bars l)) (mp - 1) (F (slice_from (lser l) (mp - 1))))).
  Proof.
    intros (H1 & H2 & H3 & _) [HF1 HF2] Hw. unfold bars, nans. rewrite H3.
    destruct (@mi_nat mp) as [k Hk]; auto. rewrite Hk, slice_from_nat.
    change (set_from (repeat vnan n) (Z.of_nat k)) with (plc (B:=V) vnan n k).
    repeat split; cbn [lmp lser]; try lia.
    - apply plc_length. rewrite HF1, skipn_length. lia.
    - intros Hb i Hi Hin. rewrite nth_plc by auto. destruct (Nat.ltb_spec i k); auto.
      apply (Hw Hb); rewrite ?skipn_length; lia.
  Qed.

  Lemma W_stdop F l mp b : W mp b l -> causal F -> W mp true (stdop F l).
  Proof.
    intros H HF. pose proof H as (H1 & H2 & H3 & H4). unfold stdop. rewrite H1, clone_pos by lia.
    pose proof (@W_unary F l mp b 0 true H HF (fun _ => warm0 F)) as HW.
    now rewrite Z.add_0_r in HW.
  Qed.

  Lemma W_kwop_p F l mp b p :
    W mp b l -> causal (fun s => F s (Z.of_nat p)) -> warm (fun s => F s (Z.of_nat p)) p ->
    W (mp + Z.of_nat p) true (kwop_p F l (Z.of_nat p)).
  Proof.
    intros H HF Hw. pose proof H as (H1 & H2 & H3 & H4). unfold kwop_p.
    rewrite H1, clone_pos by lia. cbn [lmp lser].
    apply (@W_unary (fun s => F s (Z.of_nat p)) l mp b p true); auto.
  Qed.

  Lemma W_rolling w G l mp b : W mp b l -> W (mp + Z.of_nat w) true (rolling (S w) G l).
  Proof.
    intros H. pose proof H as (H1 & H2 & H3 & H4). unfold rolling.
    rewrite H1, clone_pos by lia.
    replace (Z.max (mp + (Z.of_nat (S w) - 0 - 1)) 1) with (mp + Z.of_nat w)%Z by lia.
    eapply W_unary; eauto; [apply causal_rolling|]. intros _. apply warm_rolling.
  Qed.

  Lemma W_ewm_mean p adj l mp b : W mp b l -> W (mp + Z.of_nat p) false (ewm_mean (S p) adj l).
  Proof.
    intros H. pose proof H as (H1 & H2 & H3 & H4). unfold ewm_mean.
    rewrite H1, clone_pos by lia.
    replace (Z.max (mp + (Z.of_nat (S p) - 0 - 1)) 1) with (mp + Z.of_nat p)%Z by lia.
    eapply W_unary; eauto; [apply causal_ewma|]. intros [=].
  Qed.

  Lemma W_binop_s op l c mp b : W mp b l -> W mp true (binop_s op l c).
  Proof.
    intros H. pose proof H as (H1 & H2 & H3 & H4). unfold binop_s.
    rewrite H1, Z.max_l, clone_pos by lia.
    pose proof (@W_unary _ l mp b 0 true H (causal_map (fun x => op x c)) (fun _ => warm0 _)) as HW.
    now rewrite Z.add_0_r in HW.
  Qed.

  Lemma W_rbinop_s op l c mp b : W mp b l -> W mp true (rbinop_s op c l).
  Proof.
    intros H. pose proof H as (H1 & H2 & H3 & H4). unfold rbinop_s.
    rewrite H1, Z.max_l, clone_pos by lia.
    pose proof (@W_unary _ l mp b 0 true H (causal_map (fun x => op c x)) (fun _ => warm0 _)) as HW.
    now rewrite Z.add_0_r in HW.
  Qed.

  Lemma plc_W mp k r :
    (1 <= mp)%Z -> (mp - 1 = Z.of_nat k)%Z -> length r = n - k ->
    W mp true (mkLine mp (plc vnan n k r)).
  Proof.
    intros H1 Hk Hr. repeat split; cbn [lmp lser]; auto.
    - now apply plc_length.
    - intros _ i Hi Hn. rewrite nth_plc by auto. destruct (Nat.ltb_spec i k); auto. lia.
  Qed.

  Lemma W_binop op a b ma mb ba bb :
    W ma ba a -> W mb bb b -> W (Z.max ma mb) true (binop op a b).
  Proof.
    intros (A1 & A2 & A3 & _) (B1 & B2 & B3 & _). unfold binop, bars. rewrite A1, B1, A3.
    destruct (@mi_nat (Z.max ma mb)) as [k Hk]; [lia|].
    rewrite Hk, !slice_from_nat, clone_pos by lia.
    apply plc_W; [lia|auto|]. rewrite map2_length, !skipn_length. lia.
  Qed.

  Lemma W_mul_b a b ma mb ba :
    W ma ba a -> BW mb b -> W (Z.max ma mb) true (mul_b a b).
  Proof.
    intros (A1 & A2 & A3 & _) (B1 & B2 & B3). unfold mul_b, bars. rewrite A1, B1, A3.
    destruct (@mi_nat (Z.max ma mb)) as [k Hk]; [lia|].
    rewrite Hk, !slice_from_nat, clone_pos by lia.
    apply plc_W; [lia|auto|]. rewrite map2_length, !skipn_length. lia.
  Qed.

  Lemma W_rmul_b c b mb : BW mb b -> W mb true (rmul_b c b).
  Proof.
    intros (B1 & B2 & B3). unfold rmul_b. rewrite B1, B3, Z.max_l by lia.
    destruct (Z.eqb_spec mb 0); [lia|].
    destruct (@mi_nat mb) as [k Hk]; [lia|]. rewrite Hk, !slice_from_nat.
    apply plc_W; auto. rewrite map_length, !skipn_length. lia.
  Qed.

  Lemma BW_plc mp k r :
    (1 <= mp)%Z -> (mp - 1 = Z.of_nat k)%Z -> length r = n - k ->
    BW mp (mkBLine mp (plc true n k r)).
  Proof. intros H1 Hk Hr. repeat split; auto. now apply plc_length. Qed.

  Lemma BW_cmpop op a b ma mb ba bb :
    W ma ba a -> W mb bb b -> BW (Z.max ma mb) (cmpop op a b).
  Proof.
    intros (A1 & A2 & A3 & _) (B1 & B2 & B3 & _). unfold cmpop, bars. rewrite A1, B1, A3.
    destruct (@mi_nat (Z.max ma mb)) as [k Hk]; [lia|].
    rewrite Hk, !slice_from_nat, bclone_pos by lia.
    apply BW_plc; [lia|auto|]. rewrite map2_length, !skipn_length. lia.
  Qed.

  Lemma BW_cmpop_s op a c ma ba : W ma ba a -> BW ma (cmpop_s op a c).
  Proof.
    intros (A1 & A2 & A3 & _). unfold cmpop_s, bars. rewrite A1, A3, Z.max_l by lia.
    destruct (@mi_nat ma) as [k Hk]; [lia|].
    rewrite Hk, !slice_from_nat, bclone_pos by lia.
    apply BW_plc; auto. rewrite map_length, !skipn_length. lia.
  Qed.

  Lemma BW_bbinop op a b ma mb : BW ma a -> BW mb b -> BW (Z.max ma mb) (bbinop op a b).
  Proof.
    intros (A1 & A2 & A3) (B1 & B2 & B3). unfold bbinop. rewrite A1, B1, A3.
    destruct (@mi_nat (Z.max ma mb)) as [k Hk]; [lia|].
    rewrite Hk, !slice_from_nat, bclone_pos by lia.
    apply BW_plc; [lia|auto|]. rewrite map2_length, !skipn_length. lia.
  Qed.

  Lemma W_ewm_call p sd F l y mp b :
    W mp b l -> causal F ->
    ewm_call l (Z.of_nat (S p)) 0 0 1 sd (fun t => Ok (F t)) = Ok y ->
    W (mp + Z.of_nat p) true y.
  Proof.
    intros (H1 & H2 & H3 & _) [HF1 HF2] Hy. unfold ewm_call, mf_ewm in Hy.
    destruct (@mi_nat mp) as [k Hk]; auto. rewrite H1 in Hy.
    change (0 =? 0)%Z with true in Hy. cbv iota in Hy.
    destruct (Z.ltb_spec (Z.of_nat (S p)) 1); [lia|]. rewrite andb_false_r in Hy.
    replace (mp - 1 + Z.of_nat (S p) - 0)%Z with (Z.of_nat (S (k + p))) in Hy by lia.
    replace (Z.of_nat (S (k + p)) - 1)%Z with (Z.of_nat (k + p)) in Hy by lia.
    apply bind_ok in Hy. destruct Hy as (o & Ho & Hy).
    apply bind_ok in Ho. destruct Ho as (pre & Hpre & Ho). injection Ho as <-.
    unfold mf_call in Hy.
    cbn [mf_line mf_mp mf_pval mf_pearly mf_alphap mf_minidx mf_trailer snd bind] in Hy.
    change (Z.pos (Pos.of_succ_nat p)) with (Z.of_nat (S p)) in Hy.
    change (Z.pos (Pos.of_succ_nat (k + p))) with (Z.of_nat (S (k + p))) in Hy.
    replace (Z.max (mp + (Z.of_nat (S p) - 0 - 1)) 1) with (mp + Z.of_nat p)%Z in Hy by lia.
    rewrite clone_pos in Hy by lia. injection Hy as <-. unfold bars. rewrite H3.
    apply plc_W; [lia|lia|]. rewrite HF1, app_length.
    change (Z.pos (Pos.of_succ_nat (k + p))) with (Z.of_nat (S (k + p))).
    rewrite slice_from_nat, skipn_length, H3.
    assert (Hs : length (slice (lser l) (Z.of_nat (k + p)) (Z.of_nat (S (k + p)))) = Nat.min 1 (n - (k + p))).
    { rewrite slice_nat, firstn_length, skipn_length, H3. lia. }
    assert (length pre = Nat.min 1 (n - (k + p))).
    { rewrite <- Hs.
      set (prefix := map (fun _ : V => vnan) (slice (lser l) (Z.of_nat (k + p)) (Z.of_nat (S (k + p))))) in Hpre.
      assert (Hpl : length prefix = length (slice (lser l) (Z.of_nat (k + p)) (Z.of_nat (S (k + p)))))
        by apply map_length.
      rewrite <- Hpl.
      assert (Hset : forall (v : V) (r : list V),
        match rev prefix with [] => Raise IndexError | _ :: r0 => Ok (rev (v :: r0)) end = Ok r ->
        length r = length prefix).
      { intros v r Hr. rewrite <- (rev_length prefix). destruct (rev prefix) as [|u us]; [discriminate|].
        injection Hr as <-. simpl. rewrite app_length, rev_length. simpl. lia. }
      destruct sd; cbn [bind] in Hpre.
      - eapply Hset; eauto.
      - apply bind_ok in Hpre. destruct Hpre as (v & _ & Hv). eapply Hset; eauto.
      - eapply Hset; eauto.
      - now injection Hpre as <-.
      - eapply Hset; eauto.
      - injection Hpre as <-. apply map_length. }
    lia.
  Qed.

  Lemma eval_warm env (mps : nat -> Z) :
    (forall v l, nth_error env v = Some l -> lmp l = mps v /\ (1 <= lmp l)%Z /\ length (lser l) = n) ->
    (forall e l, eval env e = Ok l -> W (look mps e) (proper e) l) /\
    (forall b l, beval env b = Ok l -> BW (blook mps b) l).
  Proof.
    intro Henv.
    apply expr_bexpr_ind; intros; cbn [eval beval] in *; fold (@beval V N) in *; fold (@eval V N) in *;
      repeat match goal with
             | H : bind _ _ = Ok _ |- _ =>
                 apply bind_ok in H; destruct H as (? & ? & H)
             | IH : (forall l, ?ev = Ok l -> _), H : ?ev = Ok _ |- _ =>
                 specialize (IH _ H)
             end;
      try match goal with H : Ok _ = Ok _ |- _ => injection H as <- end;
      cbn [look blook proper]; fold (@blook V) in *; fold (@look V) in *.
    - destruct (nth_error env v) as [x|] eqn:E; [|discriminate]. injection H as <-.
      destruct (Henv _ _ E) as (A & B & C). repeat split; auto; [lia|]. intros [=].
    - eapply W_binop; eauto.
    - eapply W_binop_s; eauto.
    - eapply W_rbinop_s; eauto.
    - eapply W_stdop; eauto. apply causal_map.
    - eapply W_stdop; eauto. apply causal_cumsum.
    - eapply W_stdop; eauto. apply causal_ffill.
    - eapply W_stdop; eauto. apply causal_repl0.
    - eapply (W_binop (fun x y => clip_lo y x)); eauto.
    - eapply (W_binop (fun x y => clip_hi y x)); eauto.
    - eapply W_kwop_p; eauto; [apply causal_shift|apply warm_shift].
    - eapply W_kwop_p; eauto; [apply causal_diff|apply warm_diff].
    - eapply W_kwop_p; eauto; [apply causal_pct|apply warm_pct].
    - eapply W_rolling; eauto.
    - eapply W_ewm_mean; eauto.
    - eapply W_ewm_call; eauto. apply causal_ewma.
    - unfold ewm_com in *. replace (Z.of_nat (S p) - 1 + 1)%Z with (Z.of_nat (S p)) in * by lia.
      eapply W_ewm_call; eauto. apply causal_ewma.
    - eapply W_ewm_call; eauto. apply causal_mean_exp.
    - eapply W_mul_b; eauto.
    - eapply W_rmul_b; eauto.
    - eapply BW_cmpop; eauto.
    - eapply BW_cmpop_s; eauto.
    - eapply BW_bbinop; eauto.
  Qed.
End Facts.
