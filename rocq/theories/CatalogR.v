(** No repainting for the primitives used by the indicators, beyond those of CausalFacts.v. *)
From Coq Require Import ZArith List Bool Lia Arith.
From Verif Require Import Num Series Line Spec LineFacts ScanFacts Expr CausalFacts WarmFacts
  IndMA IndBasic IndStat IndRange IndOsc IndVol Apply IndSar IndHT IndMama.
Import ListNotations.
Set Implicit Arguments.
Arguments skipn : simpl never.
Arguments firstn : simpl never.

Lemma prefix_refl {A} (l : list A) : prefix l l.
Proof. exists []. now rewrite app_nil_r. Qed.
Lemma prefix_nil {A} (l : list A) : prefix [] l.
Proof. now exists l. Qed.
Lemma prefix_cons {A} (x : A) l m : prefix l m -> prefix (x :: l) (x :: m).
Proof. intros [t ->]. now exists t. Qed.
Lemma prefix_map {A B} (f : A -> B) l m : prefix l m -> prefix (map f l) (map f m).
Proof. intros [t ->]. exists (map f t). apply map_app. Qed.
Lemma prefix_length {A} (l m : list A) : prefix l m -> length l <= length m.
Proof. intros [t ->]. rewrite app_length. lia. Qed.
Lemma prefix_nth {A} (l m : list A) :
  length l <= length m -> (forall i, i < length l -> nth_error l i = nth_error m i) -> prefix l m.
Proof.
  intros Hl H. exists (skipn (length l) m).
  rewrite <- (firstn_skipn (length l) m) at 1. f_equal.
  apply nth_error_ext.
  - rewrite firstn_length. lia.
  - intros i Hi. rewrite firstn_length in Hi. rewrite nth_error_firstn by lia. symmetry. apply H. lia.
Qed.
Lemma prefix_nth_error {A} (l m : list A) i : prefix l m -> i < length l -> nth_error m i = nth_error l i.
Proof. intros [t ->] H. now apply nth_error_app1. Qed.
Lemma prefix_skipn {A} k (l m : list A) : prefix l m -> prefix (skipn k l) (skipn k m).
Proof.
  intros [t ->]. destruct (Nat.le_gt_cases k (length l)).
  - exists t. now apply skipn_prefix.
  - rewrite (skipn_all2 l) by lia. apply prefix_nil.
Qed.

Section R.
  Context {V : Type} {N : Num V}.
  Variables n n' : nat.
  Hypothesis Hnn : n <= n'.
  Notation line := (line V).
  Notation Rl := (@Rl V n n').
  Notation BRl := (@BRl n n').

  Lemma Rl_mp1 l l' : Rl l l' -> (1 <= lmp l)%Z. Proof. now intros (H & _). Qed.
  Lemma Rl_mp l l' : Rl l l' -> lmp l' = lmp l. Proof. now intros (_ & _ & _ & H & _). Qed.

  (** a line that only changes its minimum period *)
  Lemma R_mp l l' m : Rl l l' -> (1 <= m)%Z -> Rl (mkLine m (lser l)) (mkLine m (lser l')).
  Proof. intros (A & B & C & D & E) H. repeat split; auto. Qed.

  Lemma R_rolling1 w G l l' : 1 <= w -> Rl l l' -> Rl (rolling w G l) (rolling w G l').
  Proof. intros Hw H. destruct w; [lia|]. now apply R_rolling. Qed.
  Lemma R_ewm_mean1 p adj l l' : 1 <= p -> Rl l l' -> Rl (ewm_mean p adj l) (ewm_mean p adj l').
  Proof. intros Hw H. destruct p; [lia|]. now apply R_ewm_mean. Qed.
  Lemma R_mapop f l l' : Rl l l' -> Rl (mapop f l) (mapop f l').
  Proof. intro H. apply R_stdop; auto. apply causal_map. Qed.
  Lemma R_cumsum l l' : Rl l l' -> Rl (stdop ser_cumsum l) (stdop ser_cumsum l').
  Proof. intro H. apply R_stdop; auto. apply causal_cumsum. Qed.
  Lemma R_repl0 l l' : Rl l l' -> Rl (stdop ser_replace0_ffill l) (stdop ser_replace0_ffill l').
  Proof. intro H. apply R_stdop; auto. apply causal_repl0. Qed.
  Lemma R_shift p l l' : Rl l l' -> Rl (shift l (Z.of_nat p)) (shift l' (Z.of_nat p)).
  Proof. intro H. apply R_kwop_p; auto. apply causal_shift. Qed.
  Lemma R_diff p l l' : Rl l l' -> Rl (diff l (Z.of_nat p)) (diff l' (Z.of_nat p)).
  Proof. intro H. apply R_kwop_p; auto. apply causal_diff. Qed.
  Lemma R_pct p l l' : Rl l l' -> Rl (pct_change l (Z.of_nat p)) (pct_change l' (Z.of_nat p)).
  Proof. intro H. apply R_kwop_p; auto. apply causal_pct. Qed.

  Lemma R_filled c l l' : Rl l l' -> Rl (filled l c) (filled l' c).
  Proof.
    intros (A & B & C & D & E). unfold filled, bars. rewrite B, C.
    repeat split; cbn [lmp lser]; rewrite ?repeat_length; auto.
    exists (repeat c (n' - n)). rewrite <- repeat_app. f_equal. lia.
  Qed.

  Lemma R_at_ago p l l' : (0 <= p)%Z -> Rl l l' -> Rl (at_ago l (- p)) (at_ago l' (- p)).
  Proof.
    intros Hp H. unfold at_ago. destruct (Z.eqb_spec (- p) 0).
    - now apply R_filled.
    - rewrite Z.opp_involutive. rewrite <- (Z2Nat.id p) by lia. now apply R_shift.
  Qed.
  Lemma R_at_ago1 k l l' : Rl l l' -> Rl (at_ago l (Z.neg k)) (at_ago l' (Z.neg k)).
  Proof. intro H. apply (@R_at_ago (Z.pos k)); auto. lia. Qed.

  Lemma R_lclip_lo t l l' : Rl l l' -> Rl (lclip_lo l t) (lclip_lo l' t).
  Proof. intro H. exact (@R_binop_s V N n n' Hnn (fun x c => clip_lo c x) l l' t H). Qed.
  Lemma R_lclip_hi t l l' : Rl l l' -> Rl (lclip_hi l t) (lclip_hi l' t).
  Proof. intro H. exact (@R_binop_s V N n n' Hnn (fun x c => clip_hi c x) l l' t H). Qed.
  Lemma R_lclip_lo_l a a' b b' : Rl a a' -> Rl b b' -> Rl (lclip_lo_l a b) (lclip_lo_l a' b').
  Proof. apply R_stdop2_map2; auto. Qed.
  Lemma R_lclip_hi_l a a' b b' : Rl a a' -> Rl b b' -> Rl (lclip_hi_l a b) (lclip_hi_l a' b').
  Proof. apply R_stdop2_map2; auto. Qed.

  Lemma R_pow2 l l' : Rl l l' -> Rl (pow2 l) (pow2 l').
  Proof. apply R_binop_s; auto. Qed.

  (** two lines in one window *)
  Lemma R_rolling2 w G a a' b b' :
    1 <= w -> Rl a a' -> Rl b b' -> Rl (rolling2 w G a b) (rolling2 w G a' b').
  Proof.
    intros Hw (A1 & A2 & A3 & A4 & [ta A5]) (B1 & B2 & B3 & B4 & [tb B5]). unfold rolling2, bars.
    rewrite <- A4, A2, A3.
    destruct (@mi_nat (lmp a)) as [k Hk]; auto. rewrite Hk, !slice_from_nat, !clone_pos by lia.
    match goal with |- Rl (mkLine _ ?x) (mkLine _ ?y) =>
      change x with (plc vnan n k (map (fun i => if S i <? w then vnan else
        if existsb visnan (map prep (window (skipn k (lser a)) i w)) ||
           existsb visnan (map prep (window (skipn k (lser b)) i w)) then vnan
        else G (map prep (window (skipn k (lser a)) i w)) (map prep (window (skipn k (lser b)) i w)))
          (seq 0 (length (skipn k (lser a))))));
      change y with (plc vnan n' k (map (fun i => if S i <? w then vnan else
        if existsb visnan (map prep (window (skipn k (lser a')) i w)) ||
           existsb visnan (map prep (window (skipn k (lser b')) i w)) then vnan
        else G (map prep (window (skipn k (lser a')) i w)) (map prep (window (skipn k (lser b')) i w)))
          (seq 0 (length (skipn k (lser a'))))))
    end.
    repeat split; cbn [lmp lser]; try lia.
    - apply plc_length. rewrite map_length, seq_length, skipn_length. lia.
    - apply plc_length. rewrite map_length, seq_length, skipn_length. lia.
    - apply plc_prefix; auto.
      + rewrite map_length, seq_length, skipn_length. lia.
      + intro Hkn. rewrite !skipn_length.
        replace (length (lser a') - k) with ((length (lser a) - k) + (n' - n)) by lia.
        rewrite seq_app, map_app.
        match goal with |- prefix _ (_ ++ ?u) => exists u end. f_equal.
        apply map_ext_seq. intros i Hi. rewrite A5, B5, !skipn_prefix by lia.
        destruct (Nat.ltb_spec (S i) w); auto.
        rewrite !window_app by (rewrite ?skipn_length; lia). reflexivity.
  Qed.

  (** windows numbered by the calls made so far *)
  Lemma roll_count_app w F (s t : list V) is js c :
    (forall i, In i is -> i < length s) -> exists c',
    roll_count w F (s ++ t) (is ++ js) c = roll_count w F s is c ++ roll_count w F (s ++ t) js c'.
  Proof.
    revert c; induction is as [|i is IH]; intros c Hi.
    - exists c. reflexivity.
    - cbn [roll_count app].
      assert (Hw : (S i <? w) || existsb visnan (map prep (window (s ++ t) i w)) =
                   (S i <? w) || existsb visnan (map prep (window s i w))).
      { destruct (Nat.ltb_spec (S i) w); auto. rewrite window_app; auto. apply Hi. now left. }
      rewrite Hw. destruct ((S i <? w) || existsb visnan (map prep (window s i w))) eqn:E.
      + destruct (IH c) as [c' ->]; [intros; apply Hi; now right|]. now exists c'.
      + destruct (IH (S c)) as [c' ->]; [intros; apply Hi; now right|]. exists c'.
        apply orb_false_iff in E. destruct E as [E _]. apply Nat.ltb_ge in E.
        rewrite window_app; auto. apply Hi. now left.
  Qed.
  Lemma roll_count_length w F (s : list V) is c : length (roll_count w F s is c) = length is.
  Proof.
    revert c; induction is as [|i is IH]; intro c; cbn [roll_count]; auto.
    destruct (_ || _); simpl; now rewrite IH.
  Qed.
  Lemma causal_roll_count w F : causal (fun s : list V => roll_count w F s (seq 0 (length s)) 0).
  Proof.
    split.
    - intro l. now rewrite roll_count_length, seq_length.
    - intros l t. rewrite app_length, seq_app.
      destruct (@roll_count_app w F l t (seq 0 (length l)) (seq (0 + length l) (length t)) 0) as [c' ->].
      + intros i Hi. apply in_seq in Hi. lia.
      + eexists. reflexivity.
  Qed.
  Lemma R_rolling_count w F l l' :
    1 <= w -> Rl l l' -> Rl (rolling_count w F l) (rolling_count w F l').
  Proof.
    intros Hw H. pose proof H as (H1 & H2 & H3 & H4 & H5). unfold rolling_count.
    rewrite <- H4, !clone_pos by lia.
    replace (Z.max (lmp l + (Z.of_nat w - 0 - 1)) 1) with (lmp l + Z.of_nat (w - 1))%Z by lia.
    apply (@R_unary V N n n' Hnn (fun s => roll_count w F s (seq 0 (length s)) 0)); auto; [|lia].
    apply causal_roll_count.
  Qed.
  Lemma R_raw_map (f : V -> V) l l' :
    Rl l l' -> Rl (raw (map f (lser l))) (raw (map f (lser l'))).
  Proof.
    intros (A & B & C & D & E). repeat split; cbn [raw lmp lser]; rewrite ?map_length; auto; [lia|].
    now apply prefix_map.
  Qed.

  (** the declared minimum period moved by hand *)
  Lemma set_slice_prefix (s s' : list V) i j v :
    i <= j -> prefix s s' ->
    prefix (set_slice s (Z.of_nat i) (Z.of_nat j) v) (set_slice s' (Z.of_nat i) (Z.of_nat j) v).
  Proof.
    intros Hij Hp. pose proof (prefix_length Hp) as Hl.
    assert (L : forall t : list V, length (set_slice t (Z.of_nat i) (Z.of_nat j) v) = length t).
    { intro t. apply set_slice_length. rewrite !slice_lo_nat. lia. }
    apply prefix_nth; rewrite !L; auto. intros m Hm.
    rewrite !nth_error_set_slice by auto.
    destruct (Nat.ltb_spec m (length s)); [|lia]. destruct (Nat.ltb_spec m (length s')); [|lia].
    destruct (_ && _); auto. symmetry. now apply prefix_nth_error.
  Qed.

  Lemma R_period inc v l l' :
    (0 <= inc)%Z -> Rl l l' -> Rl (period_ l inc false v) (period_ l' inc false v).
  Proof.
    intros Hi H. pose proof H as (H1 & H2 & H3 & H4 & H5). unfold period_. rewrite Z.sub_0_r.
    destruct (Z.eqb_spec inc 0) as [_|Hz]; auto. rewrite <- H4.
    destruct v as [v|].
    - destruct (Z.ltb_spec (lmp l - 1 + inc) (lmp l - 1)); [lia|].
      destruct (@mi_nat (lmp l)) as [k Hk]; auto. rewrite Hk.
      replace (Z.of_nat k + inc)%Z with (Z.of_nat (k + Z.to_nat inc)) by lia.
      repeat split; cbn [lmp lser]; try lia.
      + rewrite set_slice_length; auto. rewrite !slice_lo_nat. lia.
      + rewrite set_slice_length; auto. rewrite !slice_lo_nat. lia.
      + apply set_slice_prefix; auto. lia.
    - apply R_mp; auto. lia.
  Qed.

  Lemma R_period_back v l l' :
    (2 <= lmp l)%Z -> Rl l l' -> Rl (period_ l (-1) false (Some v)) (period_ l' (-1) false (Some v)).
  Proof.
    intros Hi H. pose proof H as (H1 & H2 & H3 & H4 & H5). unfold period_.
    change (-1 - 0 =? 0)%Z with false. cbv iota. rewrite <- H4.
    destruct (Z.ltb_spec (lmp l - 1 + (-1 - 0)) (lmp l - 1)); [|lia].
    destruct (@mi_nat (lmp l)) as [k Hk]; auto. rewrite Hk.
    replace (Z.of_nat k + (-1 - 0))%Z with (Z.of_nat (k - 1)) by lia.
    repeat split; cbn [lmp lser]; try lia.
    - rewrite set_slice_length; auto. rewrite !slice_lo_nat. lia.
    - rewrite set_slice_length; auto. rewrite !slice_lo_nat. lia.
    - apply set_slice_prefix; auto. lia.
  Qed.

  Lemma R_lmask a a' c c' v : Rl a a' -> BRl c c' -> Rl (lmask a c v) (lmask a' c' v).
  Proof.
    intros (A1 & A2 & A3 & A4 & A5) (B1 & B2 & B3 & B4 & B5). unfold lmask, bars.
    rewrite <- A4, <- B4, A2, A3, Z.max_l by lia.
    destruct (@mi_nat (Z.max (lmp a) (bmp c))) as [k Hk]; [lia|].
    rewrite Hk, !slice_from_nat, !clone_pos by lia.
    destruct (@binary_prefix n n' Hnn _ _ _ (fun x (b : bool) => if b then v else x) vnan
                _ _ _ _ k A2 A3 A5 B2 B3 B5) as (P1 & P2 & P3).
    repeat split; cbn [lmp lser]; auto; lia.
  Qed.
  Lemma R_lfillna v l l' : Rl l l' -> Rl (lfillna l v) (lfillna l' v).
  Proof. apply R_mapop. Qed.

  (** ** Seeded smoothings, with any offset, early start and alpha line *)

  Definition po_of (pval poffset alphap : Z) : Z :=
    let po1 := if (poffset =? 0)%Z then pval else poffset in
    (if negb (pval =? 0) && (po1 <? alphap) then po1 + (alphap - po1 - 1) else po1)%Z.

  Definition trail (s : list V) (sd : seed) (pval : Z) (q : nat) : list V :=
    if q <? length s
    then seed_of s sd (Z.of_nat (S q) - pval) (Z.of_nat (S q)) :: skipn (S q) s
    else [].

  (** what a seeded smoothing does, in one equation *)
  Lemma ewm_call_eq (a : line) pval poffset pearly alphap sd q F :
    (lmp a - 1 + po_of pval poffset alphap - pearly = Z.of_nat (S q))%Z ->
    ewm_call a pval poffset pearly alphap sd F =
    if (q <? length (lser a)) || (match sd with SEED_NONE | SEED_ZFILL => true | _ => false end)
    then r <- F (trail (lser a) sd pval q) ;;
         Ok (clone a (plc vnan (length (lser a)) q r)
               (Z.max (lmp a + (pval - pearly - 1)) alphap))
    else Raise IndexError.
  Proof.
    intro Hp2. unfold ewm_call, trail. destruct (Nat.ltb_spec q (length (lser a))) as [Hq|Hq].
    - rewrite (@mf_ewm_ok V N a pval poffset pearly alphap sd _ q eq_refl Hp2 Hq). reflexivity.
    - cbn [orb].
      assert (Hs : slice (lser a) (Z.of_nat q) (Z.of_nat (S q)) = []).
      { rewrite slice_nat, skipn_all2 by lia. apply firstn_nil. }
      assert (E : sd = SEED_NONE \/ sd = SEED_ZFILL -> mf_ewm a pval poffset pearly alphap sd =
                  Ok (mkMfo a (lmp a) (Some pval) pearly alphap (Z.of_nat q) [])).
      { intro Hsd. unfold mf_ewm. fold (po_of pval poffset alphap). 
        change (if negb (pval =? 0)%Z && ((if (poffset =? 0)%Z then pval else poffset) <? alphap)%Z
          then ((if (poffset =? 0)%Z then pval else poffset) +
                (alphap - (if (poffset =? 0)%Z then pval else poffset) - 1))%Z
          else (if (poffset =? 0)%Z then pval else poffset)) with (po_of pval poffset alphap).
        rewrite Hp2. replace (Z.of_nat (S q) - 1)%Z with (Z.of_nat q) by lia.
        rewrite Hs, slice_from_nat, skipn_all2 by lia. destruct Hsd; subst sd; reflexivity. }
      destruct sd.
      1,2,3,5: erewrite mf_ewm_short by (try reflexivity; try exact Hp2; try lia; tauto); reflexivity.
      all: rewrite E by tauto; cbn [bind]; unfold mf_call;
        cbn [mf_line mf_mp mf_pval mf_pearly mf_alphap mf_minidx mf_trailer snd]; reflexivity.
  Qed.

  Lemma trail_length s sd pval q : length (trail s sd pval q) = length s - q.
  Proof.
    unfold trail. destruct (Nat.ltb_spec q (length s)); simpl; rewrite ?skipn_length; lia.
  Qed.

  Lemma trail_prefix s s' sd pval q :
    (0 <= pval)%Z -> (pval <= Z.of_nat (S q))%Z -> prefix s s' ->
    prefix (trail s sd pval q) (trail s' sd pval q).
  Proof.
    intros Hv Hq Hp. pose proof (prefix_length Hp). unfold trail.
    destruct (Nat.ltb_spec q (length s)) as [H1|H1]; [|apply prefix_nil].
    destruct (Nat.ltb_spec q (length s')) as [H2|H2]; [|lia].
    destruct Hp as [t ->].
    assert (Hseed : seed_of (s ++ t) sd (Z.of_nat (S q) - pval) (Z.of_nat (S q)) =
                    seed_of s sd (Z.of_nat (S q) - pval) (Z.of_nat (S q))).
    { replace (Z.of_nat (S q) - pval)%Z with (Z.of_nat (S q - Z.to_nat pval)) by lia.
      destruct sd; cbn [seed_of]; auto.
      - f_equal. apply (slice_in Hnn). lia.
      - replace (Z.to_nat (Z.of_nat (S q) - 1)) with q by lia. apply app_nth1. lia.
      - f_equal. apply (slice_in Hnn). lia. }
    rewrite Hseed, skipn_prefix by lia. apply prefix_cons. eexists. reflexivity.
  Qed.

  Lemma R_ewm_gen a a' pval poffset pearly alphap sd q F F' y :
    Rl a a' ->
    (lmp a - 1 + po_of pval poffset alphap - pearly = Z.of_nat (S q))%Z ->
    (0 <= pval)%Z -> (pval <= Z.of_nat (S q))%Z -> (1 <= Z.max (lmp a + (pval - pearly - 1)) alphap)%Z ->
    (forall t t' r, length t = n - q -> length t' = n' - q -> prefix t t' -> F t = Ok r ->
       length r = length t /\ exists r', F' t' = Ok r' /\ length r' = length t' /\ prefix r r') ->
    ewm_call a pval poffset pearly alphap sd F = Ok y ->
    exists y', ewm_call a' pval poffset pearly alphap sd F' = Ok y' /\ Rl y y' /\
      lmp y = Z.max (lmp a + (pval - pearly - 1)) alphap.
  Proof.
    intros HR Hp2 Hv Hq Hmp HF Hy. pose proof HR as (A1 & A2 & A3 & A4 & A5).
    rewrite (@ewm_call_eq a pval poffset pearly alphap sd q F Hp2) in Hy.
    rewrite A4 in Hp2. rewrite (@ewm_call_eq a' pval poffset pearly alphap sd q F' Hp2).
    destruct (_ || _) eqn:E in Hy; [|discriminate].
    assert (E' : (q <? length (lser a')) || match sd with SEED_NONE | SEED_ZFILL => true | _ => false end = true).
    { apply orb_true_iff in E. apply orb_true_iff. destruct E as [E|E]; [left|now right].
      apply Nat.ltb_lt in E. apply Nat.ltb_lt. lia. }
    rewrite E'. apply bind_ok in Hy. destruct Hy as (r & Hr & Hy). injection Hy as <-.
    destruct (HF (trail (lser a) sd pval q) (trail (lser a') sd pval q) r) as (L1 & r' & Hr' & L2 & P); auto.
    { rewrite trail_length. lia. } { rewrite trail_length. lia. } { now apply trail_prefix. }
    rewrite trail_length in L1, L2.
    rewrite Hr'. cbn [bind]. eexists. split; [reflexivity|]. rewrite <- A4, !clone_pos by lia.
    split; [|reflexivity]. repeat split; cbn [lmp lser]; auto.
    - rewrite A2. apply plc_length. lia.
    - rewrite A3. apply plc_length. lia.
    - rewrite A2, A3. apply plc_prefix; auto. lia.
  Qed.

  Lemma R_ewm_causal a a' pval poffset pearly alphap sd q G y :
    Rl a a' -> causal G ->
    (lmp a - 1 + po_of pval poffset alphap - pearly = Z.of_nat (S q))%Z ->
    (0 <= pval)%Z -> (pval <= Z.of_nat (S q))%Z -> (1 <= Z.max (lmp a + (pval - pearly - 1)) alphap)%Z ->
    ewm_call a pval poffset pearly alphap sd (fun t => Ok (G t)) = Ok y ->
    exists y', ewm_call a' pval poffset pearly alphap sd (fun t => Ok (G t)) = Ok y' /\ Rl y y' /\
      lmp y = Z.max (lmp a + (pval - pearly - 1)) alphap.
  Proof.
    intros HR [HG1 HG2] Hp2 Hv Hq Hmp Hy. eapply R_ewm_gen; eauto.
    intros t t' r Ht Ht' [u ->] Hr. injection Hr as <-. split; [apply HG1|].
    eexists. split; [reflexivity|]. split; [apply HG1|apply HG2].
  Qed.

  Lemma po_same p : (0 <= p)%Z -> po_of p 0 1 = p.
  Proof.
    intro H. unfold po_of. cbn [Z.eqb]. destruct (Z.eqb_spec p 0); auto.
    destruct (Z.ltb_spec p 1); [lia|]. now rewrite andb_false_r.
  Qed.
  Lemma po_off p o : (1 <= p <= o)%Z -> po_of p o 1 = o.
  Proof.
    intro H. unfold po_of. destruct (Z.eqb_spec o 0); [lia|].
    destruct (Z.ltb_spec o 1); [lia|]. now rewrite andb_false_r.
  Qed.

  Lemma R_ewm_span p sd po a a' y :
    1 <= p -> (po = 0 \/ Z.of_nat p <= po)%Z -> Rl a a' -> ewm_span p po sd a = Ok y ->
    exists y', ewm_span p po sd a' = Ok y' /\ Rl y y'.
  Proof.
    intros Hp Hpo HR Hy. pose proof HR as (A1 & _). unfold ewm_span in *.
    destruct (@R_ewm_causal a a' (Z.of_nat p) po 0 1 sd
                (Z.to_nat (lmp a - 1 + po_of (Z.of_nat p) po 1 - 1))
                (ser_ewma (alpha_span (vofZ (Z.of_nat p))) false) y) as (y' & E & R & _);
      auto; try lia.
    - apply causal_ewma.
    - assert (1 <= po_of (Z.of_nat p) po 1)%Z; [|lia].
      destruct Hpo as [->|Hpo]; [rewrite po_same|rewrite po_off]; lia.
    - destruct Hpo as [->|Hpo]; [rewrite po_same|rewrite po_off]; lia.
    - eauto.
  Qed.

  Lemma R_ewm_com p sd a a' y :
    1 <= p -> Rl a a' -> ewm_com p sd a = Ok y -> exists y', ewm_com p sd a' = Ok y' /\ Rl y y'.
  Proof.
    intros Hp HR Hy. pose proof HR as (A1 & _). unfold ewm_com in *.
    destruct (@R_ewm_causal a a' (Z.of_nat p - 1 + 1) 0 0 1 sd
                (Z.to_nat (lmp a - 1 + po_of (Z.of_nat p - 1 + 1) 0 1 - 1))
                (ser_ewma (alpha_com (vofZ (Z.of_nat p - 1))) false) y) as (y' & E & R & _);
      auto; try lia; try (rewrite po_same; lia).
    - apply causal_ewma.
    - eauto.
  Qed.

  Lemma causal_lfilter al be : causal (lfilter (V:=V) al be).
  Proof.
    split.
    - intro l. unfold lfilter. rewrite <- (map_length prep l).
      destruct (map prep l) as [|x s]; auto. rewrite lfilter_scan, scan_length. reflexivity.
    - intros l t. unfold lfilter. rewrite map_app.
      destruct (map prep l) as [|x s].
      + cbn [app]. apply prefix_nil.
      + cbn [app]. rewrite !lfilter_scan.
        destruct (scan_app (lfilter_step al (eff_beta al be)) v0 (vdiv x al :: s) (map prep t)) as [s' H].
        change (vdiv x al :: s ++ map prep t) with ((vdiv x al :: s) ++ map prep t).
        rewrite H. eexists; reflexivity.
  Qed.

  Lemma R_smacc p pe sd a a' y :
    1 <= p -> (pe = true -> (2 <= lmp a)%Z) -> Rl a a' -> smacc p pe sd a = Ok y ->
    exists y', smacc p pe sd a' = Ok y' /\ Rl y y'.
  Proof.
    intros Hp Hpe HR Hy. pose proof HR as (A1 & _). unfold smacc in *.
    assert (Hpe' : ((if pe then 1 else 0) <= lmp a - 1 /\ 0 <= (if pe then 1 else 0))%Z).
    { destruct pe; [specialize (Hpe eq_refl)|]; lia. }
    match type of Hy with ewm_call _ _ _ ?e _ _ _ = _ =>
      destruct (@R_ewm_causal a a' (Z.of_nat p) 0 e 1 sd
                (Z.to_nat (lmp a - 1 + po_of (Z.of_nat p) 0 1 - e - 1))
                (lfilter v1 (Some (vdiv (vofZ (Z.of_nat p - 1)) (vofZ (Z.of_nat p))))) y)
        as (y' & E & R & _) end;
      auto; try (rewrite po_same); try lia.
    - apply causal_lfilter.
    - eauto.
  Qed.

  (** ** Smoothing with a line of alphas *)
  Lemma dyn_from_ext x al s r :
    dyn_from x al s = Ok r -> length al = length s ->
    forall al' s', length al' = length s' -> prefix al al' -> prefix s s' ->
    exists r', dyn_from x al' s' = Ok r' /\ length r' = length s' /\ length r = length s /\ prefix r r'.
  Proof.
    revert x s r; induction al as [|b al IH]; intros x s r Hr Hl al' s' Hl' Pa Ps.
    - destruct s; [|discriminate]. injection Hr as <-.
      clear Pa Ps. revert x s' Hl'. induction al' as [|b' al' IH']; intros x [|y s'] Hl'; try discriminate.
      + exists []. repeat split; auto. apply prefix_refl.
      + cbn [dyn_from]. destruct (IH' (vadd x (vmul b' (vsub y x))) s') as (r' & -> & L & _ & _).
        { simpl in Hl'. lia. }
        cbn [bind]. eexists. split; [reflexivity|]. simpl. repeat split; auto. apply prefix_nil.
    - destruct s as [|y s]; [discriminate|]. destruct Pa as [ua ->], Ps as [us ->].
      cbn [dyn_from app] in *. apply bind_ok in Hr. destruct Hr as (r1 & Hr1 & Hr). injection Hr as <-.
      destruct (IH _ _ _ Hr1 ltac:(simpl in Hl; lia) (al ++ ua) (s ++ us)) as (r' & E & L & L' & P).
      { simpl in Hl'. lia. } { now exists ua. } { now exists us. }
      rewrite E. cbn [bind]. eexists. split; [reflexivity|]. simpl.
      repeat split; try lia. now apply prefix_cons.
  Qed.
  Lemma dyn_from_len x al s r : dyn_from x al s = Ok r -> length al <= length s.
  Proof.
    revert x s r; induction al as [|b al IH]; intros x [|y s] r Hr; simpl; try lia; try discriminate.
    cbn [dyn_from] in Hr. apply bind_ok in Hr. destruct Hr as (r1 & Hr1 & _). apply IH in Hr1. lia.
  Qed.

  Lemma R_ewm_dyn p al al' sd a a' y :
    Rl al al' -> Rl a a' -> (0 <= p)%Z ->
    (if (p =? 0)%Z then lmp al <= lmp a /\ 2 <= lmp a else p + 1 <= lmp al)%Z ->
    ewm_dyn p al sd a = Ok y ->
    exists y', ewm_dyn p al' sd a' = Ok y' /\ Rl y y' /\ lmp y = Z.max (lmp a + (p - 1)) (lmp al).
  Proof.
    intros Hal Ha Hp Hc Hy. unfold ewm_dyn in *.
    pose proof Hal as (L1 & L2 & L3 & L4 & L5). pose proof Ha as (A1 & A2 & A3 & A4 & A5).
    rewrite <- L4.
    assert (Hpo : (lmp al <= lmp a + po_of p 0 (lmp al) /\ p <= lmp a - 1 + po_of p 0 (lmp al) /\
                  2 <= lmp a + po_of p 0 (lmp al))%Z).
    { unfold po_of. cbn [Z.eqb]. destruct (Z.eqb_spec p 0) as [->|Hz]; cbn [negb andb]; [lia|].
      destruct (Z.ltb_spec p (lmp al)); lia. }
    replace (p - 1)%Z with (p - 0 - 1)%Z by lia.
    eapply (@R_ewm_gen a a' p 0 0 (lmp al) sd (Z.to_nat (lmp a - 1 + po_of p 0 (lmp al) - 1))); eauto; try lia.
    set (q := Z.to_nat (lmp a - 1 + po_of p 0 (lmp al) - 1)).
    intros t t' r Ht Ht' Pt Hr. unfold dyn_mean in *.
    destruct (@mi_nat (lmp al)) as [ka Hka]; auto. rewrite Hka, !slice_from_nat in *.
    assert (Hkq : ka <= S q) by (unfold q; lia).
    destruct t as [|t0 t]; [discriminate|]. destruct Pt as [u ->].
    cbn [map app] in *. apply bind_ok in Hr. destruct Hr as (r1 & Hr1 & Hr). injection Hr as <-.
    assert (Hlen : length (skipn ka (lser al)) <= length (map prep t)) by (eapply dyn_from_len; exact Hr1). rewrite map_length, skipn_length, L2 in Hlen.
    simpl in Ht, Ht'.
    destruct (@dyn_from_ext _ _ _ _ Hr1) with (al' := skipn ka (lser al')) (s' := map prep (t ++ u))
      as (r' & E & E1 & E2 & E3).
    - rewrite map_length, skipn_length. lia.
    - rewrite map_length, skipn_length. lia.
    - now apply prefix_skipn.
    - rewrite map_app. eexists; reflexivity.
    - rewrite E. cbn [bind]. rewrite map_length in *. split; [simpl; lia|].
      eexists. split; [reflexivity|]. simpl. split; [lia|]. now apply prefix_cons.
  Qed.

  (** ** Functions applied to whole series *)
  Definition Fcausal (F : list V -> list (list V) -> res (list V)) : Prop :=
    forall s ss s' ss' r m m', length s = m -> length s' = m' -> m <= m' ->
      Forall (fun x => length x = m) ss -> Forall (fun x => length x = m') ss' ->
      prefix s s' -> Forall2 prefix ss ss' -> F s ss = Ok r ->
      length r = m /\ exists r', F s' ss' = Ok r' /\ length r' = m' /\ prefix r r'.

  Lemma max_mp_R a a' args args' :
    Rl a a' -> Forall2 Rl args args' -> max_mp a args = max_mp a' args' /\ (1 <= max_mp a args)%Z.
  Proof.
    intros (A1 & _ & _ & A4 & _) H. unfold max_mp. rewrite <- A4. clear A4 a'.
    revert A1. generalize (lmp a) as m. induction H as [|x y xs ys (B1 & _ & _ & B4 & _) Hxs IH]; intros m Hm; simpl.
    - auto.
    - rewrite <- B4. apply IH. lia.
  Qed.

  Lemma args_prefix args args' k :
    Forall2 Rl args args' ->
    Forall (fun x => length x = n - k) (map (fun x => skipn k (lser x)) args) /\
    Forall (fun x => length x = n' - k) (map (fun x => skipn k (lser x)) args') /\
    Forall2 prefix (map (fun x => skipn k (lser x)) args) (map (fun x => skipn k (lser x)) args').
  Proof.
    induction 1 as [|x y xs ys (B1 & B2 & B3 & B4 & B5) Hxs (I1 & I2 & I3)]; simpl; auto.
    repeat split; constructor; auto; rewrite ?skipn_length; try lia. now apply prefix_skipn.
  Qed.

  Lemma R_apply F a a' args args' y :
    Fcausal F -> Rl a a' -> Forall2 Rl args args' -> apply_ F a args = Ok y ->
    exists y', apply_ F a' args' = Ok y' /\ Rl y y' /\ lmp y = max_mp a args.
  Proof.
    intros HF Ha Hargs Hy. pose proof Ha as (A1 & A2 & A3 & A4 & A5). unfold apply_ in *.
    destruct (max_mp_R Ha Hargs) as [M1 M2]. rewrite <- M1.
    destruct (@mi_nat (max_mp a args)) as [k Hk]; auto. rewrite Hk, slice_from_nat in *.
    assert (E : forall l : list line, map (fun x => slice_from (lser x) (Z.of_nat k)) l =
                               map (fun x => skipn k (lser x)) l).
    { intro l. apply map_ext. intro x. apply slice_from_nat. }
    rewrite E in *. apply bind_ok in Hy. destruct Hy as (r & Hr & Hy). injection Hy as <-.
    destruct (args_prefix k Hargs) as (I1 & I2 & I3).
    destruct (HF (skipn k (lser a)) (map (fun x => skipn k (lser x)) args)
                 (skipn k (lser a')) (map (fun x => skipn k (lser x)) args') r (n - k) (n' - k))
      as (L & r' & Hr' & L' & P); auto; rewrite ?skipn_length; try lia.
    { now apply prefix_skipn. }
    rewrite Hr'. cbn [bind]. eexists. split; [reflexivity|]. rewrite !clone_pos by lia.
    split; [|reflexivity]. unfold nans. rewrite A2, A3. 
    repeat split; cbn [lmp lser]; auto.
    - apply (@plc_length V). lia.
    - apply (@plc_length V). lia.
    - apply (@plc_prefix V); auto.
  Qed.

  Definition FcausalM (F : list V -> list (list V) -> res (list (list V))) : Prop :=
    forall s ss s' ss' r m m', length s = m -> length s' = m' -> m <= m' ->
      Forall (fun x => length x = m) ss -> Forall (fun x => length x = m') ss' ->
      prefix s s' -> Forall2 prefix ss ss' -> F s ss = Ok r ->
      exists r', F s' ss' = Ok r' /\
        Forall2 (fun x x' => length x = m /\ length x' = m' /\ prefix x x') r r'.

  Lemma R_applymulti F a a' args args' y :
    FcausalM F -> Rl a a' -> Forall2 Rl args args' -> applymulti_ F a args = Ok y ->
    exists y', applymulti_ F a' args' = Ok y' /\ Forall2 Rl y y' /\
      Forall (fun l => lmp l = max_mp a args) y.
  Proof.
    intros HF Ha Hargs Hy. pose proof Ha as (A1 & A2 & A3 & A4 & A5). unfold applymulti_ in *.
    destruct (max_mp_R Ha Hargs) as [M1 M2]. rewrite <- M1.
    destruct (@mi_nat (max_mp a args)) as [k Hk]; auto. rewrite Hk, slice_from_nat in *.
    assert (E : forall l : list line, map (fun x => slice_from (lser x) (Z.of_nat k)) l =
                               map (fun x => skipn k (lser x)) l).
    { intro l. apply map_ext. intro x. apply slice_from_nat. }
    rewrite E in *. apply bind_ok in Hy. destruct Hy as (r & Hr & Hy). injection Hy as <-.
    destruct (args_prefix k Hargs) as (I1 & I2 & I3).
    destruct (HF (skipn k (lser a)) (map (fun x => skipn k (lser x)) args)
                 (skipn k (lser a')) (map (fun x => skipn k (lser x)) args') r (n - k) (n' - k))
      as (r' & Hr' & P); auto; rewrite ?skipn_length; try lia.
    { now apply prefix_skipn. }
    rewrite Hr'. cbn [bind]. eexists. split; [reflexivity|]. split.
    - clear Hr Hr'. induction P as [|x x' xs xs' (L & L' & P) Pxs IH]; simpl; constructor; auto.
      rewrite !clone_pos by lia. unfold nans. rewrite A2, A3.
      repeat split; cbn [lmp lser]; auto.
      + apply (@plc_length V). lia.
      + apply (@plc_length V). lia.
      + apply (@plc_prefix V); auto.
    - apply Forall_forall. intros l Hl. apply in_map_iff in Hl. destruct Hl as (x & <- & _).
      rewrite clone_pos by lia. reflexivity.
  Qed.
End R.
