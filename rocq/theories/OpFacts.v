(** Remaining facts about the line operators: comparisons, products with boolean lines,
    percentage change, object reuse, positional arguments, forward shifts, the two
    recursive filters. *)
From Coq Require Import ZArith List Bool Lia Arith Reals Lra.
From Verif Require Import Num Series Line Spec RSpec LineFacts ScanFacts RFacts CausalFacts.
Import ListNotations.
Set Implicit Arguments.

Section Ops.
  Context {V : Type} {N : Num V}.

  (** ** boolean lines *)

  Lemma bfeeds_mp l n k f : bfeeds l n k f -> bmp l = Z.of_nat (S k).
  Proof. now intros (H & _). Qed.
  Lemma bfeeds_len l n k f : bfeeds l n k f -> length (bser l) = n.
  Proof. now intros (_ & H & _). Qed.
  Lemma bdelivers_bfeeds l n k f : bdelivers l n k f -> bfeeds l n k f.
  Proof. now intros (H & _). Qed.

  Lemma bfeeds_slice l n k f m :
    bfeeds l n k f -> k <= m -> slice_from (bser l) (Z.of_nat m) = map f (seq m (n - m)).
  Proof.
    intros (_ & Hl & Hf) Hm. rewrite slice_from_nat. apply nth_error_ext.
    - now rewrite skipn_length, map_length, seq_length, Hl.
    - intros i Hi. rewrite skipn_length in Hi.
      rewrite nth_error_skipn, nth_error_map_seq, Hf; auto; lia.
  Qed.

  Lemma nth_plc' {B} (d : B) n k g i :
    i < n -> nth_error (plc d n k (map g (seq k (n - k)))) i =
             Some (if i <? k then d else g i).
  Proof.
    intro Hi. rewrite plc_form. destruct (Nat.ltb_spec i k).
    - rewrite nth_error_app1 by (rewrite repeat_length; lia). apply nth_error_repeat_ok; lia.
    - rewrite nth_error_app2 by (rewrite repeat_length; lia). rewrite repeat_length.
      rewrite nth_error_map_seq by lia. f_equal. f_equal. lia.
  Qed.

  Lemma bdelivers_mk n k g :
    bdelivers (mkBLine (Z.of_nat (S k)) (plc true n k (map g (seq k (n - k))))) n k g.
  Proof.
    repeat split; cbn [bmp bser].
    - apply plc_length. now rewrite map_length, seq_length.
    - intros i Hi. rewrite nth_plc' by lia. destruct (Nat.ltb_spec i k); auto; lia.
    - intros i Hi Hn. rewrite nth_plc' by lia. destruct (Nat.ltb_spec i k); auto; lia.
  Qed.

  Lemma max_S a b : (Z.max (Z.of_nat (S a)) (Z.of_nat (S b)) = Z.of_nat (S (Nat.max a b)))%Z.
  Proof. lia. Qed.
  Lemma max_S1 a : (Z.max (Z.of_nat (S a)) 1 = Z.of_nat (S a))%Z.
  Proof. lia. Qed.

  Lemma cmpop_bdelivers op (a b : line V) n ka kb f g :
    feeds a n ka f -> feeds b n kb g ->
    bdelivers (cmpop op a b) n (Nat.max ka kb) (fun i => op (f i) (g i)).
  Proof.
    intros Ha Hb. unfold cmpop, bars.
    rewrite (feeds_mp Ha), (feeds_mp Hb), (feeds_len Ha), max_S, mp_idx, bclone_pos by lia.
    rewrite (feeds_slice Ha), (feeds_slice Hb) by lia. rewrite map2_map_seq.
    apply bdelivers_mk.
  Qed.

  Lemma cmpop_s_bdelivers op (a : line V) c n k f :
    feeds a n k f -> bdelivers (cmpop_s op a c) n k (fun i => op (f i) c).
  Proof.
    intros Ha. unfold cmpop_s, bars.
    rewrite (feeds_mp Ha), (feeds_len Ha), max_S1, mp_idx, bclone_pos by lia.
    rewrite (feeds_slice Ha) by lia. rewrite map_map. apply bdelivers_mk.
  Qed.

  Lemma bbinop_bdelivers op a b n ka kb f g :
    bfeeds a n ka f -> bfeeds b n kb g ->
    bdelivers (bbinop op a b) n (Nat.max ka kb) (fun i => op (f i) (g i)).
  Proof.
    intros Ha Hb. unfold bbinop.
    rewrite (bfeeds_mp Ha), (bfeeds_mp Hb), (bfeeds_len Ha), max_S, mp_idx, bclone_pos by lia.
    rewrite (bfeeds_slice Ha), (bfeeds_slice Hb) by lia. rewrite map2_map_seq.
    apply bdelivers_mk.
  Qed.

  Lemma mul_b_delivers (a : line V) b n ka kb f g :
    feeds a n ka f -> bfeeds b n kb g ->
    delivers (mul_b a b) n (Nat.max ka kb) (fun i => vmul (f i) (vofbool (g i))).
  Proof.
    intros Ha Hb. unfold mul_b, bars.
    rewrite (feeds_mp Ha), (bfeeds_mp Hb), (feeds_len Ha), max_S, mp_idx, clone_S.
    rewrite (feeds_slice Ha), (bfeeds_slice Hb) by lia. rewrite map2_map_seq.
    apply delivers_mk; auto. intros; lia.
  Qed.

  Lemma rmul_b_delivers c b n k g :
    bfeeds b n k g -> delivers (rmul_b c b) n k (fun i => vmul c (vofbool (g i))).
  Proof.
    intros Hb. unfold rmul_b.
    rewrite (bfeeds_mp Hb), (bfeeds_len Hb), max_S1, mp_idx.
    destruct (Z.eqb_spec (Z.of_nat (S k)) 0); [lia|].
    rewrite (bfeeds_slice Hb) by lia. rewrite map_map.
    apply delivers_mk; auto. intros; lia.
  Qed.

  Lemma lclip_lo_delivers (a : line V) t n k f :
    feeds a n k f -> delivers (lclip_lo a t) n k (fun i => clip_lo t (f i)).
  Proof.
    intros Ha. unfold lclip_lo, bars.
    rewrite (feeds_mp Ha), (feeds_len Ha), max_S1, mp_idx, clone_S.
    rewrite (feeds_slice Ha) by lia. rewrite map_map. apply delivers_mk; auto. intros; lia.
  Qed.
  Lemma lclip_hi_delivers (a : line V) t n k f :
    feeds a n k f -> delivers (lclip_hi a t) n k (fun i => clip_hi t (f i)).
  Proof.
    intros Ha. unfold lclip_hi, bars.
    rewrite (feeds_mp Ha), (feeds_len Ha), max_S1, mp_idx, clone_S.
    rewrite (feeds_slice Ha) by lia. rewrite map_map. apply delivers_mk; auto. intros; lia.
  Qed.

  (** ** pct_change *)

  Lemma ffill_nonan (s : list V) : (forall v, In v s -> visnan v = false) -> ser_ffill s = s.
  Proof.
    unfold ser_ffill. generalize (vnan : V). induction s as [|x s IH]; intros d H; auto.
    cbn [ffill_from]. rewrite (H x) by (left; auto). cbv zeta. f_equal.
    apply IH. intros v Hv. apply H. now right.
  Qed.

  Lemma pct_change_delivers (a : line V) n k p f :
    (forall x : V, vdiv x vnan = vnan) -> vsub vnan v1 = (vnan : V) ->
    (forall i, k <= i < n -> visnan (f i) = false) ->
    feeds a n k f ->
    delivers (pct_change a (Z.of_nat p)) n (k + p)
      (fun i => vsub (vdiv (f i) (f (i - p))) v1).
  Proof.
    intros Hd Hs Hf Ha.
    pose (g i := if i <? k + p then vnan else vsub (vdiv (f i) (f (i - p))) v1).
    apply delivers_ext with g.
    { intros i Hi. unfold g. destruct (Nat.ltb_spec i (k + p)); auto; lia. }
    unfold pct_change. eapply kwop_p_delivers; eauto.
    - unfold ser_pct_change. rewrite ffill_nonan.
      + rewrite ser_shift_seq, map2_map_seq, map_map. apply map_ext_seq. intros i Hi.
        unfold g. destruct (Nat.ltb_spec i (k + p)); auto. now rewrite Hd, Hs.
      + intros v Hv. apply in_map_iff in Hv. destruct Hv as (i & <- & Hi).
        apply in_seq in Hi. apply Hf. lia.
    - intros i Hi Hn. unfold g. destruct (Nat.ltb_spec i (k + p)); auto; lia.
  Qed.

  (** ** rolling objects *)

  Lemma mf_first w G (a : line V) :
    snd (mf_call (mf_plain a (Some (Z.of_nat w))) (fun t => Ok (ser_rolling w G t)))
    = Ok (rolling w G a).
  Proof. reflexivity. Qed.

  Lemma mf_second w G H (a : line V) n k f :
    1 <= w -> feeds a n k f ->
    let o := mf_plain a (Some (Z.of_nat w)) in
    let o1 := fst (mf_call o (fun t => Ok (ser_rolling w G t))) in
    snd (mf_call o1 (fun t => Ok (ser_rolling w H t))) =
    Ok (mkLine (Z.of_nat (S (k + 2 * (w - 1)))) (lser (rolling w H a))).
  Proof.
    intros Hw Ha. cbv zeta. unfold mf_call, mf_plain.
    cbn [mf_line mf_mp mf_pval mf_pearly mf_alphap mf_minidx mf_trailer fst snd bind].
    unfold rolling. rewrite (feeds_mp Ha), !clone_pos by lia. cbn [lser]. do 2 f_equal. lia.
  Qed.

  (** positional window: _pval stays None, the minimum period is not raised *)
  Lemma mf_positional w G (a : line V) n k f :
    1 <= w -> feeds a n k f ->
    snd (mf_call (mf_plain a None) (fun t => Ok (ser_rolling w G t))) =
    Ok (mkLine (Z.of_nat (S k)) (lser (rolling w G a))).
  Proof.
    intros Hw Ha. unfold mf_call, mf_plain.
    cbn [mf_line mf_mp mf_pval mf_pearly mf_alphap mf_minidx mf_trailer fst snd bind].
    unfold rolling. rewrite (feeds_mp Ha), !clone_pos by lia. reflexivity.
  Qed.

  (** ** forward shifts *)

  Lemma shift_ahead (a : line V) n k p f :
    feeds a n k f ->
    lmp (shift a (- Z.of_nat p)) = (Z.of_nat (S k) - Z.of_nat p)%Z /\
    length (lser (shift a (- Z.of_nat p))) = n /\
    forall i, k <= i < n ->
      nth_error (lser (shift a (- Z.of_nat p))) i =
      Some (if i + p <? n then f (i + p) else vnan).
  Proof.
    intros Ha. unfold shift, kwop_p, bars.
    rewrite (feeds_mp Ha), (feeds_len Ha), mp_idx, clone_S, (feeds_slice Ha) by lia.
    assert (E : ser_shift (map f (seq k (n - k))) (- Z.of_nat p) =
                map (fun i => if i + p <? n then f (i + p) else vnan) (seq k (n - k))).
    { unfold ser_shift. rewrite map_length, seq_length.
      destruct p as [|p].
      - simpl Z.opp. cbn [Z.ltb Z.compare]. simpl Z.to_nat. rewrite Nat.min_0_l, Nat.sub_0_r.
        rewrite firstn_all2 by (rewrite map_length, seq_length; lia). simpl.
        apply map_ext_seq. intros i Hi. rewrite Nat.add_0_r.
        destruct (Nat.ltb_spec i n); auto; lia.
      - destruct (Z.ltb_spec (- Z.of_nat (S p)) 0); [|lia].
        rewrite Z.opp_involutive, Nat2Z.id.
        apply nth_error_ext.
        + rewrite app_length, skipn_length, !map_length, repeat_length, !seq_length. lia.
        + intros i Hi. rewrite app_length, skipn_length, !map_length, repeat_length, !seq_length in Hi.
          rewrite (nth_error_map_seq (fun i => if i + S p <? n then f (i + S p) else vnan)) by lia.
          destruct (Nat.ltb_spec (k + i + S p) n).
          * rewrite nth_error_app1 by (rewrite skipn_length, map_length, seq_length; lia).
            rewrite nth_error_skipn, nth_error_map_seq by lia. do 2 f_equal. lia.
          * rewrite nth_error_app2 by (rewrite skipn_length, map_length, seq_length; lia).
            rewrite skipn_length, map_length, seq_length.
            rewrite nth_error_repeat_ok; auto. lia. }
    rewrite E. cbn [lmp lser]. change (set_from (nans n) (Z.of_nat k)) with (plc (vnan : V) n k).
    repeat split.
    - apply plc_length. now rewrite map_length, seq_length.
    - intros i Hi. rewrite nth_plc' by lia. destruct (Nat.ltb_spec i k); auto; lia.
  Qed.

  (** the values of a look-ahead by at most the warm-up survive a later pointwise operation *)
  Lemma ahead_map (a : line V) h n k p f :
    feeds a n k f -> 1 <= p <= k ->
    forall i, k <= i -> i + p < n ->
      nth_error (lser (mapop h (at_ago a (Z.of_nat p)))) i = Some (h (f (i + p))).
  Proof.
    intros Ha Hp i Hi Hn. unfold at_ago. destruct (Z.eqb_spec (Z.of_nat p) 0) as [E|E].
    - lia.
    - destruct (@shift_ahead a n k p f Ha) as (H1 & H2 & H3).
      set (s := shift a (- Z.of_nat p)) in *.
      unfold mapop, stdop, bars. rewrite H1, H2.
      replace (Z.of_nat (S k) - Z.of_nat p)%Z with (Z.of_nat (S (k - p))) by lia.
      rewrite mp_idx, clone_S, slice_from_nat. cbn [lser].
      change (set_from (nans n) (Z.of_nat (k - p))) with (plc (vnan : V) n (k - p)).
      rewrite plc_form, nth_error_app2 by (rewrite repeat_length; lia).
      rewrite repeat_length, nth_error_map, nth_error_skipn.
      replace (k - p + (i - Nat.min (k - p) n)) with i by lia.
      rewrite H3 by lia. destruct (Nat.ltb_spec (i + p) n); [reflexivity|lia].
  Qed.

  (** looking further ahead than the warm-up: a later pointwise operation is applied to
      the last bars only *)
  Lemma ahead_broken (a : line V) h n k p f :
    feeds a n k f -> k + 1 <= p -> p - k < n ->
    forall i, i < n - (p - k) ->
      nth_error (lser (mapop h (at_ago a (Z.of_nat p)))) i = Some vnan.
  Proof.
    intros Ha Hp Hn i Hi. unfold at_ago. destruct (Z.eqb_spec (Z.of_nat p) 0) as [E|E]; [lia|].
    destruct (@shift_ahead a n k p f Ha) as (H1 & H2 & H3).
    set (s := shift a (- Z.of_nat p)) in *.
    unfold mapop, stdop, bars. rewrite H1, H2. unfold clone. cbn [lser].
    assert (Hlo : slice_lo n (Z.of_nat (S k) - Z.of_nat p - 1) = n - (p - k)).
    { unfold slice_lo. destruct (Z.ltb_spec (Z.of_nat (S k) - Z.of_nat p - 1) 0); lia. }
    unfold set_from, nans. rewrite repeat_length, Hlo.
    rewrite nth_error_app1 by (rewrite firstn_length, repeat_length; lia).
    rewrite nth_error_firstn by lia. apply nth_error_repeat_ok. lia.
  Qed.
End Ops.

(** ** The two recursive filters *)

Lemma eadd_comm (x y : ext R) : eadd x y = eadd y x.
Proof. destruct x, y; simpl; auto. now rewrite Rplus_comm. Qed.

Lemma mean_lfilter_from (al be : ext R) s : forall y z,
  z = vmul be y -> lfilter_from al be z s = mean_exp_from al be y s.
Proof.
  induction s as [|x s IH]; intros y z Hz; auto.
  cbn [lfilter_from mean_exp_from]. cbv zeta.
  assert (E : vadd (vmul al x) z = vadd (vmul be y) (vmul al x)).
  { subst z. apply eadd_comm. }
  rewrite E. f_equal. apply IH. reflexivity.
Qed.

Lemma lfilter_mean_exp (al : R) (be : option (ext R)) s :
  al <> 0%R -> lfilter (Fin al) be s = mean_exp (Fin al) be s.
Proof.
  intro Hal. unfold lfilter, mean_exp. destruct (map prep s) as [|x s'] eqn:E; auto.
  assert (Hx : visinf x = false).
  { destruct s as [|y s0]; [discriminate|]. injection E as <- _.
    unfold prep. destruct (visinf y) eqn:Hy; auto. }
  cbn [lfilter_from]. cbv zeta.
  assert (Ex : vadd (vmul (Fin al) (vdiv x (Fin al))) v0 = x).
  { destruct x as [| | |x]; try discriminate; auto.
    rewrite vdiv_fin by auto. rewrite vmul_fin, v0_fin, vadd_fin. f_equal. field. auto. }
  rewrite Ex. f_equal. now apply mean_lfilter_from.
Qed.
