(** Recursive filters as scans; seeded exponential smoothing. *)
From Coq Require Import ZArith List Bool Lia Arith.
From Verif Require Import Num Series Line Spec LineFacts.
Import ListNotations.
Set Implicit Arguments.

(** ** Scans *)

Section Scan.
  Context {St A B : Type} (step : St -> A -> St * B).

  Fixpoint scan (s : St) (l : list A) : list B :=
    match l with
    | [] => []
    | x :: l' => let '(s', y) := step s x in y :: scan s' l'
    end.

  (** state before the element with index [j + d] of the sequence f j, f (j+1), ... *)
  Fixpoint scan_st (f : nat -> A) (j : nat) (s : St) (d : nat) : St :=
    match d with
    | 0 => s
    | S d' => fst (step (scan_st f j s d') (f (j + d')))
    end.

  Lemma scan_st_shift f j s d :
    scan_st f j s (S d) = scan_st f (S j) (fst (step s (f j))) d.
  Proof.
    induction d as [|d IH].
    - simpl. now rewrite Nat.add_0_r.
    - change (scan_st f j s (S (S d))) with (fst (step (scan_st f j s (S d)) (f (j + S d)))).
      rewrite IH. simpl. now replace (j + S d) with (S (j + d)) by lia.
  Qed.

  Lemma scan_seq f j s m :
    scan s (map f (seq j m)) =
    map (fun i => snd (step (scan_st f j s (i - j)) (f i))) (seq j m).
  Proof.
    revert j s; induction m as [|m IH]; intros j s; simpl; auto.
    destruct (step s (f j)) as [s' y] eqn:E. rewrite Nat.sub_diag. simpl. rewrite E. simpl.
    f_equal. rewrite IH. apply map_ext_seq. intros i Hi.
    replace (i - j) with (S (i - S j)) by lia. rewrite scan_st_shift, E. reflexivity.
  Qed.

  Lemma scan_length s l : length (scan s l) = length l.
  Proof.
    revert s; induction l as [|x l IH]; intro s; simpl; auto.
    destruct (step s x); simpl. now rewrite IH.
  Qed.

  Lemma scan_app s l m :
    exists s', scan s (l ++ m) = scan s l ++ scan s' m.
  Proof.
    revert s; induction l as [|x l IH]; intro s; simpl.
    - now exists s.
    - destruct (step s x) as [s1 y]. destruct (IH s1) as [s' H]. exists s'. now rewrite H.
  Qed.
End Scan.

Section Filters.
  Context {V : Type} {N : Num V}.
  Implicit Types (f g : nat -> V) (a : line V).

  (** one step of the pandas ewma *)
  Definition ewma_step (alpha : V) (adjust : bool) (st : V * V) (cur : V) : (V * V) * V :=
    let '(wa, oldw) := st in
    let newwt := if adjust then v1 else alpha in
    let '(wa', oldw') :=
      if visnan wa then ((if visnan cur then wa else cur), oldw)
      else
        let ow := vmul oldw (vsub v1 alpha) in
        if visnan cur then (wa, ow)
        else
          ((if veqb wa cur then wa
            else vdiv (vadd (vmul ow wa) (vmul newwt cur)) (vadd ow newwt)),
           if adjust then vadd ow newwt else v1)
    in ((wa', oldw'), wa').

  Lemma ewma_scan alpha adjust wa oldw s :
    ewma_from alpha adjust wa oldw s = scan (ewma_step alpha adjust) (wa, oldw) s.
  Proof.
    revert wa oldw; induction s as [|x s IH]; intros wa oldw; auto.
    cbn [ewma_from scan]. unfold ewma_step at 1.
    destruct (visnan wa); [|destruct (visnan x)]; cbv zeta; cbn [fst snd]; f_equal; apply IH.
  Qed.

  Definition mean_exp_step (alpha beta : V) (prev x : V) : V * V :=
    let y := vadd (vmul beta prev) (vmul alpha x) in (y, y).
  Lemma mean_exp_scan alpha beta prev s :
    mean_exp_from alpha beta prev s = scan (mean_exp_step alpha beta) prev s.
  Proof.
    revert prev; induction s as [|x s IH]; intro prev; simpl; auto. now rewrite IH.
  Qed.

  Definition lfilter_step (alpha beta : V) (z x : V) : V * V :=
    let y := vadd (vmul alpha x) z in (vmul beta y, y).
  Lemma lfilter_scan alpha beta z s :
    lfilter_from alpha beta z s = scan (lfilter_step alpha beta) z s.
  Proof.
    revert z; induction s as [|x s IH]; intro z; simpl; auto. now rewrite IH.
  Qed.

  Definition cumsum_step (acc x : V) : V * V :=
    if visnan x then (acc, vnan) else let y := vadd acc x in (y, y).
  Lemma cumsum_scan acc s : cumsum_from acc s = scan cumsum_step acc s.
  Proof.
    revert acc; induction s as [|x s IH]; intro acc; simpl; auto.
    unfold cumsum_step at 1. destruct (visnan x); now rewrite IH.
  Qed.

  Definition ffill_step (prev x : V) : V * V :=
    let y := if visnan x then prev else x in (y, y).
  Lemma ffill_scan prev s : ffill_from prev s = scan ffill_step prev s.
  Proof.
    revert prev; induction s as [|x s IH]; intro prev; simpl; [reflexivity|now rewrite IH].
  Qed.

  Definition repl0_step (prev : option V) (x : V) : option V * V :=
    if veqb x v0 then
      match prev with None => (None, x) | Some y => (Some y, y) end
    else (Some x, x).
  Lemma repl0_scan prev s : repl0_from prev s = scan repl0_step prev s.
  Proof.
    revert prev; induction s as [|x s IH]; intro prev; simpl; auto.
    unfold repl0_step at 1. destruct (veqb x v0); [destruct prev|]; now rewrite IH.
  Qed.

  (** ** The exponentially weighted mean of a sequence, as a function of the bar *)

  (** value at bar [j + d] of ewm(...).mean() started at bar [j] with value [wa] *)
  Definition ewma_val (alpha : V) (adjust : bool) (wa : V) (f : nat -> V) (j d : nat) : V :=
    match d with
    | 0 => wa
    | S d' => snd (ewma_step alpha adjust
                     (scan_st (ewma_step alpha adjust) (fun i => prep (f i)) (S j) (wa, v1) d')
                     (prep (f (j + d))))
    end.

  Lemma ser_ewma_seq alpha adjust wa f j m :
    ser_ewma alpha adjust (wa :: map f (seq (S j) m)) =
    map (fun i => ewma_val alpha adjust (prep wa) f j (i - j)) (seq j (S m)).
  Proof.
    unfold ser_ewma. simpl map at 1. rewrite map_map.
    cbn [seq map]. rewrite Nat.sub_diag. simpl ewma_val. f_equal.
    rewrite ewma_scan, (scan_seq _ (fun i => prep (f i))). apply map_ext_seq. intros i Hi.
    replace (i - j) with (S (i - S j)) by lia. unfold ewma_val.
    replace (j + S (i - S j)) with i by lia. reflexivity.
  Qed.

  Lemma ser_ewma_plain_seq alpha adjust f j m :
    ser_ewma alpha adjust (map f (seq j m)) =
    map (fun i => ewma_val alpha adjust (prep (f j)) f j (i - j)) (seq j m).
  Proof.
    destruct m as [|m]; auto. cbn [seq map]. rewrite ser_ewma_seq. reflexivity.
  Qed.

  (** line.ewm(span=p, adjust=b).mean() *)
  Lemma ewm_mean_feeds p adj a n k f :
    1 <= p -> feeds a n k f ->
    let g i := ewma_val (alpha_span (vofZ (Z.of_nat p))) adj (prep (f k)) f k (i - k) in
    lmp (ewm_mean p adj a) = Z.of_nat (S (k + p - 1)) /\
    length (lser (ewm_mean p adj a)) = n /\
    (forall i, i < n -> nth_error (lser (ewm_mean p adj a)) i =
                        Some (if i <? k then vnan else g i)).
  Proof.
    intros Hp Ha g. unfold ewm_mean, bars.
    rewrite (feeds_mp Ha), (feeds_len Ha).
    replace (Z.max (Z.of_nat (S k) + (Z.of_nat p - 0 - 1)) 1)
      with (Z.of_nat (S (k + p - 1))) by lia.
    rewrite mp_idx, clone_S, (feeds_slice Ha), ser_ewma_plain_seq by lia. cbn [lmp lser].
    fold g. change (set_from (nans n) (Z.of_nat k)) with (placed (V:=V) n k).
    rewrite (placed_spec n k g).
    repeat split.
    - now rewrite map_length, seq_length.
    - intros i Hi. rewrite nth_error_map_seq by lia. reflexivity.
  Qed.

  (** ** Seeded smoothing *)

  Definition seed_of (s : list V) (sd : seed) (p1 p2 : Z) : V :=
    match sd with
    | SEED_AVG => ser_mean (slice s p1 p2)
    | SEED_LAST => nth (Z.to_nat (p2 - 1)) s vnan
    | SEED_SUM => ser_sum (slice s p1 p2)
    | SEED_NONE => vnan
    | SEED_ZERO | SEED_ZFILL => v0
    end.

  Lemma mf_ewm_ok a pval poffset pearly alphap sd po q :
    (let po1 := if (poffset =? 0)%Z then pval else poffset in
     if negb (pval =? 0)%Z && (po1 <? alphap)%Z then po1 + (alphap - po1 - 1) else po1)%Z = po ->
    (lmp a - 1 + po - pearly = Z.of_nat (S q))%Z ->
    q < length (lser a) ->
    mf_ewm a pval poffset pearly alphap sd =
    Ok (mkMfo a (lmp a) (Some pval) pearly alphap (Z.of_nat q)
          (seed_of (lser a) sd (Z.of_nat (S q) - pval) (Z.of_nat (S q))
             :: skipn (S q) (lser a))).
  Proof.
    intros Hpo Hp2 Hq. cbv zeta in Hpo. unfold mf_ewm. rewrite Hpo, Hp2.
    replace (Z.of_nat (S q) - 1)%Z with (Z.of_nat q) by lia.
    rewrite slice_from_nat.
    assert (Hs : slice (lser a) (Z.of_nat q) (Z.of_nat (S q)) = [nth q (lser a) vnan]).
    { rewrite slice_nat. replace (S q - q) with 1 by lia.
      apply nth_error_ext.
      - rewrite firstn_length, skipn_length. cbn [length]. lia.
      - intros i Hi. rewrite firstn_length, skipn_length in Hi.
        rewrite nth_error_firstn by lia. rewrite nth_error_skipn.
        destruct i as [|i]; [|lia]. rewrite Nat.add_0_r. simpl. now apply nth_error_nth'. }
    rewrite Hs. cbn [map rev app].
    destruct sd; cbn [bind rev app map seed_of]; auto.
    erewrite getitem_nat by (apply nth_error_nth'; exact Hq). cbn [bind].
    replace (Z.to_nat (Z.of_nat (S q) - 1)) with q by lia. reflexivity.
  Qed.

  (** too short a history: the seed position does not exist and [trailprefix[-1] = v] raises *)
  Lemma mf_ewm_short a pval poffset pearly alphap sd po q :
    (let po1 := if (poffset =? 0)%Z then pval else poffset in
     if negb (pval =? 0)%Z && (po1 <? alphap)%Z then po1 + (alphap - po1 - 1) else po1)%Z = po ->
    (lmp a - 1 + po - pearly = Z.of_nat (S q))%Z ->
    length (lser a) <= q ->
    (sd = SEED_AVG \/ sd = SEED_LAST \/ sd = SEED_SUM \/ sd = SEED_ZERO) ->
    mf_ewm a pval poffset pearly alphap sd = Raise IndexError.
  Proof.
    intros Hpo Hp2 Hq Hsd. cbv zeta in Hpo. unfold mf_ewm. rewrite Hpo, Hp2.
    replace (Z.of_nat (S q) - 1)%Z with (Z.of_nat q) by lia.
    assert (Hs : slice (lser a) (Z.of_nat q) (Z.of_nat (S q)) = []).
    { rewrite slice_nat. rewrite skipn_all2 by lia. apply firstn_nil. }
    rewrite Hs. cbn [map rev].
    destruct Hsd as [->|[->|[->| ->]]]; cbn [bind]; auto.
    now rewrite getitem_nat_None by lia.
  Qed.

  (** result of a call on the seeded object *)
  Lemma ewm_call_ok a n k f pval poffset pearly alphap sd F po q mp g :
    feeds a n k f ->
    (let po1 := if (poffset =? 0)%Z then pval else poffset in
     if negb (pval =? 0)%Z && (po1 <? alphap)%Z then po1 + (alphap - po1 - 1) else po1)%Z = po ->
    (Z.of_nat k + po - pearly = Z.of_nat (S q))%Z ->
    q < n -> k <= S q ->
    (Z.max (Z.of_nat (S k) + (pval - pearly - 1)) alphap = Z.of_nat (S mp))%Z ->
    F (seed_of (lser a) sd (Z.of_nat (S q) - pval) (Z.of_nat (S q))
         :: map f (seq (S q) (n - S q))) = Ok (map g (seq q (n - q))) ->
    exists y, ewm_call a pval poffset pearly alphap sd F = Ok y /\
              lmp y = Z.of_nat (S mp) /\
              lser y = map (fun i => if i <? q then vnan else g i) (seq 0 n).
  Proof.
    intros Ha Hpo Hp2 Hq Hk Hmp HF. unfold ewm_call.
    rewrite (@mf_ewm_ok a pval poffset pearly alphap sd po q); auto.
    2:{ rewrite (feeds_mp Ha). lia. }
    2:{ now rewrite (feeds_len Ha). }
    cbn [bind]. unfold mf_call. cbn [mf_line mf_mp mf_pval mf_pearly mf_alphap mf_minidx mf_trailer snd].
    rewrite (feeds_mp Ha), Hmp, (feeds_skipn Ha) by lia. rewrite HF. cbn [bind].
    rewrite clone_S. eexists; split; [reflexivity|]. split; auto. cbn [lser].
    unfold bars. rewrite (feeds_len Ha). apply placed_spec.
  Qed.

  Lemma line_delivers (y : line V) n q mp g :
    lmp y = Z.of_nat (S mp) ->
    lser y = map (fun i => if i <? q then vnan else g i) (seq 0 n) ->
    delivers y n mp (fun i => if i <? q then vnan else g i) \/ mp > q.
  Proof.
    intros Hm Hs. destruct (Nat.le_gt_cases mp q) as [H|H]; [left|right; lia].
    repeat split; auto.
    - now rewrite Hs, map_length, seq_length.
    - intros i Hi. rewrite Hs, nth_error_map_seq by lia. reflexivity.
    - intros i Hi Hn. rewrite Hs, nth_error_map_seq by lia. simpl.
      destruct (Nat.ltb_spec i q); auto; lia.
  Qed.

  Lemma line_delivers_eq (y : line V) n q g :
    lmp y = Z.of_nat (S q) ->
    lser y = map (fun i => if i <? q then vnan else g i) (seq 0 n) ->
    delivers y n q g.
  Proof.
    intros Hm Hs. repeat split; auto.
    - now rewrite Hs, map_length, seq_length.
    - intros i Hi. rewrite Hs, nth_error_map_seq by lia. simpl.
      destruct (Nat.ltb_spec i q); auto; lia.
    - intros i Hi Hn. rewrite Hs, nth_error_map_seq by lia. simpl.
      destruct (Nat.ltb_spec i q); auto; lia.
  Qed.

  (** the seed of an _ewm over the first p delivered values *)
  Lemma seed_avg_win a n k f p :
    feeds a n k f -> 1 <= p -> k + p <= n ->
    ser_mean (slice (lser a) (Z.of_nat (S (k + p - 1)) - Z.of_nat p) (Z.of_nat (S (k + p - 1)))) =
    ser_mean (win f (k + p - 1) p).
  Proof.
    intros Ha Hp Hn. f_equal.
    replace (Z.of_nat (S (k + p - 1)) - Z.of_nat p)%Z with (Z.of_nat k) by lia.
    rewrite slice_nat, (feeds_skipn Ha), firstn_map, firstn_seq by lia. unfold win.
    rewrite Nat.min_l by lia. f_equal. f_equal; lia.
  Qed.

  (** _ewm(span=p, _seed=AVG).mean() and _ewm(com=p-1, _seed=AVG).mean() *)
  Lemma ewm_span_delivers a n k f p :
    feeds a n k f -> 1 <= p -> k + p <= n ->
    exists y, ewm_span p 0 SEED_AVG a = Ok y /\
      delivers y n (k + p - 1)
        (fun i => ewma_val (alpha_span (vofZ (Z.of_nat p))) false
                    (prep (ser_mean (win f (k + p - 1) p))) f (k + p - 1) (i - (k + p - 1))).
  Proof.
    intros Ha Hp Hn. unfold ewm_span.
    edestruct (@ewm_call_ok a n k f (Z.of_nat p) 0%Z 0%Z 1%Z SEED_AVG) as (y & Hy & Hm & Hs);
      [exact Ha| reflexivity | | | | | |].
    6:{ exists y. split; [exact Hy|]. eapply line_delivers_eq; [exact Hm|exact Hs]. }
    - cbv zeta. rewrite Z.eqb_refl.
      destruct (Z.ltb_spec (Z.of_nat p) 1); [lia|]. rewrite andb_false_r.
      lia.
    - lia.
    - lia.
    - lia.
    - cbn [seed_of]. rewrite (seed_avg_win Ha) by lia. rewrite ser_ewma_seq.
      replace (S (n - S (k + p - 1))) with (n - (k + p - 1)) by lia. reflexivity.
  Qed.

  Lemma ewm_com_delivers a n k f p :
    feeds a n k f -> 1 <= p -> k + p <= n ->
    exists y, ewm_com p SEED_AVG a = Ok y /\
      delivers y n (k + p - 1)
        (fun i => ewma_val (alpha_com (vofZ (Z.of_nat p - 1))) false
                    (prep (ser_mean (win f (k + p - 1) p))) f (k + p - 1) (i - (k + p - 1))).
  Proof.
    intros Ha Hp Hn. unfold ewm_com.
    replace (Z.of_nat p - 1 + 1)%Z with (Z.of_nat p) by lia.
    edestruct (@ewm_call_ok a n k f (Z.of_nat p) 0%Z 0%Z 1%Z SEED_AVG) as (y & Hy & Hm & Hs);
      [exact Ha| reflexivity | | | | | |].
    6:{ exists y. split; [exact Hy|]. eapply line_delivers_eq; [exact Hm|exact Hs]. }
    - cbv zeta. rewrite Z.eqb_refl.
      destruct (Z.ltb_spec (Z.of_nat p) 1); [lia|]. rewrite andb_false_r.
      lia.
    - lia.
    - lia.
    - lia.
    - cbn [seed_of]. rewrite (seed_avg_win Ha) by lia. rewrite ser_ewma_seq.
      replace (S (n - S (k + p - 1))) with (n - (k + p - 1)) by lia. reflexivity.
  Qed.

  Lemma ewm_short a n k f pval sd F :
    feeds a n k f -> (1 <= pval)%Z -> (Z.of_nat n < Z.of_nat k + pval)%Z ->
    (sd = SEED_AVG \/ sd = SEED_LAST \/ sd = SEED_SUM \/ sd = SEED_ZERO) ->
    ewm_call a pval 0 0 1 sd F = Raise IndexError.
  Proof.
    intros Ha Hp Hn Hsd. unfold ewm_call.
    rewrite (@mf_ewm_short a pval 0 0 1 sd pval (k + Z.to_nat pval - 1)); auto.
    - cbv zeta. rewrite Z.eqb_refl. destruct (Z.ltb_spec pval 1); [lia|]. now rewrite andb_false_r.
    - rewrite (feeds_mp Ha). lia.
    - rewrite (feeds_len Ha). lia.
  Qed.
End Filters.
