(** Proofs about Labels.v. *)
From Coq Require Import ZArith List Bool Lia FinFun.
From Verif Require Import Num Series Line LineApi Strict IndMA IndBasic IndRange IndOsc IndVol LineFacts CausalFacts IndexedFacts Labels.
Import ListNotations.
Local Open Scope Z_scope.

Section Facts.
  Context {V : Type} {N : Num V}.
  Notation line := (line V).

  Lemma slo_nonneg n i : 0 <= i -> Z.of_nat (slice_lo n i) = Z.min i (Z.of_nat n).
  Proof. intro H. unfold slice_lo. destruct (Z.ltb_spec i 0); lia. Qed.
  Lemma slice_len {A} (s : list A) i : 0 <= i -> Z.of_nat (length (slice s i (i + 1))) = if i <? Z.of_nat (length s) then 1 else 0.
  Proof.
    intro H. unfold slice. rewrite firstn_length, skipn_length. pose proof (slo_nonneg (length s) i H).
    pose proof (slo_nonneg (length s) (i + 1) ltac:(lia)). destruct (Z.ltb_spec i (Z.of_nat (length s))); lia.
  Qed.
  Lemma from_len {A} (s : list A) i : 0 <= i -> Z.of_nat (length (slice_from s i)) = Z.max 0 (Z.of_nat (length s) - i).
  Proof. intro H. unfold slice_from. rewrite skipn_length. pose proof (slo_nonneg (length s) i H). lia. Qed.
  Lemma In_slice {A} (s : list A) i j x : In x (slice s i j) -> In x s.
  Proof.
    unfold slice. intro H. rewrite <- (firstn_skipn (slice_lo (length s) i) s). apply in_or_app. right.
    set (u := skipn (slice_lo (length s) i) s) in *. rewrite <- (firstn_skipn (slice_lo (length s) j - slice_lo (length s) i) u).
    apply in_or_app. now left.
  Qed.

  (** *** labels *)
  Lemma put_label_new ls : forall (s : list V) i v, ~ In i ls -> length ls = length s -> put_label ls s i v = (ls ++ [i], s ++ [v]).
  Proof.
    induction ls as [|l ls IH]; intros [|x s] i v H L; try discriminate; [reflexivity|]. cbn [put_label].
    destruct (Z.eqb_spec l i) as [->|]; [elim H; now left|]. rewrite IH; [reflexivity| |cbn in L; lia]. intro C. apply H. now right.
  Qed.
  Lemma put_label_old ls : forall (s : list V) i v k, nth_error ls k = Some i -> (forall j, (j < k)%nat -> nth_error ls j <> Some i) ->
    length ls = length s ->
    fst (put_label ls s i v) = ls /\ length (snd (put_label ls s i v)) = length s /\
    forall j, nth_error (snd (put_label ls s i v)) j = if (j =? k)%nat then Some v else nth_error s j.
  Proof.
    induction ls as [|l ls IH]; intros [|x s] i v k E M L; try discriminate; [now destruct k|]. cbn [put_label].
    destruct k as [|k].
    - cbn in E. injection E as ->. rewrite Z.eqb_refl. cbn [fst snd]. repeat split. now intros [|j].
    - destruct (Z.eqb_spec l i) as [->|]; [elim (M 0%nat); [lia|reflexivity]|]. cbn [fst snd].
      destruct (IH s i v k E) as (A & B & C).
      + intros j J. apply (M (S j)). lia.
      + cbn in L. lia.
      + rewrite A. cbn [length]. rewrite B. repeat split. intros [|j]; [reflexivity|]. cbn [nth_error]. apply C.
  Qed.
  Lemma put_nth_ok (s : list V) : forall k v, (k < length s)%nat -> exists s', put_nth s k v = Ok s' /\ length s' = length s /\
    forall j, nth_error s' j = if (j =? k)%nat then Some v else nth_error s j.
  Proof.
    induction s as [|x s IH]; intros [|k] v H; cbn in H; try lia.
    - exists (v :: s). repeat split. now intros [|j].
    - destruct (IH k v ltac:(lia)) as (s' & E & L & A). exists (x :: s'). cbn [put_nth bind]. rewrite E. cbn. repeat split; [now rewrite L|].
      intros [|j]; [reflexivity|]. apply A.
  Qed.
  Lemma put_nth_out (s : list V) : forall k v, (length s <= k)%nat -> put_nth s k v = Raise IndexError.
  Proof. induction s as [|x s IH]; intros [|k] v H; cbn in *; try lia; auto. rewrite IH by lia. reflexivity. Qed.

  (** [line[i] = v] on dates *)
  Lemma set_dates (a : line) i v k : (k < bars a)%nat -> i = Z.of_nat k \/ i = Z.of_nat k - Z.of_nat (bars a) ->
    exists b, line_set Dates a i v = Ok (Dates, b) /\ lmp b = lmp a /\ bars b = bars a /\
      forall j, nth_error (lser b) j = if (j =? k)%nat then Some v else nth_error (lser a) j.
  Proof.
    intros K I. unfold bars in *. unfold line_set, set_item, put_pos.
    assert (E : (if i <? 0 then Z.of_nat (length (lser a)) + i else i) = Z.of_nat k).
    { destruct (Z.ltb_spec i 0), I; lia. }
    rewrite E. destruct (Z.ltb_spec (Z.of_nat k) 0); [lia|]. rewrite Nat2Z.id.
    destruct (put_nth_ok (lser a) k v K) as (s' & -> & L & A). exists (mkLine (lmp a) s'). cbn [bind fst snd lmp lser]. auto.
  Qed.
  Lemma set_dates_out (a : line) i v : i < - Z.of_nat (bars a) \/ Z.of_nat (bars a) <= i -> line_set Dates a i v = Raise IndexError.
  Proof.
    intros I. unfold bars in *. unfold line_set, set_item, put_pos. destruct (Z.ltb_spec i 0).
    - destruct (Z.ltb_spec (Z.of_nat (length (lser a)) + i) 0); [reflexivity|lia].
    - destruct (Z.ltb_spec i 0); [lia|]. rewrite put_nth_out by lia. reflexivity.
  Qed.
  (** ... on integers *)
  Lemma set_label ls (a : line) i v k : length ls = bars a -> NoDup ls -> nth_error ls k = Some i ->
    exists b, line_set (Ints ls) a i v = Ok (Ints ls, b) /\ lmp b = lmp a /\ bars b = bars a /\
      forall j, nth_error (lser b) j = if (j =? k)%nat then Some v else nth_error (lser a) j.
  Proof.
    intros L D E. assert (M : forall j, (j < k)%nat -> nth_error ls j <> Some i).
    { intros j J C. rewrite NoDup_nth_error in D. specialize (D j k). rewrite C, E in D.
      assert (j = k); [|lia]. apply D; [|reflexivity]. apply nth_error_Some. congruence. }
    destruct (put_label_old ls (lser a) i v k E M L) as (A & B & C). unfold line_set, set_item. cbn [bind fst snd].
    rewrite A. eexists. split; [reflexivity|]. cbn [lmp lser]. auto.
  Qed.
  Lemma set_label_new ls (a : line) i v : length ls = bars a -> ~ In i ls ->
    line_set (Ints ls) a i v = Ok (Ints (ls ++ [i]), mkLine (lmp a) (lser a ++ [v])).
  Proof. intros L H. unfold line_set, set_item. cbn [bind]. rewrite put_label_new by auto. reflexivity. Qed.
  Lemma default_labels n k : (k < n)%nat -> nth_error (map Z.of_nat (seq 0 n)) k = Some (Z.of_nat k).
  Proof.
    intro H. apply map_nth_error. rewrite nth_error_nth' with (d := 0%nat) by now rewrite seq_length. now rewrite seq_nth.
  Qed.
  Lemma default_In n i : In i (map Z.of_nat (seq 0 n)) <-> 0 <= i < Z.of_nat n.
  Proof.
    rewrite in_map_iff. split.
    - intros (k & <- & K). apply in_seq in K. lia.
    - intro H. exists (Z.to_nat i). rewrite in_seq. lia.
  Qed.
  Lemma default_NoDup n : NoDup (map Z.of_nat (seq 0 n)).
  Proof. apply Injective_map_NoDup; [intros x y; lia|apply seq_NoDup]. Qed.
  Lemma default_length n : length (map Z.of_nat (seq 0 n)) = n.
  Proof. now rewrite map_length, seq_length. Qed.

  (** *** the seed *)
  Definition seeded (sd : seed) : bool := match sd with SEED_NONE | SEED_ZFILL => false | _ => true end.
  Section Ewm.
    Variables (a : line) (pval po pe alp : Z) (sd : seed) (F : list V -> res (list V)).
    Hypothesis Hmp : 1 <= lmp a.
    Hypothesis Hpv : pe + 1 <= pval.
    Hypothesis Hpe : 0 <= pe.
    Hypothesis Hpo : po = 0 \/ pe + 1 <= po.
    Let po1 := if po =? 0 then pval else po.
    Let po2 := if negb (pval =? 0) && (po1 <? alp) then po1 + (alp - po1 - 1) else po1.
    (** the bar of the first result *)
    Definition first_bar : Z := lmp a - 1 + po2 - pe - 1.
    Lemma first_nonneg : 0 <= first_bar.
    Proof.
      unfold first_bar, po2, po1. destruct (Z.eqb_spec po 0), (Z.eqb_spec pval 0); cbn [negb andb];
        try destruct (Z.ltb_spec pval alp); try destruct (Z.ltb_spec po alp); lia.
    Qed.
    Lemma prefix_len ix : match ix with Ints ls => length ls = bars a | _ => True end -> 0 <= first_bar ->
      match index_slice ix first_bar (first_bar + 1) with
      | Dates => True
      | Ints ls => length ls = length (slice (lser a) first_bar (first_bar + 1)) end.
    Proof.
      destruct ix as [|ls]; [easy|]. intros L H. cbn [index_slice]. pose proof (slice_len ls first_bar H) as A.
      pose proof (slice_len (lser a) first_bar H) as B. unfold bars in L. rewrite L in A. lia.
    Qed.
    Lemma ewm_unfold ix : ewm_any ix a pval po pe alp sd F =
      (pre <- match sd with
              | SEED_AVG => r <- set_item (index_slice ix first_bar (first_bar + 1)) (map (fun _ => vnan) (slice (lser a) first_bar (first_bar + 1))) (-1)
                              (ser_mean (slice (lser a) (first_bar + 1 - pval) (first_bar + 1))) ;; Ok (snd r)
              | SEED_LAST => v <- get_item ix (lser a) first_bar ;;
                             r <- set_item (index_slice ix first_bar (first_bar + 1)) (map (fun _ => vnan) (slice (lser a) first_bar (first_bar + 1))) (-1) v ;; Ok (snd r)
              | SEED_SUM => r <- set_item (index_slice ix first_bar (first_bar + 1)) (map (fun _ => vnan) (slice (lser a) first_bar (first_bar + 1))) (-1)
                              (ser_sum (slice (lser a) (first_bar + 1 - pval) (first_bar + 1))) ;; Ok (snd r)
              | SEED_NONE => Ok (map (fun _ => vnan) (slice (lser a) first_bar (first_bar + 1)))
              | SEED_ZERO => r <- set_item (index_slice ix first_bar (first_bar + 1)) (map (fun _ => vnan) (slice (lser a) first_bar (first_bar + 1))) (-1) v0 ;; Ok (snd r)
              | SEED_ZFILL => Ok (map (fun _ => v0) (map (fun _ => vnan) (slice (lser a) first_bar (first_bar + 1))))
              end ;;
       r <- F (pre ++ slice_from (lser a) (first_bar + 1)) ;;
       place (bars a) (lmp a) (Z.max (lmp a + (pval - pe - 1)) alp) first_bar r).
    Proof.
      unfold ewm_any. cbv zeta. fold po1. fold po2.
      replace (lmp a - 1 + po2 - pe - 1) with first_bar by reflexivity.
      replace (lmp a - 1 + po2 - pe) with (first_bar + 1) by (unfold first_bar; lia). reflexivity.
    Qed.

    (** an integer index without -1 *)
    Lemma ewm_ints ls : length ls = bars a -> ~ In (-1) ls -> (1 <= bars a)%nat -> seeded sd = true ->
      (forall s, Z.of_nat (length s) = 1 + Z.max 0 (Z.of_nat (bars a) - first_bar) -> exists r, F s = Ok r /\ length r = length s) ->
      ewm_any (Ints ls) a pval po pe alp sd F =
        Raise (match sd with SEED_LAST => (if existsb (Z.eqb first_bar) ls then ValueError else KeyError) | _ => ValueError end).
    Proof.
      intros L H NE S HF. pose proof first_nonneg as P. rewrite ewm_unfold. pose proof (prefix_len (Ints ls) L P) as PL. cbn [index_slice] in *.
      set (pl := slice ls first_bar (first_bar + 1)) in *.
      assert (HN : ~ In (-1) pl) by (intro C; apply In_slice in C; auto).
      assert (K : forall v, set_item (Ints pl) (map (fun _ => vnan) (slice (lser a) first_bar (first_bar + 1))) (-1) v =
        Ok (Ints (pl ++ [-1]), map (fun _ => vnan) (slice (lser a) first_bar (first_bar + 1)) ++ [v])).
      { intro v. unfold set_item. rewrite put_label_new; [reflexivity|exact HN|]. now rewrite map_length. }
      assert (T : forall v, (r <- F ((map (fun _ => vnan) (slice (lser a) first_bar (first_bar + 1)) ++ [v]) ++ slice_from (lser a) (first_bar + 1)) ;;
          place (bars a) (lmp a) (Z.max (lmp a + (pval - pe - 1)) alp) first_bar r) = Raise ValueError).
      { intro v. match goal with |- context [F ?x] => destruct (HF x) as (r & -> & LR) end.
        { rewrite !app_length, map_length. cbn [length]. pose proof (slice_len (lser a) first_bar P).
          pose proof (from_len (lser a) (first_bar + 1) ltac:(lia)). unfold bars. destruct (Z.ltb_spec first_bar (Z.of_nat (length (lser a)))); lia. }
        cbn [bind]. unfold place, put.
        destruct (Nat.eqb_spec (bars a) 0); [lia|]. destruct (Z.ltb_spec first_bar 0); [lia|].
        rewrite !app_length, map_length in LR. cbn [length] in LR. pose proof (slice_len (lser a) first_bar P).
        pose proof (from_len (lser a) (first_bar + 1) ltac:(lia)). fold (bars a) in *.
        match goal with |- context [?x =? ?y] => destruct (Z.eqb_spec x y) as [E|E] end; [|reflexivity].
        destruct (Z.ltb_spec first_bar (Z.of_nat (bars a))); lia. }
      assert (G : get_item (Ints ls) (lser a) first_bar = Raise KeyError /\ existsb (Z.eqb first_bar) ls = false \/
                  exists v, get_item (Ints ls) (lser a) first_bar = Ok v /\ existsb (Z.eqb first_bar) ls = true).
      { cbn [get_item]. unfold bars in L. revert L. clear. generalize (lser a) as s. generalize first_bar as i. intro i.
        induction ls as [|l ls IH]; intros [|x s] L; try discriminate; [left; auto|]. cbn [at_label existsb]. rewrite (Z.eqb_sym i l).
        destruct (l =? i); [right; now exists x|]. cbn [orb]. apply IH. cbn in L. lia. }
      destruct sd; try discriminate; rewrite ?K; cbn [bind snd]; try apply T.
      destruct G as [[-> ->]|(v & -> & ->)]; [reflexivity|]. cbn [bind]. rewrite K. cbn [bind snd]. apply T.
    Qed.

    (** without a seed value every index gives the same *)
    Lemma ewm_unseeded ix : seeded sd = false -> ewm_any ix a pval po pe alp sd F = ewm_any Dates a pval po pe alp sd F.
    Proof. intro S. rewrite !ewm_unfold. destruct sd; try discriminate; reflexivity. Qed.

    (** dates and enough bars: the model of Line.v *)
    Lemma slice_one {A} (s : list A) i : 0 <= i < Z.of_nat (length s) -> exists x, slice s i (i + 1) = [x] /\ getitem s i = Ok x.
    Proof.
      intros I. pose proof (slice_len s i ltac:(lia)) as L. destruct (Z.ltb_spec i (Z.of_nat (length s))); [|lia].
      unfold getitem. cbv zeta. destruct (Z.ltb_spec i 0); [lia|]. destruct (Z.ltb_spec i 0); [lia|].
      unfold slice in *. pose proof (slo_nonneg (length s) i ltac:(lia)) as E. replace (slice_lo (length s) i) with (Z.to_nat i) in * by lia.
      destruct (nth_error s (Z.to_nat i)) as [x|] eqn:X.
      2:{ apply nth_error_None in X. lia. }
      exists x. split; [|reflexivity]. apply nth_error_split in X. destruct X as (l1 & l2 & -> & L1). rewrite <- L1 in *.
      rewrite skipn_app, skipn_all, Nat.sub_diag in *. cbn [app] in *. change (skipn 0 (x :: l2)) with (x :: l2) in *.
      rewrite firstn_length in L. cbn [length] in L.
      match type of L with context [Nat.min ?q _] => set (m := q) in * end. clearbody m.
      assert (M : m = 1%nat \/ l2 = []) by (destruct l2; cbn [length] in L; [now right|left; lia]).
      destruct M as [->| ->]; [reflexivity|]. cbn [length] in L. destruct m as [|m]; [cbn in L; lia|]. now destruct m.
    Qed.
    Lemma ewm_dates0 : 0 <= first_bar -> first_bar < Z.of_nat (bars a) -> (forall s r, F s = Ok r -> length r = length s) ->
      ewm_any Dates a pval po pe alp sd F = ewm_call a pval po pe alp sd F.
    Proof.
      clear Hpv Hpe Hpo. intros P B HF. rewrite ewm_unfold. unfold ewm_call, mf_ewm. cbv zeta. fold po1. fold po2.
      replace (lmp a - 1 + po2 - pe - 1) with first_bar by reflexivity.
      replace (lmp a - 1 + po2 - pe) with (first_bar + 1) by (unfold first_bar; lia).
      destruct (slice_one (lser a) first_bar (conj P B)) as (x & EX & EG). rewrite EX. cbn [map rev index_slice]. cbn [get_item]. rewrite EG.
      assert (T : forall v, (r <- F ([v] ++ slice_from (lser a) (first_bar + 1)) ;;
          place (bars a) (lmp a) (Z.max (lmp a + (pval - pe - 1)) alp) first_bar r) =
         snd (mf_call (mkMfo a (lmp a) (Some pval) pe alp first_bar ([v] ++ slice_from (lser a) (first_bar + 1))) F)).
      { intro v. unfold mf_call. cbn [snd mf_line mf_mp mf_pval mf_pearly mf_alphap mf_minidx mf_trailer].
        destruct (F ([v] ++ slice_from (lser a) (first_bar + 1))) as [r|] eqn:E; [|reflexivity]. cbn [bind]. apply HF in E.
        rewrite app_length in E. cbn [length] in E. pose proof (from_len (lser a) (first_bar + 1) ltac:(lia)) as FL. fold (bars a) in FL.
        unfold place, put. destruct (Nat.eqb_spec (bars a) 0); [lia|]. destruct (Z.ltb_spec first_bar 0); [lia|].
        match goal with |- context [?u =? ?w] => destruct (Z.eqb_spec u w) as [|NE] end; [|lia]. reflexivity. }
      destruct sd; cbn [set_item put_pos length Z.of_nat put_nth bind snd app rev]; apply T.
    Qed.
    Lemma ewm_dates : first_bar < Z.of_nat (bars a) -> (forall s r, F s = Ok r -> length r = length s) ->
      ewm_any Dates a pval po pe alp sd F = ewm_call a pval po pe alp sd F.
    Proof. exact (ewm_dates0 first_nonneg). Qed.
    Lemma ewm_sized0 y : 1 <= Z.max (lmp a + (pval - pe - 1)) alp -> 0 <= first_bar -> first_bar < Z.of_nat (bars a) ->
      ewm_any Dates a pval po pe alp sd F = Ok y -> bars y = bars a /\ lmp y = Z.max (lmp a + (pval - pe - 1)) alp.
    Proof.
      clear Hmp Hpv Hpe Hpo. intros M P B. rewrite ewm_unfold. intro H. apply bind_ok in H. destruct H as (pre & _ & H).
      apply bind_ok in H. destruct H as (r & _ & H). unfold place, put in H.
      destruct (Nat.eqb_spec (bars a) 0) as [Z0|NZ]; [lia|]. destruct (Z.ltb_spec first_bar 0); [lia|].
      match type of H with context [?u =? ?w] => destruct (Z.eqb_spec u w) as [E|NE] end; [|discriminate]. cbn [bind] in H.
      destruct (Z.eqb_spec (Z.max (lmp a + (pval - pe - 1)) alp) 0); [lia|]. injection H as <-. split; [|reflexivity].
      unfold bars at 1. cbn [lser]. rewrite set_from_length; rewrite repeat_length; [reflexivity|].
      pose proof (slo_nonneg (bars a) first_bar P). lia.
    Qed.
  End Ewm.

  (** *** averages *)
  Lemma ewma_from_len al adj (s : list V) : forall wa o, length (ewma_from al adj wa o s) = length s.
  Proof.
    induction s as [|x s IH]; intros wa o; [reflexivity|]. cbn [ewma_from].
    match goal with |- context [let '(_, _) := ?z in _] => destruct z end. cbn [length]. now rewrite IH.
  Qed.
  Lemma ser_ewma_len al adj (s : list V) : length (ser_ewma al adj s) = length s.
  Proof. unfold ser_ewma. rewrite <- (map_length prep s). destruct (map prep s); [reflexivity|]. cbn [length]. now rewrite ewma_from_len. Qed.
  (** what an average does on a frame with the index [ix] *)
  Definition refuses (ma : ma_fun V) (p : nat) (n : nat) : Prop := forall a, bars a = n -> 1 <= lmp a -> ma p a = Raise ValueError.
  Lemma ema_refuses sd po n p : (1 <= n)%nat -> (1 <= p)%nat -> (po = 0 \/ 1 <= po) -> sd = SEED_AVG \/ sd = SEED_SUM \/ sd = SEED_ZERO ->
    refuses (ema_any (default_index n) sd po) p n.
  Proof.
    intros Hn Hp Hpo Hsd a B M. unfold ema_any, default_index. rewrite ewm_ints; try lia.
    - destruct Hsd as [-> | [-> | ->]]; reflexivity.
    - now rewrite default_length.
    - rewrite default_In. lia.
    - destruct Hsd as [-> | [-> | ->]]; reflexivity.
    - intros s _. eexists. split; [reflexivity|]. apply ser_ewma_len.
  Qed.
  Lemma smma_refuses sd n p : (1 <= n)%nat -> (1 <= p)%nat -> sd = SEED_AVG \/ sd = SEED_SUM \/ sd = SEED_ZERO ->
    refuses (smma_any (default_index n) sd) p n.
  Proof.
    intros Hn Hp Hsd a B M. unfold smma_any, default_index. rewrite ewm_ints; try lia.
    - destruct Hsd as [-> | [-> | ->]]; reflexivity.
    - now rewrite default_length.
    - rewrite default_In. lia.
    - destruct Hsd as [-> | [-> | ->]]; reflexivity.
    - intros s _. eexists. split; [reflexivity|]. apply ser_ewma_len.
  Qed.
  Lemma refuses_dema ma p n a : refuses ma p n -> bars a = n -> 1 <= lmp a -> dema ma p a = Raise ValueError.
  Proof. intros R B M. unfold dema. now rewrite R. Qed.
  Lemma refuses_tema ma p n a : refuses ma p n -> bars a = n -> 1 <= lmp a -> tema ma p a = Raise ValueError.
  Proof. intros R B M. unfold tema. now rewrite R. Qed.
  Lemma refuses_macd ma sig pf ps k n a : refuses ma pf n -> bars a = n -> 1 <= lmp a -> macd ma sig pf ps k a = Raise ValueError.
  Proof. intros R B M. unfold macd, macd_from. now rewrite R. Qed.
  Lemma refuses_ppo ma sig pf ps k n a : refuses ma pf n -> bars a = n -> 1 <= lmp a -> ppo ma sig pf ps k a = Raise ValueError.
  Proof. intros R B M. unfold ppo, ppo_from, posc. now rewrite R. Qed.
  Lemma refuses_apo ma pf ps n a : refuses ma pf n -> bars a = n -> 1 <= lmp a -> apo ma pf ps a = Raise ValueError.
  Proof. intros R B M. unfold apo, posc. now rewrite R. Qed.
  Lemma refuses_trix ma p n a : refuses ma p n -> bars a = n -> 1 <= lmp a -> trix ma p a = Raise ValueError.
  Proof. intros R B M. unfold trix. now rewrite R. Qed.

  (** the operators keep the number of bars *)
  Definition sized (n : nat) (a : line) : Prop := bars a = n /\ 1 <= lmp a.
  Lemma clone_sized n (a : line) (s : list V) mp : 1 <= mp -> length s = n -> sized n (clone a s mp).
  Proof. intros M L. unfold clone, sized, bars. cbn [lmp lser]. destruct (Z.eqb_spec mp 0); [lia|auto]. Qed.
  Lemma fill_length n mi (r : list V) : length r = (n - slice_lo n mi)%nat -> length (set_from (nans n) mi r) = n.
  Proof. intro H. unfold nans. rewrite set_from_length; rewrite repeat_length; auto. Qed.
  Lemma map2_len {A B C} (f : A -> B -> C) (x : list A) (y : list B) : length x = length y -> length (map2 f x y) = length x.
  Proof. revert y. induction x as [|a x IH]; intros [|b y] H; try discriminate; [reflexivity|]. cbn in *. now rewrite IH by lia. Qed.
  Lemma binop_sized op n a b : sized n a -> sized n b -> sized n (binop op a b).
  Proof.
    intros [A A'] [B B']. unfold bars in *. unfold binop. apply clone_sized; [lia|]. unfold bars. rewrite A. apply fill_length.
    rewrite map2_len; rewrite !slice_length; rewrite ?A, ?B; reflexivity.
  Qed.
  Lemma rbinop_sized op n c a : sized n a -> sized n (rbinop_s op c a).
  Proof. intros [A A']. unfold bars in *. unfold rbinop_s. apply clone_sized; [lia|]. unfold bars. rewrite A. apply fill_length. now rewrite map_length, slice_length, A. Qed.
  Lemma stdop_sized f n a : (forall s, length (f s) = length s) -> sized n a -> sized n (stdop f a).
  Proof. intros F [A A']. unfold bars in *. unfold stdop. apply clone_sized; [lia|]. unfold bars. rewrite A. apply fill_length. now rewrite F, slice_length, A. Qed.
  Lemma clip_lo_sized n a t : sized n a -> sized n (lclip_lo a t).
  Proof. intros [A A']. unfold bars in *. unfold lclip_lo. apply clone_sized; [lia|]. unfold bars. rewrite A. apply fill_length. now rewrite map_length, slice_length, A. Qed.
  Lemma clip_hi_sized n a t : sized n a -> sized n (lclip_hi a t).
  Proof. intros [A A']. unfold bars in *. unfold lclip_hi. apply clone_sized; [lia|]. unfold bars. rewrite A. apply fill_length. now rewrite map_length, slice_length, A. Qed.
  Lemma clip_lo_l_sized n a b : sized n a -> sized n b -> sized n (lclip_lo_l a b).
  Proof.
    intros [A A'] [B B']. unfold bars in *. unfold lclip_lo_l, stdop2. apply clone_sized; [lia|]. unfold bars. rewrite A. apply fill_length.
    rewrite map2_len; rewrite !slice_length; rewrite ?A, ?B; reflexivity.
  Qed.
  Lemma clip_hi_l_sized n a b : sized n a -> sized n b -> sized n (lclip_hi_l a b).
  Proof.
    intros [A A'] [B B']. unfold bars in *. unfold lclip_hi_l, stdop2. apply clone_sized; [lia|]. unfold bars. rewrite A. apply fill_length.
    rewrite map2_len; rewrite !slice_length; rewrite ?A, ?B; reflexivity.
  Qed.
  Lemma kw_sized f n a p : (forall s q, length (f s q) = length s) -> 0 <= p -> sized n a -> sized n (kwop_p f a p).
  Proof.
    intros F P [A A']. unfold kwop_p. unfold sized, bars, clone. cbn [lmp lser]. unfold bars in A |- *. destruct (Z.eqb_spec (lmp a) 0); [lia|]. split; [|lia].
    rewrite A. apply fill_length. now rewrite F, slice_length, A.
  Qed.
  Lemma diff_sized n a p : 0 <= p -> sized n a -> sized n (diff a p).
  Proof. intros P A. apply kw_sized; auto. intros s q. unfold ser_diff. now rewrite map2_len by now rewrite ser_shift_length. Qed.
  Lemma ago_sized n a p : 0 <= p -> sized n a -> sized n (at_ago a (- p)).
  Proof.
    intros P [A A']. unfold at_ago. destruct (Z.eqb_spec (- p) 0).
    - split; cbn; [|exact A']. unfold bars. cbn. now rewrite repeat_length.
    - apply kw_sized; [apply ser_shift_length|lia|now split].
  Qed.
  Lemma cumsum_len (s : list V) : forall acc, length (cumsum_from acc s) = length s.
  Proof. induction s as [|x s IH]; intro acc; [reflexivity|]. cbn. destruct (visnan x); cbn; now rewrite IH. Qed.

  Lemma refuses_rsi ma p k n a : refuses ma p n -> sized n a -> rsi ma p k a = Raise ValueError.
  Proof. intros R B. unfold rsi. assert (S : sized n (updays k a)) by (apply clip_lo_sized, diff_sized; [lia|auto]). destruct S. now rewrite R. Qed.
  Lemma refuses_atr ma p k n h l c : refuses ma p n -> sized n h -> sized n l -> sized n c ->
    atr ma p k h l c = Raise ValueError /\ natr ma p k h l c = Raise ValueError.
  Proof.
    intros R H L C. assert (S : sized n (truerange k h l c)).
    { unfold truerange, lsub. apply binop_sized; [apply clip_lo_l_sized|apply clip_hi_l_sized]; auto; apply ago_sized; auto; lia. }
    destruct S. unfold natr, atr. now rewrite R.
  Qed.
  Lemma refuses_adosc ma pf ps n h l c v : refuses ma pf n -> sized n h -> sized n l -> sized n c -> sized n v -> adosc ma pf ps h l c v = Raise ValueError.
  Proof.
    intros R H L C W. assert (S : sized n (ad h l c v)).
    { unfold ad, lsub, ldiv, lmul. cbv zeta. apply stdop_sized; [intro s; apply cumsum_len|].
      repeat apply binop_sized; auto using rbinop_sized. }
    destruct S. unfold adosc. cbv zeta. now rewrite R.
  Qed.

  (** *** directional movement, kama, mama *)
  Lemma lfilter_len al be (s : list V) : length (lfilter al be s) = length s.
  Proof.
    assert (H : forall b z t, length (lfilter_from al b z t) = length t).
    { intros b z t. revert z. induction t as [|x t IH]; intro z; [reflexivity|]. cbn. now rewrite IH. }
    unfold lfilter. rewrite <- (map_length prep s). destruct (map prep s); [reflexivity|]. rewrite H. reflexivity.
  Qed.
  Lemma smacc_refuses sd (pe : bool) n p : (1 <= n)%nat -> (1 <= p)%nat -> (pe = true -> (2 <= p)%nat) ->
    sd = SEED_AVG \/ sd = SEED_SUM \/ sd = SEED_ZERO -> refuses (fun q => smacc_any (default_index n) q pe sd) p n.
  Proof.
    intros Hn Hp Hpe Hsd a B M. assert (G : 0 <= (if pe then 1 else 0) /\ (if pe then 1 else 0) + 1 <= Z.of_nat p).
    { destruct pe; [specialize (Hpe eq_refl)|]; lia. }
    unfold smacc_any, default_index. rewrite ewm_ints; try lia.
    - destruct Hsd as [-> | [-> | ->]]; reflexivity.
    - now rewrite default_length.
    - rewrite default_In. lia.
    - destruct Hsd as [-> | [-> | ->]]; reflexivity.
    - intros s _. eexists. split; [reflexivity|]. apply lfilter_len.
  Qed.
  Lemma dyn_len (s : list V) : forall prev al, (length al <= length s)%nat -> exists r, dyn_from prev al s = Ok r /\ length r = length s.
  Proof.
    induction s as [|x s IH]; intros prev [|a al] H; cbn in H; try lia; cbn [dyn_from]; [now eexists|now eexists|].
    destruct (IH (vadd prev (vmul a (vsub x prev))) al ltac:(lia)) as (r & -> & L). cbn [bind]. eexists. split; [reflexivity|]. cbn. now rewrite L.
  Qed.
  Lemma dyn_mean_len al (s : list V) : (length al < length s)%nat -> exists r, dyn_mean al s = Ok r /\ length r = length s.
  Proof.
    intro H. unfold dyn_mean. rewrite <- (map_length prep s) in *. destruct (map prep s) as [|x t]; cbn [length] in *; [lia|].
    destruct (dyn_len t x al ltac:(lia)) as (r & -> & L). cbn [bind]. eexists. split; [reflexivity|]. cbn. now rewrite L.
  Qed.
  Lemma dyn_refuses (a al : line) sd n p : (1 <= n)%nat -> bars a = n -> lmp a = 1 -> bars al = n -> 1 <= p < lmp al ->
    seeded sd = true ->
    ewm_any (default_index n) a p 0 0 (lmp al) sd (dyn_mean (slice_from (lser al) (lmp al - 1))) =
      Raise (match sd with SEED_LAST => if lmp al - 2 <? Z.of_nat n then ValueError else KeyError | _ => ValueError end).
  Proof.
    intros Hn B M C P S. assert (FB : first_bar a p 0 0 (lmp al) = lmp al - 2).
    { unfold first_bar. cbv zeta. destruct (Z.eqb_spec 0 0); [|lia]. destruct (Z.eqb_spec p 0); [lia|]. cbn [negb andb].
      destruct (Z.ltb_spec p (lmp al)); lia. }
    unfold default_index. rewrite ewm_ints; try lia; try assumption.
    - rewrite FB. destruct sd; try reflexivity.
      match goal with |- context [existsb ?f ?l] => destruct (existsb f l) eqn:E end.
      + apply existsb_exists in E. destruct E as (x & X & E). apply default_In in X. apply Z.eqb_eq in E.
        destruct (Z.ltb_spec (lmp al - 2) (Z.of_nat n)); [reflexivity|lia].
      + destruct (Z.ltb_spec (lmp al - 2) (Z.of_nat n)) as [L|L]; [|reflexivity].
        assert (T : existsb (Z.eqb (lmp al - 2)) (map Z.of_nat (seq 0 n)) = true); [|congruence].
        apply existsb_exists. exists (lmp al - 2). split; [apply default_In; lia|apply Z.eqb_refl].
    - now rewrite default_length.
    - rewrite default_In. lia.
    - rewrite FB. intros s L. apply dyn_mean_len. pose proof (from_len (lser al) (lmp al - 1) ltac:(lia)) as F. fold (bars al) in F. lia.
  Qed.

  Lemma line_get_last (b : line) k x : bars b = S k -> nth_error (lser b) k = Some x -> line_get b (-1) = Ok x.
  Proof.
    intros B E. unfold line_get, getitem. unfold bars in B. rewrite B. cbv zeta. change (-1 <? 0) with true. cbv iota.
    replace (-1 + Z.of_nat (S k)) with (Z.of_nat k) by lia. replace (Z.of_nat (S k) + -1) with (Z.of_nat k) by lia.
    destruct (Z.ltb_spec (Z.of_nat k) 0); [lia|]. now rewrite Nat2Z.id, E.
  Qed.
End Facts.
Lemma set_last_bar (V : Type) (a : line V) (v : V) : (1 <= bars a)%nat ->
    (exists b, line_set Dates a (-1) v = Ok (Dates, b) /\ bars b = bars a /\ line_get b (-1) = Ok v) /\
    (exists ix b, line_set (default_index (bars a)) a (-1) v = Ok (ix, b) /\ bars b = S (bars a) /\ line_get b (-1) = Ok v /\
       forall j, (j < bars a)%nat -> nth_error (lser b) j = nth_error (lser a) j).
Proof.
  intro H. destruct (bars a) as [|k] eqn:B; [lia|]. split.
  - destruct (set_dates a (-1) v k) as (b & E & _ & L & P); [lia|right; lia|]. exists b. split; [exact E|]. split; [lia|].
    apply line_get_last with (k := k); [lia|]. rewrite P, Nat.eqb_refl. reflexivity.
  - do 2 eexists. split.
    + unfold default_index. apply set_label_new; [rewrite default_length; auto|]. rewrite default_In. lia.
    + unfold bars in *. cbn [lser]. rewrite app_length. cbn [length]. split; [lia|]. split.
      * apply line_get_last with (k := S k).
        -- unfold bars. cbn [lser]. rewrite app_length. cbn. lia.
        -- cbn [lser]. rewrite nth_error_app2 by lia. now rewrite B, Nat.sub_diag.
      * intros j J. apply nth_error_app1. lia.
Qed.
