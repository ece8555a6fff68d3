(** The running total against the windows. *)
From Coq Require Import ZArith Reals List Bool Lia Lra.
From Verif Require Import Num Series Line Spec LineFacts RFacts RLineFacts IndMA IndBasic IndOsc Running.
Import ListNotations.
Set Implicit Arguments.

Section Slide.
  Context {V : Type} {N : Num V}.
  (** the windows the loop goes through *)
  Fixpoint wins (cnt : nat) (win new : list V) : list (list V) :=
    match new with
    | [] => []
    | x :: new' =>
        let w' := match cnt with S _ => win ++ [x] | O => tl (win ++ [x]) end in
        w' :: wins (pred cnt) w' new'
    end.
  Lemma run_slide (calc : rstate V -> V) (Q : V -> Prop) (P : rstate V -> list V -> Prop) w :
    1 <= w ->
    (forall st win x, Q x -> P st win -> P (r_add x st) (win ++ [x])) ->
    (forall st y win, Q y -> P st (y :: win) -> P (r_rem y st) win) ->
    forall new win cnt st, Forall Q win -> Forall Q new -> cnt + length win = w -> P st win ->
    Forall2 (fun v l => exists st, P st l /\ v = calc st) (run_from calc cnt st (win ++ new) new) (wins cnt win new).
  Proof.
    intros Hw Ha Hr. induction new as [|x new IH]; intros win cnt st Qw Qn Hl Hp; cbn; [constructor|].
    pose proof (Forall_inv Qn) as Qx. pose proof (Forall_inv_tail Qn) as Qn'. assert (Qwx : Forall Q (win ++ [x])) by (apply Forall_app; auto).
    destruct cnt as [|c].
    - destruct win as [|y win]; cbn in Hl; [lia|]. cbn [app tl] in *. pose proof (Forall_inv Qw) as Qy. pose proof (Forall_inv_tail Qwx) as Qwx'. constructor.
      + eexists. split; [|reflexivity]. apply Hr; [exact Qy|]. apply (Ha st (y :: win) x Qx Hp).
      + cbn [pred]. replace (win ++ x :: new) with ((win ++ [x]) ++ new) by (rewrite <- app_assoc; reflexivity).
        apply IH; [exact Qwx'|exact Qn'|rewrite app_length; cbn; lia|]. apply Hr; [exact Qy|]. apply (Ha st (y :: win) x Qx Hp).
    - constructor.
      + eexists. split; [|reflexivity]. now apply Ha.
      + cbn [pred]. replace (win ++ x :: new) with ((win ++ [x]) ++ new) by (rewrite <- app_assoc; reflexivity).
        apply IH; [exact Qwx|exact Qn'|rewrite app_length; cbn; lia|]. now apply Ha.
  Qed.
  (** window [i] holds the last [w] of the first [i + 1] values *)
  Lemma wins_nth w : 1 <= w -> forall new win cnt, cnt + length win = w ->
    forall i l, nth_error (wins cnt win new) i = Some l ->
    l = skipn (length win + S i - w) (firstn (length win + S i) (win ++ new)).
  Proof.
    intro Hw. induction new as [|x new IH]; intros win cnt Hl i l E; cbn in E; [destruct i; discriminate|].
    set (w' := match cnt with S _ => win ++ [x] | O => tl (win ++ [x]) end) in *.
    destruct i as [|i]; cbn in E.
    - injection E as <-. rewrite firstn_app, firstn_all2 by lia. replace (length win + 1 - length win) with 1 by lia. cbn [firstn].
      unfold w'. destruct cnt as [|c].
      + replace (length win + 1 - w) with 1 by lia. reflexivity.
      + replace (length win + 1 - w) with 0 by lia. reflexivity.
    - assert (L : length w' = match cnt with S _ => S (length win) | O => length win end).
      { unfold w'. destruct cnt as [|c]; [destruct win; cbn in *; [lia|]; rewrite app_length; cbn; lia|rewrite app_length; cbn; lia]. }
      rewrite (IH w' (pred cnt)) with (i := i) (l := l); [|destruct cnt; cbn in *; lia|exact E].
      rewrite L. clear L. unfold w'. destruct cnt as [|c].
      + destruct win as [|y win]; [cbn in *; lia|]. cbn [app tl length] in *.
        replace (S (length win) + S (S i) - w) with (S (S i)) by lia. replace (S (length win) + S i - w) with (S i) by lia.
        replace (S (length win) + S (S i)) with (S (S (length win) + S i)) by lia. cbn [firstn].
        change (skipn (S (S i)) (y :: ?l)) with (skipn (S i) l). rewrite <- app_assoc. reflexivity.
      + rewrite <- app_assoc. cbn [app]. f_equal; [lia|f_equal; lia].
  Qed.
  Lemma wins_length cnt win new : length (wins cnt win new) = length new.
  Proof. revert cnt win. induction new; intros; cbn; [reflexivity|]. now rewrite IHnew. Qed.
  Lemma run_length calc new : forall cnt st old, length (run_from (V := V) calc cnt st old new) = length new.
  Proof. induction new as [|x new IH]; intros; cbn; [reflexivity|]. destruct cnt; [destruct old|]; cbn; now rewrite IH. Qed.

  Lemma running_nth (calc : rstate V -> V) (Q : V -> Prop) (P : rstate V -> list V -> Prop) w s i v :
    1 <= w -> Forall Q (map prep s) -> P r_start [] ->
    (forall st win x, Q x -> P st win -> P (r_add x st) (win ++ [x])) ->
    (forall st y win, Q y -> P st (y :: win) -> P (r_rem y st) win) ->
    nth_error (ser_running calc w s) i = Some v ->
    exists st, P st (skipn (S i - w) (firstn (S i) (map prep s))) /\ v = calc st.
  Proof.
    intros Hw HQ P0 Ha Hr E. unfold ser_running in E. set (s' := map prep s) in *.
    pose proof (@run_slide calc Q P w Hw Ha Hr s' [] w r_start (Forall_nil _) HQ ltac:(cbn; lia) P0) as F. cbn [app] in F.
    assert (G : exists l, nth_error (wins w [] s') i = Some l /\ exists st, P st l /\ v = calc st).
    { revert E. generalize dependent i. induction F as [|a b l l' Hab F IH]; intros [|i] E; cbn in *; try discriminate.
      - injection E as <-. eauto.
      - auto. }
    destruct G as (l & El & st & Hst & ->). exists st. split; [|reflexivity].
    pose proof (@wins_nth w Hw s' [] w ltac:(cbn; lia) i l El) as ->. exact Hst.
  Qed.
  Lemma running_length calc w s : length (ser_running (V := V) calc w s) = length s.
  Proof. unfold ser_running. now rewrite run_length, map_length. Qed.
  Lemma window_suffix {A} (s : list A) i w : w <= S i -> i < length s -> window s i w = skipn (S i - w) (firstn (S i) s).
  Proof.
    intros. unfold window. rewrite skipn_firstn_comm. f_equal. lia.
  Qed.
End Slide.

(** ** Exact arithmetic *)
Local Open Scope R_scope.
Fixpoint parts (l : list (ext R)) : list R :=
  match l with [] => [] | Fin r :: l' => r :: parts l' | _ :: l' => parts l' end.
Fixpoint rsum (l : list R) : R := match l with [] => 0 | x :: l' => x + rsum l' end.
Definition nneg (l : list R) : nat := length (filter (fun r => Rltb r 0) l).
Definition st_of (l : list (ext R)) : rstate (ext R) := mkRs (length (parts l)) (nneg (parts l)) (Fin (rsum (parts l))).
Definition plainv (x : ext R) : Prop := visinf x = false.
Lemma parts_app l m : parts (l ++ m) = parts l ++ parts m.
Proof. induction l as [|[| | |r] l IH]; cbn; rewrite ?IH; reflexivity. Qed.
Lemma rsum_app l m : rsum (l ++ m) = rsum l + rsum m.
Proof. induction l as [|x l IH]; cbn [app rsum]; [lra|]. rewrite IH. lra. Qed.
Lemma nneg_app l m : nneg (l ++ m) = (nneg l + nneg m)%nat.
Proof. unfold nneg. now rewrite filter_app, app_length. Qed.
Lemma st_add l x : plainv x -> r_add x (st_of l) = st_of (l ++ [x]).
Proof.
  intro Q. unfold st_of. rewrite parts_app, rsum_app, nneg_app, app_length. destruct x as [| | |r]; try discriminate Q; cbn.
  - rewrite !Nat.add_0_r, Rplus_0_r. reflexivity.
  - f_equal; [lia| |f_equal; lra]. unfold nneg; cbn. destruct (Rltb r 0); cbn; lia.
Qed.
Lemma st_rem l x : plainv x -> r_rem x (st_of (x :: l)) = st_of l.
Proof.
  intro Q. unfold st_of. destruct x as [| | |r]; try discriminate Q; cbn; [reflexivity|].
  f_equal; [|f_equal; change (r + rsum (parts l) - r = rsum (parts l)); lra]. unfold nneg; cbn. destruct (Rltb r 0); reflexivity.
Qed.
Lemma plainv_prep s : Forall plainv (map (prep (V := ext R)) s).
Proof. apply Forall_forall. intros x Hx. apply in_map_iff in Hx. destruct Hx as ([| | |r] & <- & _); reflexivity. Qed.
Lemma ser_running_exact (calc : rstate (ext R) -> ext R) (G : list (ext R) -> ext R) w s :
  (1 <= w)%nat ->
  (forall l, Forall plainv l -> (length l < w)%nat -> calc (st_of l) = NaN) ->
  (forall l, Forall plainv l -> length l = w -> calc (st_of l) = guard_win G l) ->
  ser_running calc w s = ser_rolling w G s.
Proof.
  intros Hw H1 H2. apply nth_error_ext.
  { unfold ser_rolling. now rewrite running_length, map_length, seq_length. }
  intros i Hi. rewrite running_length in Hi.
  destruct (nth_error (ser_running calc w s) i) as [v|] eqn:E; [|apply nth_error_None in E; rewrite running_length in E; lia].
  apply running_nth with (Q := plainv) (P := fun st l => Forall plainv l /\ st = st_of l) in E;
    [|exact Hw|apply plainv_prep|split; [constructor|reflexivity]| |].
  2:{ intros st win x Qx [Qw ->]. split; [apply Forall_app; auto|]. now rewrite st_add. }
  2:{ intros st y win Qy [Qw ->]. split; [exact (Forall_inv_tail Qw)|]. now rewrite st_rem. }
  destruct E as (st & (Ql & ->) & ->).
  unfold ser_rolling. rewrite nth_error_map_seq by exact Hi. cbn [Nat.add]. f_equal.
  destruct (Nat.ltb_spec (S i) w) as [L|L].
  - apply H1; [exact Ql|]. rewrite skipn_length, firstn_length, map_length. lia.
  - rewrite H2; [|exact Ql|rewrite skipn_length, firstn_length, map_length; lia].
    rewrite window_suffix by lia. unfold guard_win.
    replace (map prep (skipn (S i - w) (firstn (S i) (map prep s)))) with (map prep (skipn (S i - w) (firstn (S i) s))); [reflexivity|].
    rewrite firstn_map, skipn_map, map_map. apply map_ext. intros [| | |r]; reflexivity.
Qed.
Lemma parts_length l : (length (parts l) <= length l)%nat.
Proof. induction l as [|[| | |r] l IH]; cbn; try lia. Qed.
Lemma no_nan l : Forall plainv l -> length (parts l) = length l -> exists rs, l = map Fin rs.
Proof.
  induction 1 as [|x l Q _ IH]; intro H; [now exists []|]. pose proof (parts_length l). destruct x as [| | |r]; try discriminate Q; cbn in H.
  - lia.
  - destruct IH as [rs ->]; [lia|]. now exists (r :: rs).
Qed.
Lemma some_nan l : Forall plainv l -> (length (parts l) < length l)%nat -> existsb visnan (map prep l) = true.
Proof.
  induction 1 as [|x l Q _ IH]; intro H; cbn in *; [lia|]. destruct x as [| | |r]; try discriminate Q; cbn in *; [reflexivity|apply IH; lia].
Qed.
Lemma parts_fin rs : parts (map Fin rs) = rs.
Proof. induction rs; cbn; congruence. Qed.
Lemma guard_fin G rs : guard_win G (map Fin rs) = G (map Fin rs).
Proof.
  unfold guard_win. replace (map prep (map Fin rs)) with (map Fin rs : list (ext R)).
  - replace (existsb visnan (map Fin rs)) with false; [reflexivity|]. induction rs; cbn; auto.
  - rewrite map_map. apply map_ext. reflexivity.
Qed.
Lemma vsum_rsum rs : vsum (map Fin rs : list (ext R)) = Fin (rsum rs).
Proof.
  unfold vsum. replace (rsum rs) with (0 + rsum rs) by lra. change (v0 : ext R) with (Fin 0). generalize 0.
  induction rs as [|r rs IH]; intro a; cbn; [f_equal; lra|]. change (badd a r) with (a + r). rewrite IH. f_equal. cbn. lra.
Qed.
Lemma sum_exact w s : (1 <= w)%nat -> ser_running (calc_sum w) w s = ser_rolling w (@win_sum (ext R) _) s.
Proof.
  intro Hw. apply ser_running_exact; [exact Hw| |].
  - intros l _ H. unfold calc_sum, st_of; cbn [r_nobs]. destruct (Nat.leb_spec w (length (parts l))); [|reflexivity].
    pose proof (parts_length l). lia.
  - intros l Q H. unfold calc_sum, st_of; cbn [r_nobs r_sum]. pose proof (parts_length l).
    destruct (Nat.leb_spec w (length (parts l))).
    + destruct (no_nan Q) as [rs ->]; [lia|]. rewrite guard_fin, parts_fin. unfold win_sum. now rewrite vsum_rsum.
    + unfold guard_win. rewrite some_nan; [reflexivity|exact Q|lia].
Qed.
Lemma rsum_nonneg rs : nneg rs = 0%nat -> 0 <= rsum rs.
Proof.
  unfold nneg. induction rs as [|r rs IH]; cbn; [lra|]. destruct (Rltb_spec r 0); cbn; [discriminate|]. intro H0. specialize (IH H0). lra.
Qed.
Lemma nneg_le rs : (nneg rs <= length rs)%nat.
Proof. unfold nneg. induction rs as [|r rs IH]; cbn; [lia|]. destruct (Rltb r 0); cbn; lia. Qed.
Lemma rsum_neg rs : nneg rs = length rs -> rsum rs <= 0.
Proof.
  pose proof nneg_le. unfold nneg in *. induction rs as [|r rs IH]; cbn; [lra|]. destruct (Rltb_spec r 0); cbn; intro E.
  - specialize (IH ltac:(lia)). lra.
  - specialize (H rs). lia.
Qed.
Lemma mean_exact w s : (1 <= w)%nat -> ser_running (calc_mean w) w s = ser_rolling w (@win_mean (ext R) _) s.
Proof.
  intro Hw. apply ser_running_exact; [exact Hw| |].
  - intros l _ H. unfold calc_mean, st_of; cbn [r_nobs]. destruct (Nat.leb_spec w (length (parts l))); [|reflexivity].
    pose proof (parts_length l). lia.
  - intros l Q H. unfold calc_mean, st_of; cbn [r_nobs r_sum r_neg]. pose proof (parts_length l).
    destruct (Nat.leb_spec w (length (parts l))).
    + destruct (no_nan Q) as [rs ->]; [lia|]. rewrite guard_fin, parts_fin. unfold win_mean. rewrite vsum_rsum, map_length.
      rewrite map_length in H. assert (P : 0 < IZR (Z.of_nat (length rs))) by (apply IZR_lt; lia).
      change (vofZ (Z.of_nat (length rs)) : ext R) with (Fin (IZR (Z.of_nat (length rs)))). rewrite vdiv_fin by lra.
      set (q := rsum rs / IZR (Z.of_nat (length rs))).
      destruct (Nat.eqb_spec (nneg rs) 0) as [Z|Z]; cbn [andb].
      { assert (0 <= q) by (apply Rle_mult_inv_pos; [now apply rsum_nonneg|exact P]).
        assert (F : vltb (Fin q) v0 = false) by (cbn; change (bltb q 0) with (Rltb q 0); destruct (Rltb_spec q 0); [lra|reflexivity]).
        rewrite F. destruct (Nat.eqb_spec (nneg rs) (length rs)); [lia|reflexivity]. }
      destruct (Nat.eqb_spec (nneg rs) (length rs)) as [Z'|Z']; cbn [andb]; [|reflexivity].
      assert (q <= 0).
      { unfold q, Rdiv. pose proof (rsum_neg rs Z'). pose proof (Rinv_0_lt_compat _ P). nra. }
      assert (F : vltb v0 (Fin q) = false) by (cbn; change (bltb 0 q) with (Rltb 0 q); destruct (Rltb_spec 0 q); [lra|reflexivity]).
      now rewrite F.
    + unfold guard_win. rewrite some_nan; [reflexivity|exact Q|lia].
Qed.
Lemma sumn_run_exact p (a : line (ext R)) : (1 <= p)%nat -> sumn_run p a = sumn p a.
Proof. intro H. unfold sumn_run, sumn, running, rolling. now rewrite sum_exact. Qed.
Lemma sma_run_exact p (a : line (ext R)) : (1 <= p)%nat -> sma_run p a = sma p a.
Proof. intro H. unfold sma_run, sma, running, rolling. now rewrite mean_exact. Qed.
Lemma mfi_run_exact p (h l c v : line (ext R)) : (1 <= p)%nat -> mfi_run p h l c v = mfi p h l c v.
Proof. intro H. unfold mfi_run, mfi. now rewrite !sumn_run_exact. Qed.
