(** The carried correlations against those of the windows in exact arithmetic. *)
From Coq Require Import ZArith Reals List Bool Lia Lra.
From Verif Require Import Num Series Line Spec LineFacts RFacts RLineFacts IndMA IndBasic IndStat Running RunFacts RunVar RunVarFacts RunCorr WarmFacts BandsFloat.
Import ListNotations.
Set Implicit Arguments.
Local Open Scope R_scope.
Notation E := (ext R).

Lemma beta_run_exact p prets rets (a m : line E) : (1 <= p)%nat -> beta_run p prets rets a m = beta p prets rets a m.
Proof. intro H. unfold beta_run, beta. now rewrite !sumn_run_exact by exact H. Qed.

Lemma means_roll w s : (1 <= w)%nat -> means w s = ser_rolling w (@win_mean E _) s.
Proof. apply mean_exact. Qed.
Lemma devs_roll w s : (1 <= w)%nat -> devs w s = ser_rolling w (@win_std E _ _ 1) s.
Proof. intro H. unfold devs. now rewrite (@walk_fun vsqrt w 1). Qed.
Lemma map2_len {A B C} (f : A -> B -> C) l m : length l = length m -> length (map2 f l m) = length l.
Proof. intro H. rewrite map2_length. lia. Qed.
Lemma roll_len w G (s : list E) : length (ser_rolling w G s) = length s.
Proof. unfold ser_rolling. now rewrite map_length, seq_length. Qed.
Lemma window_map2 {A B C} (f : A -> B -> C) s t i w : window (map2 f s t) i w = map2 f (window s i w) (window t i w).
Proof.
  unfold window. generalize (S i - w)%nat as k. intro k. 
  assert (H : skipn k (map2 f s t) = map2 f (skipn k s) (skipn k t)).
  { revert s t. induction k as [|k IH]; intros s t; [reflexivity|]. destruct s as [|x s]; [reflexivity|]. destruct t as [|y t]; [change (skipn (S k) (@nil B)) with (@nil B); destruct (skipn (S k) (x :: s)); reflexivity|].
    change (skipn k (map2 f s t) = map2 f (skipn k s) (skipn k t)). apply IH. }
  rewrite H. generalize (skipn k s) (skipn k t). clear. intros s t. revert s t. induction w as [|w IH]; intros s t; [reflexivity|].
  destruct s as [|x s]; [reflexivity|]. destruct t as [|y t]; [reflexivity|]. change (f x y :: firstn w (map2 f s t) = f x y :: map2 f (firstn w s) (firstn w t)). now rewrite IH.
Qed.
(** missing or infinite *)
Definition gone (x : E) : bool := visnan (prep x).
Lemma gone_prep l : existsb visnan (map prep l) = existsb gone l.
Proof. induction l as [|x l IH]; [reflexivity|]. cbn [existsb map]. rewrite IH. reflexivity. Qed.
Lemma guard_gone G l : existsb gone l = true -> guard_win G l = (NaN : E).
Proof. intro H. unfold guard_win. rewrite gone_prep, H. reflexivity. Qed.
Lemma all_here (l : list E) : existsb gone l = false -> exists rs, l = map Fin rs.
Proof.
  induction l as [|x l IH]; cbn; intro H; [now exists []|]. apply orb_false_elim in H. destruct H as [H1 H2]. destruct (IH H2) as [rs ->].
  destruct x as [| | |r]; try discriminate. now exists (r :: rs).
Qed.
Lemma zero_times (y : E) : vmul v0 y = match y with Fin _ => v0 | _ => NaN end.
Proof.
  destruct y as [| | |r]; cbn [vmul NumExt emul v0 vofZ]; auto.
  - unfold inf_signed, inf_opp, bpos, bneg, b0. cbn. change (bltb ?a ?b) with (Rltb a b). destruct (Rltb_spec 0 0); [lra|]. reflexivity.
  - unfold inf_signed, inf_opp, bpos, bneg, b0. cbn. change (bltb ?a ?b) with (Rltb a b). destruct (Rltb_spec 0 0); [lra|]. reflexivity.
  - f_equal. change (0 * r = 0). ring.
Qed.
Lemma pair_gone (x y : E) : gone x = true \/ gone y = true -> gone (vadd x (vmul v0 y)) = true.
Proof. rewrite zero_times. destruct x, y; cbn; intuition discriminate. Qed.
Lemma pair_here (a b : R) : vadd (Fin a : E) (vmul v0 (Fin b)) = Fin a.
Proof. rewrite zero_times. cbn. f_equal. change (a + 0 = a). ring. Qed.
Lemma paired_gone s t : length s = length t -> existsb gone s || existsb gone t = true -> existsb gone (paired s t) = true.
Proof.
  revert t. induction s as [|x s IH]; intros [|y t] L H; try discriminate. cbn [existsb paired map2] in *. apply orb_true_iff.
  destruct (gone x) eqn:Gx; [left; apply pair_gone; auto|]. destruct (gone y) eqn:Gy; [left; apply pair_gone; auto|]. right. apply IH; [now injection L|exact H].
Qed.
Lemma paired_here rs ts : length rs = length ts -> paired (map Fin rs : list E) (map Fin ts) = map Fin rs.
Proof. revert ts. induction rs as [|a rs IH]; intros [|b ts] L; try discriminate; [reflexivity|]. cbn [map paired map2]. rewrite pair_here. f_equal. apply IH. now injection L. Qed.
Lemma product_here rs ts : map2 vmul (map Fin rs : list E) (map Fin ts) = map Fin (map2 Rmult rs ts).
Proof. revert ts. induction rs as [|a rs IH]; intros [|b ts]; cbn; auto. f_equal. apply IH. Qed.
Lemma roll_nth w G (s : list E) i : (i < length s)%nat ->
  nth_error (ser_rolling w G s) i = Some (if (S i <? w)%nat then NaN else guard_win G (window s i w)).
Proof. intro H. unfold ser_rolling. now rewrite nth_error_map_seq. Qed.
Lemma window_len {A} (s : list A) i w : (i < length s)%nat -> (w <= S i)%nat -> length (window s i w) = w.
Proof. intros H1 H2. unfold window. rewrite firstn_length, skipn_length. lia. Qed.
Lemma vdiv_nan (x : E) : vdiv NaN x = (NaN : E). Proof. reflexivity. Qed.

Lemma window_paired (s t : list E) i w : window (paired s t) i w = paired (window s i w) (window t i w).
Proof. apply window_map2. Qed.
Lemma ser_corr_nth w (s t : list E) i : (1 <= w)%nat -> length s = length t -> (i < length s)%nat ->
  nth_error (ser_corr w s t) i = Some (if (S i <? w)%nat then NaN else
    let wx := map prep (window s i w) in let wy := map prep (window t i w) in
    if existsb visnan wx || existsb visnan wy then NaN else win_corr wx wy).
Proof.
  intros Hw L Hi. unfold ser_corr, covs. cbv zeta.
  assert (Lx : length (paired s t) = length s) by (apply map2_len; exact L).
  assert (Ly : length (paired t s) = length s) by (unfold paired; rewrite map2_len; auto).
  assert (Lp : length (map2 vmul (paired s t) (paired t s)) = length s) by (rewrite map2_len; lia).
  rewrite !means_roll, !devs_roll by exact Hw.
  erewrite nth_error_map2; [|apply nth_error_map2; [apply roll_nth; lia|apply nth_error_map2; apply roll_nth; lia]|apply nth_error_map2; apply roll_nth; lia].
  f_equal. destruct (Nat.ltb_spec (S i) w) as [H|H]; [reflexivity|].
  rewrite (window_map2 vmul (paired s t) (paired t s)), !window_paired.
  pose proof (window_len s Hi H) as L1. assert (L2 : length (window t i w) = w) by (apply window_len; lia).
  set (a := window s i w) in *. set (b := window t i w) in *.
  rewrite !gone_prep. destruct (existsb gone a || existsb gone b) eqn:G.
  - rewrite (@guard_gone win_mean (paired a b)) by (apply paired_gone; [lia|exact G]).
    match goal with |- vdiv (vmul (vsub ?m (vmul NaN _)) _) _ = _ => generalize m end. intros [| | |m]; reflexivity.
  - apply orb_false_elim in G. destruct G as [G1 G2]. destruct (all_here _ G1) as [rs Ea], (all_here _ G2) as [ts Eb]. rewrite Ea, Eb in *.
    rewrite map_length in L1, L2. rewrite !paired_here, product_here, !guard_fin, !prep_map_fin by lia.
    unfold win_corr, win_cov. rewrite product_here, !map_length, L1. reflexivity.
Qed.
Lemma ser_corr_len w (s t : list E) : (1 <= w)%nat -> length s = length t -> length (ser_corr w s t) = length s.
Proof.
  intros Hw L. unfold ser_corr, covs, paired. rewrite !means_roll, !devs_roll by exact Hw.
  repeat (rewrite ?map2_length, ?roll_len). lia.
Qed.
Lemma correl_run_exact p prets rets (a b : line E) : (1 <= p)%nat -> length (lser a) = length (lser b) ->
  correl_run p a b = correl p prets rets a b.
Proof.
  intros Hp L. unfold correl_run, correl, rolling2. cbv zeta. do 2 f_equal.
  assert (LS : length (slice_from (lser a) (lmp a - 1)) = length (slice_from (lser b) (lmp a - 1))) by (unfold slice_from; rewrite !skipn_length, L; reflexivity).
  apply nth_error_ext; [rewrite map_length, seq_length; now apply ser_corr_len|]. intros i Hi. rewrite ser_corr_len in Hi by auto.
  rewrite ser_corr_nth, nth_error_map_seq by auto. reflexivity.
Qed.
