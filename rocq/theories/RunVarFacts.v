(** The carried variance against the windows. *)
From Coq Require Import ZArith Reals List Bool Lia Lra.
From Verif Require Import Num Series Line Spec LineFacts RFacts RLineFacts IndMA IndStat Running RunFacts RunVar.
Import ListNotations.
Set Implicit Arguments.

Section Slide.
  Context {V : Type} {N : Num V}.
  Lemma walk_slide (calc : vstate V -> V) (Q : V -> Prop) (P : vstate V -> list V -> Prop) w :
    1 <= w ->
    (forall st win x, Q x -> P st win -> P (w_add x st) (win ++ [x])) ->
    (forall st y win x, Q x -> Q y -> P st (y :: win) -> P (w_swap x y st) (win ++ [x])) ->
    forall new win cnt st, Forall Q win -> Forall Q new -> cnt + length win = w -> P st win ->
    Forall2 (fun v l => exists st, P st l /\ v = calc st) (walk calc cnt st (win ++ new) new) (wins cnt win new).
  Proof.
    intros Hw Ha Hs. induction new as [|x new IH]; intros win cnt st Qw Qn Hl Hp; cbn; [constructor|].
    pose proof (Forall_inv Qn) as Qx. pose proof (Forall_inv_tail Qn) as Qn'. assert (Qwx : Forall Q (win ++ [x])) by (apply Forall_app; auto).
    destruct cnt as [|c].
    - destruct win as [|y win]; cbn in Hl; [lia|]. cbn [app tl] in *. pose proof (Forall_inv Qw) as Qy. pose proof (Forall_inv_tail Qwx) as Qwx'. constructor.
      + eexists. split; [|reflexivity]. now apply Hs.
      + cbn [pred]. replace (win ++ x :: new) with ((win ++ [x]) ++ new) by (rewrite <- app_assoc; reflexivity).
        apply IH; [exact Qwx'|exact Qn'|rewrite app_length; cbn; lia|]. now apply Hs.
    - constructor.
      + eexists. split; [|reflexivity]. now apply Ha.
      + cbn [pred]. replace (win ++ x :: new) with ((win ++ [x]) ++ new) by (rewrite <- app_assoc; reflexivity).
        apply IH; [exact Qwx|exact Qn'|rewrite app_length; cbn; lia|]. now apply Ha.
  Qed.
  Lemma walk_length calc new : forall cnt st old, length (walk (V := V) calc cnt st old new) = length new.
  Proof. induction new as [|x new IH]; intros; cbn; [reflexivity|]. destruct cnt; [destruct old|]; cbn; now rewrite IH. Qed.
  Lemma ser_walk_length calc w s : length (ser_walk (V := V) calc w s) = length s.
  Proof. unfold ser_walk. now rewrite walk_length, map_length. Qed.
  Lemma walking_nth (calc : vstate V -> V) (Q : V -> Prop) (P : vstate V -> list V -> Prop) w s i v :
    1 <= w -> Forall Q (map prep s) -> P w_start [] ->
    (forall st win x, Q x -> P st win -> P (w_add x st) (win ++ [x])) ->
    (forall st y win x, Q x -> Q y -> P st (y :: win) -> P (w_swap x y st) (win ++ [x])) ->
    nth_error (ser_walk calc w s) i = Some v ->
    exists st, P st (skipn (S i - w) (firstn (S i) (map prep s))) /\ v = calc st.
  Proof.
    intros Hw HQ P0 Ha Hr E. unfold ser_walk in E. set (s' := map prep s) in *.
    pose proof (@walk_slide calc Q P w Hw Ha Hr s' [] w w_start (Forall_nil _) HQ ltac:(cbn; lia) P0) as F. cbn [app] in F.
    assert (G : exists l, nth_error (wins w [] s') i = Some l /\ exists st, P st l /\ v = calc st).
    { revert E. generalize dependent i. induction F as [|a b l l' Hab F IH]; intros [|i] E; cbn in *; try discriminate.
      - injection E as <-. eauto.
      - auto. }
    destruct G as (l & El & st & Hst & ->). exists st. split; [|reflexivity].
    pose proof (@wins_nth V w Hw s' [] w ltac:(cbn; lia) i l El) as ->. exact Hst.
  Qed.
End Slide.

(** ** Exact arithmetic *)
Local Open Scope R_scope.
Definition rsq (l : list R) : R := rsum (map (fun x => x * x) l).
Definition rmean (l : list R) : R := match l with [] => 0 | _ => rsum l / INR (length l) end.
Definition rss (l : list R) : R := match l with [] => 0 | _ => rsq l - rsum l * rsum l / INR (length l) end.
Definition vs_of (l : list (ext R)) : vstate (ext R) :=
  mkVs (length (parts l)) (Fin (rmean (parts l))) (Fin (rss (parts l))).
Lemma vnum_fin n : (vnum n : ext R) = Fin (INR n).
Proof. unfold vnum. change (vofZ (Z.of_nat n) : ext R) with (Fin (IZR (Z.of_nat n))). now rewrite <- INR_IZR_INZ. Qed.
Lemma len_pos {A} (x : A) l : 0 < INR (length (x :: l)).
Proof. apply lt_0_INR. cbn. lia. Qed.
Lemma rmean_n l : rmean l * INR (length l) = rsum l.
Proof. destruct l as [|x l]; [cbn; lra|]. unfold rmean. pose proof (len_pos x l). field. lra. Qed.
Lemma rss_n l : rss l * INR (length l) = rsq l * INR (length l) - rsum l * rsum l.
Proof. destruct l as [|x l]; [cbn; lra|]. unfold rss. pose proof (len_pos x l). field. lra. Qed.
Lemma rsq_app l m : rsq (l ++ m) = rsq l + rsq m.
Proof. unfold rsq. now rewrite map_app, rsum_app. Qed.
Lemma rmean_eq l r : l <> [] -> r * INR (length l) = rsum l -> rmean l = r.
Proof.
  intros H E. destruct l as [|x l]; [congruence|]. pose proof (len_pos x l). pose proof (rmean_n (x :: l)).
  apply Rmult_eq_reg_r with (INR (length (x :: l))); lra.
Qed.
Lemma rss_eq l r : l <> [] -> r * INR (length l) = rsq l * INR (length l) - rsum l * rsum l -> rss l = r.
Proof.
  intros H E. destruct l as [|x l]; [congruence|]. pose proof (len_pos x l). pose proof (rss_n (x :: l)).
  apply Rmult_eq_reg_r with (INR (length (x :: l))); lra.
Qed.
Lemma fin_vs n m s n' m' s' : n = n' -> m = m' -> s = s' -> mkVs n (Fin m) (Fin s : ext R) = mkVs n' (Fin m') (Fin s').
Proof. now intros -> -> ->. Qed.

Lemma vs_add l x : plainv x -> w_add x (vs_of l) = vs_of (l ++ [x]).
Proof.
  intro Q. unfold vs_of. rewrite parts_app. destruct x as [| | |r]; try discriminate Q; cbn [parts].
  { rewrite app_nil_r. reflexivity. }
  unfold w_add. cbn [visnan NumExt w_nobs w_mean w_ss]. set (p := parts l). rewrite !vnum_fin.
  replace (S (length p) - 1)%nat with (length p) by lia.
  assert (K : INR (S (length p)) = INR (length p) + 1) by apply S_INR. pose proof (pos_INR (length p)) as K0.
  change (vsub (Fin r) (Fin (rmean p))) with (Fin (r - rmean p) : ext R).
  change (vmul (Fin (r - rmean p)) (Fin (r - rmean p))) with (Fin ((r - rmean p) * (r - rmean p)) : ext R).
  change (vmul (Fin (INR (length p))) (Fin ((r - rmean p) * (r - rmean p)))) with (Fin (INR (length p) * ((r - rmean p) * (r - rmean p))) : ext R).
  rewrite !vdiv_fin by lra.
  apply fin_vs; [rewrite app_length; cbn; lia| |].
  - symmetry. apply rmean_eq; [now destruct p|]. rewrite app_length, rsum_app. cbn [length rsum]. rewrite Nat.add_1_r, K.
    rewrite <- (rmean_n p). change (badd ?a ?b) with (a + b). field. lra.
  - symmetry. apply rss_eq; [now destruct p|]. rewrite app_length, rsum_app, rsq_app. cbn [length rsum]. rewrite Nat.add_1_r, K.
    change (rsq [r]) with (r * r + 0). change (badd ?a ?b) with (a + b).
    assert (H1 := rss_n p). assert (H2 := rmean_n p). 
    destruct p as [|y p].
    + cbn. lra.
    + pose proof (len_pos y p) as P. set (n := INR (length (y :: p))) in *. set (m := rmean (y :: p)) in *. set (s := rss (y :: p)) in *.
      set (q := rsq (y :: p)) in *. rewrite <- H2 in *. 
      assert (Eq : q = s + m * m * n) by (apply Rmult_eq_reg_r with n; lra). rewrite Eq. field. lra.
Qed.
Lemma vs_rem l x : plainv x -> w_rem x (vs_of (x :: l)) = vs_of l.
Proof.
  intro Q. unfold vs_of. destruct x as [| | |r]; try discriminate Q; cbn [parts]; [reflexivity|].
  unfold w_rem. cbn [visnan NumExt w_nobs w_mean w_ss length pred]. set (p := parts l).
  destruct p as [|y p]; [reflexivity|]. cbn [length]. rewrite !vnum_fin.
  assert (K : INR (S (length p) + 1) = INR (S (length p)) + 1) by (rewrite Nat.add_1_r; apply S_INR).
  pose proof (len_pos y p) as P. cbn [length] in P.
  set (M := rmean (r :: y :: p)). set (S0 := rss (r :: y :: p)).
  change (vsub (Fin r) (Fin M)) with (Fin (r - M) : ext R).
  change (vmul (Fin (r - M)) (Fin (r - M))) with (Fin ((r - M) * (r - M)) : ext R).
  change (vmul (Fin (INR (S (length p) + 1))) (Fin ((r - M) * (r - M)))) with (Fin (INR (S (length p) + 1) * ((r - M) * (r - M))) : ext R).
  rewrite !vdiv_fin by lra. rewrite K.
  assert (H1 := rss_n (r :: y :: p)). assert (H2 := rmean_n (r :: y :: p)). fold M S0 in H1, H2.
  assert (E1 : INR (length (r :: y :: p)) = INR (length (y :: p)) + 1) by (cbn [length]; apply S_INR).
  assert (E2 : rsum (r :: y :: p) = r + rsum (y :: p)) by reflexivity. assert (E3 : rsq (r :: y :: p) = r * r + rsq (y :: p)) by reflexivity.
  rewrite E1, E2 in H2. rewrite E1, E2, E3 in H1.
  change (S (length p)) with (length (y :: p)) in *. set (n := INR (length (y :: p))) in *.
  apply fin_vs; [reflexivity| |]; change (bsub ?a ?b) with (a - b); symmetry.
  - apply rmean_eq; [discriminate|]. fold n. replace (rsum (y :: p)) with (M * (n + 1) - r) by lra. field. lra.
  - apply rss_eq; [discriminate|]. fold n. set (q := rsq (y :: p)) in *. 
    replace (rsum (y :: p)) with (M * (n + 1) - r) by lra. replace (r + rsum (y :: p)) with (M * (n + 1)) in H1 by lra.
    assert (Eq : q = S0 + M * M * (n + 1) - r * r) by (apply Rmult_eq_reg_r with (n + 1); lra). rewrite Eq. field. lra.
Qed.
Lemma vs_swap l x y : plainv x -> plainv y -> w_swap x y (vs_of (y :: l)) = vs_of (l ++ [x]).
Proof.
  intros Qx Qy. destruct x as [| | |r]; try discriminate Qx.
  { change (w_swap NaN y (vs_of (y :: l))) with (w_rem y (vs_of (y :: l))). rewrite vs_rem by exact Qy. unfold vs_of.
    rewrite parts_app. cbn [parts]. now rewrite app_nil_r. }
  destruct y as [| | |t]; try discriminate Qy.
  { change (w_swap (Fin r) NaN (vs_of (NaN :: l))) with (w_add (Fin r) (vs_of l)). now apply vs_add. }
  unfold vs_of. rewrite parts_app. cbn [parts]. unfold w_swap. cbn [visnan NumExt w_nobs w_mean w_ss]. set (p := parts l).
  rewrite !vnum_fin. set (M := rmean (t :: p)). set (S0 := rss (t :: p)).
  assert (E1 : INR (length (t :: p)) = INR (length p) + 1) by (cbn [length]; apply S_INR). pose proof (pos_INR (length p)) as K0.
  assert (E4 : INR (length (t :: p) - 1) = INR (length p)) by (f_equal; cbn; lia).
  assert (E5 : INR (length (t :: p) + 1) = INR (length p) + 2) by (rewrite plus_INR, E1; cbn; lra).
  assert (E6 : INR (2 * length (t :: p)) = 2 * (INR (length p) + 1)) by (rewrite mult_INR, E1; cbn; lra).
  rewrite E4, E5, E6, E1. set (n := INR (length p)) in *.
  change (vsub (Fin r) (Fin t)) with (Fin (r - t) : ext R).
  change (vmul (vsub (vadd (vmul (Fin n) (Fin r)) (vmul (Fin (n + 2)) (Fin t))) (vmul (Fin (2 * (n + 1))) (Fin M))) (Fin (r - t)))
    with (Fin ((n * r + (n + 2) * t - 2 * (n + 1) * M) * (r - t)) : ext R).
  rewrite !vdiv_fin by lra.
  assert (H1 := rss_n (t :: p)). assert (H2 := rmean_n (t :: p)). fold M S0 in H1, H2.
  assert (E2 : rsum (t :: p) = t + rsum p) by reflexivity. assert (E3 : rsq (t :: p) = t * t + rsq p) by reflexivity.
  rewrite E1, E2 in H2. rewrite E1, E2, E3 in H1.
  assert (L : INR (length (p ++ [r])) = n + 1) by (rewrite app_length, plus_INR; cbn; unfold n; lra).
  apply fin_vs; [rewrite app_length; cbn; lia| |]; change (badd ?a ?b) with (a + b); symmetry.
  - apply rmean_eq; [now destruct p|]. rewrite L, rsum_app. cbn [rsum]. replace (rsum p) with (M * (n + 1) - t) by lra. field. lra.
  - apply rss_eq; [now destruct p|]. rewrite L, rsum_app, rsq_app. cbn [rsum]. change (rsq [r]) with (r * r + 0). set (q := rsq p) in *.
    replace (rsum p) with (M * (n + 1) - t) by lra. replace (t + rsum p) with (M * (n + 1)) in H1 by lra.
    assert (Eq : q = S0 + M * M * (n + 1) - t * t) by (apply Rmult_eq_reg_r with (n + 1); lra). rewrite Eq. field. lra.
Qed.
(** the sum of squared distances *)
Lemma rss_dist l : rsum (map (fun x => (x - rmean l) * (x - rmean l)) l) = rss l.
Proof.
  assert (G : forall m l, rsum (map (fun x => (x - m) * (x - m)) l) = rsq l - 2 * m * rsum l + INR (length l) * (m * m)).
  { intros m k. induction k as [|x k IH]; [unfold rsq; cbn; lra|]. cbn [map rsum]. rewrite IH.
    change (rsq (x :: k)) with (x * x + rsq k). cbn [length]. rewrite S_INR. lra. }
  rewrite G. destruct l as [|x l]; [unfold rsq; cbn; lra|]. pose proof (len_pos x l) as P. symmetry. apply rss_eq; [discriminate|].
  pose proof (rmean_n (x :: l)) as H. rewrite <- H. ring.
Qed.
Lemma var_calc w ddof rs : (1 <= w)%nat -> length rs = w -> calc_var w ddof (vs_of (map Fin rs)) = win_var ddof (map Fin rs : list (ext R)).
Proof.
  intros Hw L. unfold calc_var, vs_of, win_var. cbn [w_nobs w_ss]. rewrite parts_fin, map_length, L, Nat.leb_refl. cbn [andb].
  destruct (Nat.ltb_spec ddof w) as [H|H], (Nat.leb_spec w ddof) as [H'|H']; try lia; [|reflexivity].
  destruct (Nat.eqb_spec w 1); [reflexivity|].
  assert (P : 0 < IZR (Z.of_nat w)) by (apply IZR_lt; lia).
  assert (E : vsum (map (fun x => vmul (vsub x (win_mean (map Fin rs))) (vsub x (win_mean (map Fin rs)))) (map Fin rs)) = Fin (rss rs) :> ext R); [|now rewrite E].
  unfold win_mean. rewrite vsum_rsum, map_length, L. change (vofZ (Z.of_nat w) : ext R) with (Fin (IZR (Z.of_nat w))). rewrite vdiv_fin by lra.
  replace (rsum rs / IZR (Z.of_nat w)) with (rmean rs).
  2:{ apply rmean_eq; [intros ->; cbn in L; lia|]. rewrite L, INR_IZR_INZ. field. lra. }
  rewrite map_map. rewrite <- rss_dist, <- vsum_rsum, map_map. reflexivity.
Qed.
Lemma ser_walk_exact (calc : vstate (ext R) -> ext R) (G : list (ext R) -> ext R) w s :
  (1 <= w)%nat ->
  (forall l, Forall plainv l -> (length l < w)%nat -> calc (vs_of l) = NaN) ->
  (forall l, Forall plainv l -> length l = w -> calc (vs_of l) = guard_win G l) ->
  ser_walk calc w s = ser_rolling w G s.
Proof.
  intros Hw H1 H2. apply nth_error_ext.
  { unfold ser_rolling. now rewrite ser_walk_length, map_length, seq_length. }
  intros i Hi. rewrite ser_walk_length in Hi.
  destruct (nth_error (ser_walk calc w s) i) as [v|] eqn:E; [|apply nth_error_None in E; rewrite ser_walk_length in E; lia].
  apply walking_nth with (Q := plainv) (P := fun st l => Forall plainv l /\ st = vs_of l) in E;
    [|exact Hw|apply plainv_prep|split; [constructor|reflexivity]| |].
  2:{ intros st win x Qx [Qw ->]. split; [apply Forall_app; auto|]. now rewrite vs_add. }
  2:{ intros st y win x Qx Qy [Qw ->]. split; [apply Forall_app; split; [exact (Forall_inv_tail Qw)|auto]|]. now rewrite vs_swap. }
  destruct E as (st & (Ql & ->) & ->).
  unfold ser_rolling. rewrite nth_error_map_seq by exact Hi. cbn [Nat.add]. f_equal.
  destruct (Nat.ltb_spec (S i) w) as [L|L].
  - apply H1; [exact Ql|]. rewrite skipn_length, firstn_length, map_length. lia.
  - rewrite H2; [|exact Ql|rewrite skipn_length, firstn_length, map_length; lia].
    rewrite window_suffix by lia. unfold guard_win.
    replace (map prep (skipn (S i - w) (firstn (S i) (map prep s)))) with (map prep (skipn (S i - w) (firstn (S i) s))); [reflexivity|].
    rewrite firstn_map, skipn_map, map_map. apply map_ext. intros [| | |r]; reflexivity.
Qed.
Lemma walk_fun (h : ext R -> ext R) w ddof s : h NaN = NaN -> (1 <= w)%nat ->
  ser_walk (fun st => h (calc_var w ddof st)) w s = ser_rolling w (fun l => h (win_var ddof l)) s.
Proof.
  intros Hh Hw. apply ser_walk_exact; [exact Hw| |].
  - intros l _ H. unfold calc_var, vs_of; cbn [w_nobs]. destruct (Nat.leb_spec w (length (parts l))); [|exact Hh].
    pose proof (parts_length l). lia.
  - intros l Q H. pose proof (parts_length l). destruct (Nat.eq_dec (length (parts l)) (length l)) as [E|E].
    + destruct (no_nan Q E) as [rs ->]. rewrite map_length in H. rewrite guard_fin, var_calc; auto.
    + unfold guard_win. rewrite some_nan; [|exact Q|lia]. unfold calc_var, vs_of; cbn [w_nobs].
      destruct (Nat.leb_spec w (length (parts l))); [lia|exact Hh].
Qed.
Lemma var_run_exact p ddof (a : line (ext R)) : (1 <= p)%nat -> var_run p ddof a = var p ddof a.
Proof. intro H. unfold var_run, var, walking, rolling. now rewrite (@walk_fun (fun v => v) p ddof). Qed.
Lemma stddev_run_exact p ddof (a : line (ext R)) : (1 <= p)%nat -> stddev_run p ddof a = stddev p ddof a.
Proof. intro H. unfold stddev_run, stddev, walking, rolling, win_std. now rewrite (@walk_fun vsqrt p ddof). Qed.
Lemma bbands_run_exact p devs ma sd (a : line (ext R)) : (1 <= p)%nat -> bbands_run p devs ma a = bbands p devs ma sd a.
Proof. intro H. unfold bbands_run, bbands. now rewrite stddev_run_exact. Qed.
