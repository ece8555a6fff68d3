(** Prices moved by a constant or mirrored at a level: oscillators, volume and parabolic stops. *)
From Coq Require Import ZArith QArith List Bool Reals Lia Lra.
From Verif Require Import Num Series Line LineFacts OpFacts Spec RSpec RFacts RLineFacts StatFacts MAFacts BoundSpec OscFacts PropLinesFacts OperandFacts
  UnitSpec UnitFacts MoveSpec MoveFacts MoveFacts2 MoveFacts3 MoveFacts4 CausalFacts CatalogR CatalogR2 CatalogSpec
  IndMA IndBasic IndStat IndRange IndOsc IndVol Apply IndSar Catalog.
Import ListNotations.
Local Open Scope R_scope.
Arguments skipn : simpl never.
Arguments firstn : simpl never.
Local Notation V := (ext R).

(** a number or missing *)
Definition tame (x : V) : Prop := match x with Fin _ | NaN => True | _ => False end.
Lemma fold_fin (op : V -> V -> V) (H : forall a b, exists c, op (Fin a) (Fin b) = Fin c) r : forall a,
  exists c, fold_left op (map (@Fin R) r) (Fin a) = Fin c.
Proof.
  induction r as [|x r IH]; intro a; cbn [map fold_left]; [now exists a|]. destruct (H a x) as [c ->]. apply IH.
Qed.
Lemma max_tame w : tame (guard_win win_max w).
Proof.
  unfold guard_win. destruct (existsb visnan (map prep w)) eqn:E; [exact I|]. destruct (fins_of _ E) as [r ->].
  destruct r as [|a r]; [exact I|]. cbn [map win_max]. destruct (fold_fin vmax2) with (r := r) (a := a) as [c ->]; [|exact I].
  intros x y. unfold vmax2. destruct (vltb _ _); eauto.
Qed.
Lemma min_tame w : tame (guard_win win_min w).
Proof.
  unfold guard_win. destruct (existsb visnan (map prep w)) eqn:E; [exact I|]. destruct (fins_of _ E) as [r ->].
  destruct r as [|a r]; [exact I|]. cbn [map win_min]. destruct (fold_fin vmin2) with (r := r) (a := a) as [c ->]; [|exact I].
  intros x y. unfold vmin2. destruct (vltb _ _); eauto.
Qed.

Lemma div_zero a : vdiv (Fin a : V) (Fin 0) = (if Req_EM_T a 0 then NaN else if Rlt_dec 0 a then PInf else NInf).
Proof.
  cbn. unfold bpos, bneg, b0, inf_signed, beqb, bpos, b0. cbn. unfold Rltb.
  repeat match goal with |- context [Rlt_dec ?x ?y] => destruct (Rlt_dec x y) end;
    try destruct (Req_EM_T a 0); cbn; try reflexivity; lra.
Qed.
Lemma div_fin a b : b <> 0 -> vdiv (Fin a : V) (Fin b) = Fin (a / b).
Proof. intro H. now apply vdiv_fin. Qed.

(** the share of the way up and the share of the way down add up to the whole *)
Lemma ratio k (H L C : V) : tame H -> tame L ->
  vdiv (vmul (Fin k) (vsub H C)) (vsub H L) = vsub (Fin k) (vdiv (vmul (Fin k) (vsub C L)) (vsub H L)).
Proof.
  assert (N : forall x : V, vdiv x NaN = NaN) by (intros [| | |]; reflexivity).
  intros A B. destruct H as [| | |h]; try contradiction.
  { replace (vsub NaN L : V) with (NaN : V) by reflexivity. rewrite !N. reflexivity. }
  destruct L as [| | |l]; try contradiction.
  { replace (vsub (Fin h) NaN : V) with (NaN : V) by reflexivity. rewrite !N. reflexivity. }
  destruct C as [| | |c]; [reflexivity| | |].
  - change (vsub (Fin h) PInf : V) with (NInf : V). change (vsub PInf (Fin l) : V) with (PInf : V). rewrite vsub_fin.
    cbn. unfold inf_signed, inf_opp. destruct (bpos k); [|destruct (bneg k); [|reflexivity]]; unfold ediv; now destruct (bneg _).
  - change (vsub (Fin h) NInf : V) with (PInf : V). change (vsub NInf (Fin l) : V) with (NInf : V). rewrite vsub_fin.
    cbn. unfold inf_signed, inf_opp. destruct (bpos k); [|destruct (bneg k); [|reflexivity]]; unfold ediv; now destruct (bneg _).
  - rewrite !vsub_fin, !vmul_fin. destruct (Req_EM_T (h - l) 0) as [E|E].
    + rewrite E, !div_zero. replace (k * (h - c)) with (- (k * (c - l))) by (replace h with (h - l + l) by ring; rewrite E; ring).
      repeat match goal with |- context [Rlt_dec ?x ?y] => destruct (Rlt_dec x y) | |- context [Req_EM_T ?x ?y] => destruct (Req_EM_T x y) end;
        try reflexivity; lra.
    + rewrite !div_fin, vsub_fin by exact E. f_equal. field. exact E.
Qed.
Lemma mul1 (x : V) : vmul (Fin 1) x = x.
Proof.
  destruct x as [| | |a]; cbn; try reflexivity; [| |f_equal; ring]; unfold inf_signed, inf_opp, bpos, bneg, b0; cbn; unfold Rltb;
    repeat match goal with |- context [Rlt_dec ?x ?y] => destruct (Rlt_dec x y) end; try reflexivity; lra.
Qed.
Lemma ratio1 (H L C : V) : tame H -> tame L ->
  vdiv (vsub H C) (vsub H L) = vsub (Fin 1) (vdiv (vsub C L) (vsub H L)).
Proof. intros A B. pose proof (ratio 1 H L C A B) as Q. now rewrite !mul1 in Q. Qed.

(** ** equality of lines bar by bar *)
Lemma same_bars (a b : line V) n k k' f g : delivers a n k f -> delivers b n k' g -> k = k' ->
  (forall i, (k <= i < n)%nat -> f i = g i) -> a = b.
Proof. intros A B <- E. eapply delivers_same; eassumption. Qed.
Lemma nanr_sub : nan_r (vsub : V -> V -> V).
Proof. intro x. now destruct x. Qed.
Ltac dl :=
  lazymatch goal with
  | |- delivers (mapl _ _) _ _ _ => eapply del_mapl; dl
  | |- delivers (ladd _ _) _ _ _ => eapply binop_delivers; fd
  | |- delivers (lsub _ _) _ _ _ => eapply binop_delivers; fd
  | |- delivers (lmul _ _) _ _ _ => eapply binop_delivers; fd
  | |- delivers (ldiv _ _) _ _ _ => eapply binop_delivers; fd
  | |- delivers (rbinop_s _ _ _) _ _ _ => eapply rbinop_s_delivers; fd
  | |- delivers (binop_s _ _ _) _ _ _ => eapply binop_s_delivers; fd
  | |- delivers (labs _) _ _ _ => eapply mapop_delivers; fd
  | |- delivers (mapop _ _) _ _ _ => eapply mapop_delivers; fd
  | |- delivers (max_ind _ _) _ _ _ => eapply rolling_delivers; [lia|fd]
  | |- delivers (min_ind _ _) _ _ _ => eapply rolling_delivers; [lia|fd]
  | |- delivers (sumn _ _) _ _ _ => eapply rolling_delivers; [lia|fd]
  | |- delivers (rolling _ _ _) _ _ _ => eapply rolling_delivers; [lia|fd]
  | |- delivers (lclip_lo _ _) _ _ _ => eapply lclip_lo_delivers; fd
  | |- delivers (lclip_hi _ _) _ _ _ => eapply lclip_hi_delivers; fd
  | |- delivers (diff _ (Z.of_nat _)) _ _ _ => eapply diff_delivers; [exact nanr_sub|fd]
  end
with fd :=
  lazymatch goal with
  | |- feeds ?x _ _ _ => tryif is_var x then (eapply fit_feeds; eassumption) else (eapply delivers_feeds; dl)
  end.
Ltac bars_of := eapply same_bars; [dl|dl|try lia|cbv beta; intros i Hi].

(** ** values that are not negative *)
Definition nn (x : V) : Prop := match x with Fin a => 0 <= a | NInf => False | _ => True end.
Lemma clip_neg (x : V) : clip_lo v0 (aff true 0 x) = vabs (clip_hi v0 x).
Proof.
  destruct x as [| | |a]; [reflexivity| | |].
  - cbn. unfold bneg, b0. cbn. unfold Rltb. destruct (Rlt_dec 0 0); [lra|]. reflexivity.
  - reflexivity.
  - rewrite aff_fin, v0_fin, clip_lo_fin, clip_hi_fin, vabs_fin. f_equal. unfold Rmax, Rmin, Rabs.
    destruct (Rle_dec _ _), (Rle_dec _ _), (Rcase_abs _); lra.
Qed.
Lemma neg2 (x : V) : aff true 0 (aff true 0 x) = x.
Proof. unfold aff. destruct x; try reflexivity. cbn. f_equal. ring. Qed.
Lemma clip_neg' (x : V) : vabs (clip_hi v0 (aff true 0 x)) = clip_lo v0 x.
Proof. rewrite <- clip_neg. now rewrite neg2. Qed.

Lemma Forall_firstn {A} (P : A -> Prop) k s : Forall P s -> Forall P (firstn k s).
Proof. intro H. rewrite <- (firstn_skipn k s) in H. apply Forall_app in H. tauto. Qed.
Lemma Forall_skipn {A} (P : A -> Prop) k s : Forall P s -> Forall P (skipn k s).
Proof. intro H. rewrite <- (firstn_skipn k s) in H. apply Forall_app in H. tauto. Qed.
Lemma nn_set k i r : Forall nn r -> Forall nn (set_from (nans k) i r).
Proof.
  intro H. unfold set_from. apply Forall_app. split; [|exact H]. apply Forall_firstn. unfold nans.
  induction k; constructor; auto. exact I.
Qed.
Lemma nn_all (f : V -> V) s : (forall x, nn (f x)) -> Forall nn (map f s).
Proof. intro H. induction s; cbn [map]; constructor; auto. Qed.
Lemma nn_clip x : nn (clip_lo v0 x).
Proof.
  destruct x as [| | |a]; try exact I.
  - cbn. lra.
  - rewrite v0_fin, clip_lo_fin. cbn. apply Rmax_r.
Qed.
Lemma nn_abs (x : V) : nn (vabs x).
Proof. destruct x as [| | |a]; try exact I. rewrite vabs_fin. cbn. apply Rabs_pos. Qed.
Lemma updays_nn lb (c : line V) : Forall nn (lser (updays lb c)).
Proof. unfold updays, lclip_lo, clone. cbn [lser]. apply nn_set, nn_all, nn_clip. Qed.
Lemma downdays_nn lb (c : line V) : Forall nn (lser (downdays lb c)).
Proof. unfold downdays, labs, mapop, stdop, clone. cbn [lser]. apply nn_set, nn_all, nn_abs. Qed.
Lemma nn_val (l : line V) i : Forall nn (lser l) -> nn (val l i).
Proof.
  intro H. unfold val. destruct (Nat.lt_ge_cases i (length (lser l))) as [L|L].
  - rewrite Forall_forall in H. apply H, nth_In, L.
  - rewrite nth_overflow by exact L. exact I.
Qed.
Lemma div_quot a b : vdiv (Fin a : V) (Fin b) = quot a b.
Proof.
  unfold quot. destruct (Req_EM_T b 0) as [->|E]; [|now apply div_fin]. rewrite div_zero.
  destruct (Req_EM_T a 0), (Rlt_dec 0 a), (Rlt_dec a 0); try reflexivity; lra.
Qed.
Lemma strength_mirror (x y : V) : nn x -> nn y ->
  vsub (Fin 100) (vdiv (Fin 100) (vadd (Fin 1) (vdiv y x))) =
  vsub (Fin 100) (vsub (Fin 100) (vdiv (Fin 100) (vadd (Fin 1) (vdiv x y)))).
Proof.
  assert (INF : forall b, 0 <= b ->
    vsub (Fin 100) (vdiv (Fin 100) (vadd (Fin 1) (vdiv (PInf : V) (Fin b)))) = Fin 100 /\
    vsub (Fin 100) (vdiv (Fin 100) (vadd (Fin 1) (vdiv (Fin b) (PInf : V)))) = Fin 0).
  { intros b Hb. split.
    - assert (E : vdiv (PInf : V) (Fin b) = PInf).
      { cbn. unfold bneg, b0. cbn. unfold Rltb. destruct (Rlt_dec b 0); [lra|reflexivity]. }
      rewrite E. cbn. unfold b0. cbn. f_equal. ring.
    - change (vdiv (Fin b) (PInf : V)) with (Fin 0 : V). rewrite vadd_fin, div_fin, vsub_fin by lra. f_equal. field. }
  destruct x as [| | |a], y as [| | |b]; intros A B; try contradiction; try reflexivity.
  - rewrite (proj1 (INF b B)), (proj2 (INF b B)), vsub_fin. f_equal. ring.
  - rewrite (proj2 (INF a A)), (proj1 (INF a A)), vsub_fin. f_equal. ring.
  - cbn [nn] in A, B. rewrite !div_quot, !strength_point by assumption. unfold strength_of.
    destruct (Req_EM_T (a + b) 0) as [E|E].
    + assert (a = 0) by lra. assert (b = 0) by lra. subst. rewrite Rmult_0_r, Rplus_0_r, quot_00. reflexivity.
    + rewrite !quot_fin, vsub_fin by lra. f_equal. field. lra.
Qed.
Lemma aff_mul_s1 k (x : V) : vmul (vsub (Fin 1) x) (Fin k) = aff true k (vmul x (Fin k)).
Proof. pose proof (aff_mul true 1 x k) as Q. rewrite Rmult_1_l in Q. exact Q. Qed.

(** ** averages of such values are such values *)
Lemma nn_add (x y : V) : nn x -> nn y -> nn (vadd x y).
Proof. destruct x, y; cbn; auto; lra. Qed.
Lemma nn_scale c (x : V) : 0 <= c -> nn x -> nn (vmul (Fin c) x).
Proof.
  intros C. destruct x as [| | |a]; cbn; auto; [|intros []|intro; now apply Rmult_le_pos]. intros _.
  unfold inf_signed, bpos, bneg, b0. cbn. unfold Rltb. destruct (Rlt_dec 0 c); [exact I|]. destruct (Rlt_dec c 0); [lra|exact I].
Qed.
Lemma nn_over c (x : V) : 0 < c -> nn x -> nn (vdiv x (Fin c)).
Proof.
  intros C. destruct x as [| | |a]; [exact (fun H => H)| |intros []|].
  - intros _. cbn. unfold bneg, b0. cbn. unfold Rltb. destruct (Rlt_dec c 0); [lra|exact I].
  - cbn [nn]. intro A. rewrite div_fin by lra. cbn. apply Rmult_le_pos; [exact A|]. left. now apply Rinv_0_lt_compat.
Qed.
Lemma nn_sum s : Forall nn s -> nn (vsum s).
Proof.
  intro H. unfold vsum. assert (Z : nn (v0 : V)) by (rewrite v0_fin; cbn; lra). revert Z. generalize (v0 : V).
  induction H as [|x s X H IH]; intros a A; [exact A|]. cbn [fold_left]. apply IH. now apply nn_add.
Qed.
Lemma nn_prep s : Forall nn s -> Forall nn (map prep s).
Proof. intro H. induction H as [|x s X H IH]; cbn [map]; constructor; auto. now destruct x. Qed.
Lemma nn_firstn k s : Forall nn s -> Forall nn (firstn k s). Proof. apply Forall_firstn. Qed.
Lemma nn_skipn k s : Forall nn s -> Forall nn (skipn k s). Proof. apply Forall_skipn. Qed.
Lemma nn_from s i : Forall nn s -> Forall nn (slice_from s i). Proof. apply Forall_skipn. Qed.
Lemma nn_slice s i j : Forall nn s -> Forall nn (slice s i j). Proof. intro. now apply Forall_firstn, Forall_skipn. Qed.
Lemma nn_mean s : Forall nn s -> nn (win_mean s).
Proof.
  intro H. unfold win_mean. destruct s as [|x s].
  - change (vsum (@nil V)) with (Fin 0 : V). cbn [length Z.of_nat]. rewrite vofZ_fin, div_zero. destruct (Req_EM_T 0 0); [exact I|lra].
  - rewrite vofZ_fin, IZR_nat. apply nn_over; [apply lt_0_INR; cbn; lia|now apply nn_sum].
Qed.
Lemma nn_ser_mean s : Forall nn s -> nn (ser_mean s).
Proof.
  intro H. unfold ser_mean, notnan. assert (F : Forall nn (filter (fun x => negb (visnan x)) s)).
  { rewrite Forall_forall in *. intros x X. apply H. apply filter_In in X. tauto. }
  destruct (filter _ s) as [|x k]; [exact I|]. exact (nn_mean _ F).
Qed.
Lemma nn_rolling p G (a : line V) : (forall s, Forall nn s -> nn (G s)) -> Forall nn (lser a) -> Forall nn (lser (rolling p G a)).
Proof.
  intros H A. unfold rolling, clone. cbn [lser]. apply nn_set. unfold ser_rolling. rewrite Forall_forall. intros x X.
  apply in_map_iff in X. destruct X as (i & <- & _). destruct (_ <? _)%nat; [exact I|]. unfold guard_win.
  destruct (existsb _ _); [exact I|]. apply H, nn_prep. now apply nn_firstn, nn_skipn, nn_from.
Qed.
Lemma nn_ewma_from al adj s : 0 < al <= 1 -> Forall nn s -> forall wa o, 0 <= o -> nn wa ->
  Forall nn (ewma_from (Fin al) adj wa (Fin o) s).
Proof.
  intros H F. induction F as [|x s X F IH]; intros wa o Ho W; [constructor|]. cbn [ewma_from].
  rewrite v1_fin, vsub_fin, vmul_fin. assert (Ho' : 0 <= o * (1 - al)) by (apply Rmult_le_pos; lra).
  assert (M : nn (vdiv (vadd (vmul (Fin (o * (1 - al))) wa) (vmul (if adj then Fin 1 else Fin al) x))
                  (vadd (Fin (o * (1 - al))) (if adj then Fin 1 else Fin al)))).
  { destruct adj; rewrite vadd_fin; (apply nn_over; [lra|]); apply nn_add; apply nn_scale; auto; lra. }
  destruct (visnan wa).
  - destruct (visnan x); constructor; auto.
  - destruct (visnan x); [constructor; auto|]. destruct (veqb wa x); constructor; auto; destruct adj; rewrite ?vadd_fin; apply IH; auto; lra.
Qed.
Lemma nn_ser_ewma al adj s : 0 < al <= 1 -> Forall nn s -> Forall nn (ser_ewma (Fin al) adj s).
Proof.
  intros H F. unfold ser_ewma. apply nn_prep in F. destruct F as [|x s' X F]; [constructor|]. constructor; [exact X|].
  rewrite v1_fin. apply nn_ewma_from; auto; lra.
Qed.
Lemma getitem_In {A} (s : list A) i v : getitem s i = Ok v -> In v s.
Proof.
  unfold getitem. cbv zeta. generalize (if (i <? 0)%Z then (Z.of_nat (length s) + i)%Z else i). intro j.
  destruct (j <? 0)%Z; [discriminate|]. destruct (nth_error s (Z.to_nat j)) eqn:E; [|discriminate]. intros [= <-]. eapply nth_error_In, E.
Qed.
Lemma nn_ewm (a : line V) pval po pe alp sd F r : steady_seed sd = true -> (forall s, Forall nn s -> Forall nn (F s)) ->
  Forall nn (lser a) -> ewm_call a pval po pe alp sd (fun s => Ok (F s)) = Ok r -> Forall nn (lser r).
Proof.
  intros Hs HF A E. unfold ewm_call, mf_ewm in E. cbv zeta in E.
  match type of E with context [slice (lser a) (?q - 1) ?q] => set (p2 := q) in * end.
  assert (P : Forall nn (map (fun _ : V => vnan) (slice (lser a) (p2 - 1) p2))) by (apply nn_all; intro; exact I).
  set (pre := map (fun _ => vnan) (slice (lser a) (p2 - 1) p2)) in *.
  assert (SL : forall x s, nn x -> match rev pre with [] => Raise IndexError | _ :: k => Ok (rev (x :: k)) end = Ok s -> Forall nn s).
  { intros x s X. apply Forall_rev in P. destruct P as [|y k Y K]; [discriminate|]. intros [= <-].
    apply (Forall_rev (l := x :: k)). now constructor. }
  assert (K : forall X : res (list V), (forall s, X = Ok s -> Forall nn s) ->
    (o <- (pre0 <- X ;; Ok (mkMfo a (lmp a) (Some pval) pe alp (p2 - 1) (pre0 ++ slice_from (lser a) p2))) ;;
       snd (mf_call o (fun s => Ok (F s)))) = Ok r -> Forall nn (lser r)).
  { intros [s|e] HX EX; [|discriminate]. cbn [bind mf_call snd mf_line mf_mp mf_pval mf_pearly mf_alphap mf_minidx mf_trailer] in EX.
    injection EX as <-. cbn [clone lser]. apply nn_set, HF. apply Forall_app. split; [now apply HX|now apply nn_from]. }
  eapply K; [|exact E]. intros s. destruct sd; try discriminate.
  - apply SL. now apply nn_ser_mean, nn_slice.
  - destruct (getitem (lser a) (p2 - 1)) as [v|] eqn:G; cbn [bind]; [|discriminate]. apply SL.
    rewrite Forall_forall in A. apply A. eapply getitem_In, G.
  - intros [= <-]. exact P.
Qed.

Definition keeps (ma : ma_fun V) (p : nat) : Prop :=
  forall a r, Forall nn (lser a) -> ma p a = Ok r -> Forall nn (lser r).
Lemma nn_wma s : Forall nn s -> nn (win_wma s).
Proof.
  intro H. unfold win_wma. apply nn_sum. generalize 1%nat. induction H as [|x s X H IH]; intro k; [constructor|].
  cbn [length seq map map2]. constructor; [|apply IH]. rewrite vofZ_fin, vmul_comm. apply nn_scale; [|exact X].
  rewrite IZR_nat. apply pos_INR.
Qed.
Lemma nn_best (op : V -> V -> V) s : (forall x y, op x y = x \/ op x y = y) -> Forall nn s -> forall a, nn a -> nn (fold_left op s a).
Proof.
  intros Q H. induction H as [|x s X H IH]; intros a A; [exact A|]. cbn [fold_left]. apply IH. destruct (Q a x) as [-> | ->]; assumption.
Qed.
Lemma keeps_positive (ma : avg V) p : (1 <= p)%nat -> positive ma = true -> keeps (avg_fun ma) p.
Proof.
  intros P H a r A E. destruct ma; try discriminate; cbn [avg_fun positive] in *.
  - injection E as <-. apply nn_rolling; [apply nn_mean|exact A].
  - injection E as <-. unfold ewma, ewm_mean, clone. cbn [lser]. apply nn_set. rewrite alpha_span_fin by exact P.
    apply nn_ser_ewma; [now apply al_span|now apply nn_from].
  - unfold ema_full, ewm_span in E.
    eapply (nn_ewm a _ _ _ _ sd (fun s => ser_ewma (alpha_span (vofZ (Z.of_nat p))) false s)); [exact H| |exact A|exact E].
    intros s S. cbv beta. rewrite alpha_span_fin by exact P. apply nn_ser_ewma; [now apply al_span|exact S].
  - unfold smma_seed, ewm_com in E.
    eapply (nn_ewm a _ _ _ _ sd (fun s => ser_ewma (alpha_com (vofZ (Z.of_nat p - 1))) false s)); [exact H| |exact A|exact E].
    intros s S. cbv beta. rewrite alpha_com_fin by exact P. apply nn_ser_ewma; [now apply al_com|exact S].
  - injection E as <-. unfold wma, rbinop_s, clone. cbn [lser]. apply nn_set.
    assert (C : exists c, 0 <= c /\ vdiv (vofZ 2 : V) (vofZ (Z.of_nat p * (Z.of_nat p + 1))) = Fin c).
    { rewrite !vofZ_fin. assert (0 < IZR (Z.of_nat p * (Z.of_nat p + 1))) by (apply IZR_lt; nia). rewrite div_fin by lra.
      eexists. split; [|reflexivity]. apply Rmult_le_pos; [lra|]. left. now apply Rinv_0_lt_compat. }
    destruct C as (c & C & ->). rewrite Forall_forall. intros x X. apply in_map_iff in X. destruct X as (y & <- & Y).
    apply nn_scale; [exact C|].
    assert (K : Forall nn (lser (rolling p win_wma a))) by (apply nn_rolling; [apply nn_wma|exact A]).
    apply nn_from with (i := (Z.max (lmp (rolling p win_wma a)) 1 - 1)%Z) in K. rewrite Forall_forall in K. now apply K.
  - injection E as <-. unfold trima. destruct (Nat.odd p); (apply nn_rolling; [apply nn_mean|]); (apply nn_rolling; [apply nn_mean|exact A]).
  - injection E as <-. apply nn_rolling; [|exact A]. intros s S. now apply nn_sum.
  - injection E as <-. apply nn_rolling; [|exact A]. intros s S. destruct S as [|x s X S]; [exact I|]. cbn [win_max].
    apply nn_best; auto. intros y z. unfold vmax2. destruct (vltb y z); auto.
  - injection E as <-. apply nn_rolling; [|exact A]. intros s S. destruct S as [|x s X S]; [exact I|]. cbn [win_min].
    apply nn_best; auto. intros y z. unfold vmin2. destruct (vltb z y); auto.
Qed.

Definition kap (m : bool) (k : R) : R := if m then k else 0.

Section Ind.
  Variable m : bool.
  Variable n : nat.
  Notation mv t := (mapl (aff m t)).
  Notation mx := (MoveFacts.mx m).
  Implicit Types (h l c o v : line V).

  Lemma mv_stoch_k t p h l c : (1 <= p)%nat -> fit n h -> fit n l -> fit n c ->
    stoch_k p (mv t (mx h l)) (mv t (mx l h)) (mv t c) = mv (kap m 100) (stoch_k p h l c).
  Proof.
    intros P H L C. unfold stoch_k. cbv zeta.
    rewrite (mv_highest m t p h l), (mv_lowest m t p h l), (sub_range m n t (max_ind p h) (min_ind p l)) by fits.
    rewrite mv_sub_same, mv0_rmul_s, mv0_div. unfold kap, MoveFacts.mx. destruct m; [|reflexivity].
    bars_of. rewrite vofZ_fin, <- aff0_div, <- aff0_mul_r, neg_sub. apply ratio; [apply max_tame|apply min_tame].
  Qed.
  Lemma mv_williamsr t p h l c : (1 <= p)%nat -> fit n h -> fit n l -> fit n c ->
    williamsr p (mv t (mx h l)) (mv t (mx l h)) (mv t c) = mv (kap m (-100)) (williamsr p h l c).
  Proof.
    intros P H L C. unfold williamsr. cbv zeta.
    rewrite (mv_highest m t p h l), (mv_lowest m t p h l), (sub_range m n t (max_ind p h) (min_ind p l)) by fits.
    rewrite mv_sub_same, mv0_rmul_s, mv0_div. unfold kap, MoveFacts.mx. destruct m; [|reflexivity].
    bars_of. rewrite vofZ_fin, <- aff0_div, <- aff0_mul_r, neg_sub. unfold aff. rewrite ratio by (apply max_tame || apply min_tame).
    generalize (vdiv (vmul (Fin (-100)) (vsub (val c i) (guard_win win_min (win (val l) i p))))
      (vsub (guard_win win_max (win (val h) i p)) (guard_win win_min (win (val l) i p)))).
    intros [| | |x]; try reflexivity. rewrite !vsub_fin. f_equal. ring.
  Qed.
  Lemma mv_stochf t ma p pf h l c : (1 <= p)%nat -> fit n h -> fit n l -> fit n c -> follows m (kap m 100) ma pf ->
    stochf ma p pf (mv t (mx h l)) (mv t (mx l h)) (mv t c) =
      converted (fun r => (mv (kap m 100) (fst r), mv (kap m 100) (snd r))) (stochf ma p pf h l c).
  Proof.
    intros P H L C F. unfold stochf. cbv zeta. rewrite mv_stoch_k, F by assumption.
    destruct (ma pf _); reflexivity.
  Qed.
  Lemma mv_stochastic t ma mas p pf ps h l c : (1 <= p)%nat -> fit n h -> fit n l -> fit n c ->
    follows m (kap m 100) ma pf -> follows m (kap m 100) mas ps ->
    stochastic ma mas p pf ps (mv t (mx h l)) (mv t (mx l h)) (mv t c) =
      converted (fun r => (mv (kap m 100) (fst r), mv (kap m 100) (snd r))) (stochastic ma mas p pf ps h l c).
  Proof.
    intros P H L C F G. unfold stochastic. rewrite mv_stochf by assumption. destruct (stochf _ _ _ _ _ _) as [r|]; [|reflexivity].
    cbn [bind converted fst snd]. rewrite G. destruct (mas ps _); reflexivity.
  Qed.

  (** ** rises and falls *)
  Lemma mv_updays t lb c : fit n c -> updays lb (mv t c) = mx updays downdays lb c.
  Proof.
    intro C. unfold updays, downdays. rewrite mv_diff. unfold MoveFacts.mx. destruct m; [|now rewrite mapl_id].
    bars_of. apply clip_neg.
  Qed.
  Lemma mv_downdays t lb c : fit n c -> downdays lb (mv t c) = mx downdays updays lb c.
  Proof.
    intro C. unfold updays, downdays. rewrite mv_diff. unfold MoveFacts.mx. destruct m; [|now rewrite mapl_id].
    bars_of. apply clip_neg'.
  Qed.
  Lemma updays_fit lb c : fit n c -> fit n (updays lb c).
  Proof. intro. unfold updays. fits. Qed.
  Lemma downdays_fit lb c : fit n c -> fit n (downdays lb c).
  Proof. intro. unfold downdays. fits. Qed.
  Lemma mv_cmo t (sm : avg V) p c : (1 <= p)%nat -> fit n c ->
    cmo (avg_fun sm) p (mv t c) = converted (mv 0) (cmo (avg_fun sm) p c).
  Proof.
    intros P C. unfold cmo. rewrite mv_updays, mv_downdays by assumption. unfold MoveFacts.mx. destruct m.
    - rewrite bind_swap by apply ix_avg. destruct (avg_fun sm p (updays 1 c)) as [u|] eqn:U; [|reflexivity]. cbn [bind].
      destruct (avg_fun sm p (downdays 1 c)) as [d|] eqn:D; [|reflexivity]. cbn [bind converted].
      apply fit_avg with (n := n) in U; [|exact P|now apply updays_fit]. apply fit_avg with (n := n) in D; [|exact P|now apply downdays_fit].
      f_equal. rewrite (add_comm n d u) by assumption. rewrite <- (neg_op n d u) by assumption.
      now rewrite mv0_rmul_s, mv0_div.
    - destruct (avg_fun sm p (updays 1 c)) as [u|]; [|reflexivity]. cbn [bind].
      destruct (avg_fun sm p (downdays 1 c)) as [d|]; [|reflexivity]. cbn [bind converted]. now rewrite mapl_id.
  Qed.
  Lemma mv_rsi t (ma : avg V) p lb c : (1 <= p)%nat -> fit n c -> (m = true -> keeps (avg_fun ma) p) ->
    rsi (avg_fun ma) p lb (mv t c) = converted (mv (kap m 100)) (rsi (avg_fun ma) p lb c).
  Proof.
    intros P C K. unfold rsi. rewrite mv_updays, mv_downdays by assumption. unfold MoveFacts.mx, kap. destruct m.
    - specialize (K eq_refl).
      rewrite bind_swap by apply ix_avg. destruct (avg_fun ma p (updays lb c)) as [u|] eqn:U; [|reflexivity]. cbn [bind].
      destruct (avg_fun ma p (downdays lb c)) as [d|] eqn:D; [|reflexivity]. cbn [bind converted].
      assert (NU := K _ _ (updays_nn lb c) U). assert (ND := K _ _ (downdays_nn lb c) D).
      apply fit_avg with (n := n) in U; [|exact P|now apply updays_fit]. apply fit_avg with (n := n) in D; [|exact P|now apply downdays_fit].
      f_equal. unfold strength. bars_of. rewrite !vofZ_fin, v1_fin. unfold aff.
      apply strength_mirror; apply nn_val; assumption.
    - destruct (avg_fun ma p (updays lb c)) as [u|]; [|reflexivity]. cbn [bind].
      destruct (avg_fun ma p (downdays lb c)) as [d|]; [|reflexivity]. cbn [bind converted]. now rewrite mapl_id.
  Qed.
  Lemma mv_stochrsi t p ph sc c : (1 <= p)%nat -> fit n c ->
    stochrsi p ph (Fin sc) (mv t c) = converted (mv (kap m sc)) (stochrsi p ph (Fin sc) c).
  Proof.
    intros P C. unfold stochrsi. set (q := if Nat.eqb ph 0 then p else ph).
    assert (Q : (1 <= q)%nat) by (unfold q; destruct (Nat.eqb_spec ph 0); lia).
    change smma with (avg_fun (ASmma SEED_AVG) : ma_fun V). rewrite mv_rsi by (try assumption; intros _; now apply keeps_positive).
    destruct (rsi _ p 1 c) as [r|] eqn:E; [|reflexivity]. cbn [bind converted]. f_equal.
    assert (F : fit n r).
    { unfold rsi in E. destruct (avg_fun _ p (updays 1 c)) as [u|] eqn:U; [|discriminate]. cbn [bind] in E.
      destruct (avg_fun _ p (downdays 1 c)) as [d|] eqn:D; [|discriminate]. cbn [bind] in E. injection E as <-.
      apply fit_avg with (n := n) in U; [|exact P|now apply updays_fit]. apply fit_avg with (n := n) in D; [|exact P|now apply downdays_fit].
      unfold strength. fits. }
    rewrite mv_max, mv_min. unfold MoveFacts.mx, kap. destruct m.
    - rewrite !mv_sub_same. rewrite (neg_op n) by fits. bars_of.
      rewrite <- aff_mul_s1. f_equal. rewrite neg_sub. apply ratio1; [apply max_tame|apply min_tame].
    - now rewrite !mapl_id.
  Qed.
  Lemma mv_stochrsi_talib t p ph sc ma pf c : (1 <= p)%nat -> fit n c -> follows m (kap m sc) ma pf ->
    stochrsi_talib p ph (Fin sc) ma pf (mv t c) =
      converted (fun r => (mv (kap m sc) (fst r), mv (kap m sc) (snd r))) (stochrsi_talib p ph (Fin sc) ma pf c).
  Proof.
    intros P C F. unfold stochrsi_talib. rewrite mv_stochrsi by assumption. destruct (stochrsi _ _ _ _) as [s|]; [|reflexivity].
    cbn [bind converted]. rewrite F. destruct (ma pf s); reflexivity.
  Qed.

  (** ** time since the extreme *)
  Lemma aff_rev t (s : list V) : rev (map (aff m t) s) = map (aff m t) (rev s). Proof. symmetry. apply map_rev. Qed.
  Lemma mv_aroon_up t p h l : aroon_up p (mv t (mx h l)) = mx (aroon_up p h) (aroon_dn p l).
  Proof.
    unfold aroon_up, aroon_dn, aroon_from. rewrite (mv_roll_free m t (p + 1) (fun w => vofnat (mx argmax argmin (rev w))) first_idx_highest).
    - unfold MoveFacts.mx. now destruct m.
    - intro s. unfold first_idx_highest. now rewrite aff_rev, aff_argmax.
  Qed.
  Lemma mv_aroon_dn t p h l : aroon_dn p (mv t (mx l h)) = mx (aroon_dn p l) (aroon_up p h).
  Proof.
    unfold aroon_up, aroon_dn, aroon_from. rewrite (mv_roll_free m t (p + 1) (fun w => vofnat (mx argmin argmax (rev w))) first_idx_lowest).
    - unfold MoveFacts.mx. now destruct m.
    - intro s. unfold first_idx_lowest. now rewrite aff_rev, aff_argmin.
  Qed.
  Lemma mv_aroonosc t p h l : fit n h -> fit n l ->
    aroonosc p (mv t (mx h l)) (mv t (mx l h)) = mv 0 (aroonosc p h l).
  Proof.
    intros H L. unfold aroonosc. rewrite mv_aroon_up, mv_aroon_dn. unfold MoveFacts.mx. destruct m; [|now rewrite mapl_id].
    rewrite (neg_op n); [reflexivity| |]; unfold aroon_up, aroon_dn, aroon_from; fits.
  Qed.
  Lemma mv_bop t o h l c : fit n h -> fit n l ->
    bop (mv t o) (mv t (mx h l)) (mv t (mx l h)) (mv t c) = mv 0 (bop o h l c).
  Proof. intros H L. unfold bop. now rewrite mv_sub_same, (sub_range m n) , mv0_div by assumption. Qed.

  (** ** volume *)
  Lemma mv_ad t h l c v : fit n h -> fit n l -> fit n c ->
    ad (mv t (mx h l)) (mv t (mx l h)) (mv t c) v = mv 0 (ad h l c v).
  Proof.
    intros H L C. unfold ad. cbv zeta. rewrite (sub_range m n) by assumption. rewrite vofZ_fin, mv_rmul_s, !mv_sub.
    replace (2 * t - t - t) with 0 by ring. rewrite mv0_div, mv0_mul, mv0_cumsum. unfold MoveFacts.mx. destruct m; [|reflexivity].
    now rewrite (sub_swap n (rbinop_s vmul (Fin 2) c) l h) by fits.
  Qed.
  Lemma mv_adosc t ma pf ps h l c v : fit n h -> fit n l -> fit n c -> follows m 0 ma pf -> follows m 0 ma ps ->
    adosc ma pf ps (mv t (mx h l)) (mv t (mx l h)) (mv t c) v = converted (mv 0) (adosc ma pf ps h l c v).
  Proof.
    intros H L C F G. unfold adosc. cbv zeta. rewrite mv_ad, F by assumption. destruct (ma pf _); [|reflexivity]. cbn [bind converted].
    rewrite G. destruct (ma ps _); [|reflexivity]. cbn [bind converted]. now rewrite mv_sub_same.
  Qed.
  Lemma aff_sign (x : V) : vsign (aff m 0 x) = aff m 0 (vsign x).
  Proof.
    destruct m; [|now rewrite !aff_id]. unfold vsign. rewrite aff_isnan. destruct (visnan x); [reflexivity|].
    assert (Q1 : vltb v0 (aff true 0 x) = vltb x v0) by (rewrite <- (aff0_0 true) at 1; apply aff_ltb).
    assert (Q2 : vltb (aff true 0 x) v0 = vltb v0 x) by (rewrite <- (aff0_0 true) at 1; apply aff_ltb).
    rewrite Q1, Q2. destruct (vltb v0 x) eqn:A, (vltb x v0) eqn:B.
    - exfalso. destruct x as [| | |x]; try discriminate. cbn in A, B. unfold Rltb in *.
      destruct (Rlt_dec 0 x), (Rlt_dec x 0); try discriminate. lra.
    - rewrite v1_fin, vofZ_fin, aff_fin. f_equal. cbn. lra.
    - rewrite v1_fin, vofZ_fin, aff_fin. f_equal. cbn. lra.
    - symmetry. apply aff0_0.
  Qed.
  Lemma mv_obv t ta p c v : ta = false \/ m = false -> obv ta p (mv t c) v = mv 0 (obv ta p c v).
  Proof.
    intro H. unfold obv. cbv zeta. rewrite mv_diff. destruct ta.
    - destruct H as [H|H]; [discriminate|]. destruct m; [discriminate|]. now rewrite !mapl_id.
    - rewrite (g_mapop (aff m 0) (aff m 0) (aff_nan m 0) vsign vsign) by exact aff_sign. now rewrite mv0_mul_r, mv0_cumsum.
  Qed.

  (** ** windows of two lines *)
  Lemma mv_cov t u s r : length s = length r ->
    win_cov (map (aff m t) (map (@Fin R) s)) (map (aff m u) (map (@Fin R) r)) = win_cov (map (@Fin R) s) (map (@Fin R) r).
  Proof.
    intro E. unfold win_cov. rewrite map_length. f_equal. rewrite !aff_win_mean, !map_aff_fin.
    destruct s as [|x s].
    { destruct r as [|y r]; [|discriminate]. cbn [map map2]. assert (N0 : win_mean (@nil V) = NaN).
      { unfold win_mean. change (vsum (@nil V)) with (Fin 0 : V). cbn [length Z.of_nat]. rewrite vofZ_fin, div_zero.
        destruct (Req_EM_T 0 0); [reflexivity|lra]. }
      rewrite N0. reflexivity. }
    destruct r as [|y r]; [discriminate|].
    assert (M2 : forall a b : list R, map2 vmul (map (@Fin R) a) (map (@Fin R) b) = map (@Fin R) (map2 Rmult a b)).
    { intro a. induction a as [|e a IH]; intros [|f b]; try reflexivity. cbn [map map2]. now rewrite IH, vmul_fin. }
    rewrite !M2. rewrite !win_mean_fin by discriminate. rewrite !aff_fin, !vmul_fin, !vsub_fin. f_equal.
    set (s1 := x :: s) in *. set (r1 := y :: r) in *. unfold Rmean.
    assert (L : forall a b : list R, length a = length b -> length (map2 Rmult a b) = length a).
    { intro a. induction a as [|e a IH]; intros [|f b] Q; try discriminate; [reflexivity|]. cbn in *. f_equal. apply IH. lia. }
    rewrite !L by (rewrite ?map_length; exact E). rewrite <- E, map_length.
    assert (Q : Rsum (map2 Rmult (map (af m t) s1) (map (af m u) r1)) =
      INR (length s1) * (t * u) + (if m then -1 else 1) * (t * Rsum r1 + u * Rsum s1) + Rsum (map2 Rmult s1 r1)).
    { revert E. generalize r1. generalize s1. clear. intro s. induction s as [|e s IH]; intros [|f r] E; try discriminate.
      - cbn. destruct m; ring.
      - cbn [map map2 length]. rewrite !Rsum_cons, IH, S_INR by (cbn in E; lia). unfold af. destruct m; ring. }
    rewrite Q. assert (N : INR (length s1) <> 0) by apply INR_len. destruct m; field; exact N.
  Qed.
  Lemma mv_correl t u p pr rt (a b : line V) : fit n a -> fit n b ->
    correl p pr rt (mv t a) (mv u b) = correl p pr rt a b.
  Proof.
    intros [_ A] [_ B]. unfold correl. rewrite <- (mapl_id (rolling2 p win_corr a b)). apply g_rolling2; auto with aff; [congruence|].
    intros s r S Q. rewrite aff_id. unfold win_corr, win_std. rewrite !aff_win_var, mv_cov by congruence. reflexivity.
  Qed.

  (** ** the positions of the extremes in the whole line *)
  Lemma mv_roll_count t w F F' s is : (forall k r, F' k (map (aff m t) r) = F k r) -> forall k,
    roll_count w F' (map (aff m t) s) is k = roll_count w F s is k.
  Proof.
    intros H. induction is as [|i is IH]; intro k; [reflexivity|]. cbn [roll_count]. cbv zeta.
    rewrite window_map, aff_preps, aff_nans. destruct (_ || _); [now rewrite IH|]. now rewrite IH, H.
  Qed.
  Lemma mv_rolling_count t w F F' (a : line V) : (forall k r, F' k (map (aff m t) r) = F k r) ->
    rolling_count w F' (mv t a) = rolling_count w F a.
  Proof.
    intro H. unfold rolling_count. rewrite mapl_bars. cbn [lmp lser mapl]. rewrite slice_from_map, map_length, (mv_roll_count t w F F') by exact H.
    reflexivity.
  Qed.
  Lemma mv_maxindex_abs t p (a : line V) : maxindex_abs p (mv t a) = mx maxindex_abs minindex_abs p a.
  Proof.
    unfold maxindex_abs, minindex_abs. rewrite (mv_rolling_count t p (fun k r => vofnat (mx argmax argmin r + k * 1))).
    - unfold MoveFacts.mx. now destruct m.
    - intros k r. now rewrite aff_argmax.
  Qed.
  Lemma mv_minindex_abs t p (a : line V) : minindex_abs p (mv t a) = mx minindex_abs maxindex_abs p a.
  Proof.
    unfold maxindex_abs, minindex_abs. rewrite (mv_rolling_count t p (fun k r => vofnat (mx argmin argmax r + k * 1))).
    - unfold MoveFacts.mx. now destruct m.
    - intros k r. now rewrite aff_argmin.
  Qed.

  (** ** parabolic stops *)
  Lemma aff_pymax t (x y : V) : pymax (aff m t x) (aff m t y) = aff m t (mx pymax pymin x y).
  Proof. unfold pymax, MoveFacts.mx. rewrite aff_ltb. unfold pymin. destruct m; [now destruct (vltb y x)|now destruct (vltb x y)]. Qed.
  Lemma aff_pymin t (x y : V) : pymin (aff m t x) (aff m t y) = aff m t (mx pymin pymax x y).
  Proof. unfold pymin, MoveFacts.mx. rewrite aff_ltb. unfold pymax. destruct m; [now destruct (vltb x y)|now destruct (vltb y x)]. Qed.
  Definition mv_st t (s : sarst) : sarst :=
    mkSar (mx (s_trend s) (negb (s_trend s))) (aff m t (s_ep s)) (aff m t (s_sar s)) (s_af s)
      (aff m t (mx (s_hi s) (s_lo s))) (aff m t (mx (s_lo s) (s_hi s))).
  Lemma aff_toward t (x y k : V) : vadd (aff m t x) (vmul k (vsub (aff m t y) (aff m t x))) = aff m t (vadd x (vmul k (vsub y x))).
  Proof. now rewrite aff_sub_same, aff0_mul_r, aff_add_r. Qed.
  Lemma mv_sar_step t AF AX s hi lo :
    sar_step AF AX (mv_st t s) (aff m t (mx hi lo)) (aff m t (mx lo hi)) =
    (mv_st t (fst (sar_step AF AX s hi lo)), aff m t (snd (sar_step AF AX s hi lo))).
  Proof.
    destruct s as [tr ep sr af h1 l1]. unfold sar_step, mv_st. cbn [s_trend s_ep s_sar s_af s_hi s_lo]. unfold MoveFacts.mx.
    pose proof aff_leb as LE. pose proof aff_ltb as LT. pose proof aff_pymax as PX. pose proof aff_pymin as PN. pose proof aff_toward as TW.
    unfold MoveFacts.mx in *. specialize (LE m). specialize (LT m).
    destruct m, tr; cbn [negb]; rewrite ?LE, ?LT;
      (destruct (vleb _ _); [|destruct (vltb _ _)]); cbn [fst snd s_trend s_ep s_sar s_af s_hi s_lo negb];
      rewrite ?TW, ?PX, ?PN; reflexivity.
  Qed.
  Lemma mv_sar_loop t AF AX hs : forall ls s, length hs = length ls ->
    sar_loop AF AX (mv_st t s) (map (aff m t) (mx hs ls)) (map (aff m t) (mx ls hs)) = map (aff m t) (sar_loop AF AX s hs ls).
  Proof.
    induction hs as [|h hs IH]; intros [|l ls] s E; try discriminate.
    - unfold MoveFacts.mx. now destruct m.
    - cbn in E. assert (E' : length hs = length ls) by lia. pose proof (mv_sar_step t AF AX s h l) as Q.
      assert (C1 : forall (A : Type) (x y : A) xs ys, mx (x :: xs) (y :: ys) = mx x y :: mx xs ys) by (intros; unfold MoveFacts.mx; now destruct m).
      rewrite !C1. cbn [map sar_loop]. rewrite Q. destruct (sar_step AF AX s h l) as [s' v]. cbn [fst snd map]. now rewrite IH.
  Qed.
  (** the first move: the same direction, or the opposite one *)
  Definition turns t hi1 lo1 hi lo : Prop :=
    start_trend (aff m t (mx hi1 lo1)) (aff m t (mx lo1 hi1)) (aff m t (mx hi lo)) (aff m t (mx lo hi)) =
    mx (start_trend hi1 lo1 hi lo) (negb (start_trend hi1 lo1 hi lo)).
  Definition turning t (hs ls : list V) : Prop :=
    match hs, ls with h1 :: h2 :: _, l1 :: l2 :: _ => turns t h1 l1 h2 l2 | _, _ => True end.
  Lemma mv_sarize t AF AX hs ls : length hs = length ls -> turning t hs ls ->
    sarize AF AX (map (aff m t) (mx hs ls)) (map (aff m t) (mx ls hs)) = converted (map (aff m t)) (sarize AF AX hs ls).
  Proof.
    intros E T. destruct hs as [|h1 [|h2 hs]], ls as [|l1 [|l2 ls]]; try discriminate;
      try (unfold MoveFacts.mx; destruct m; reflexivity).
    cbn [length] in E. assert (E2 : length (h2 :: hs) = length (l2 :: ls)) by (cbn; lia). cbn [turning] in T. unfold turns in T.
    assert (C1 : forall (A : Type) (x y : A) xs ys, mx (x :: xs) (y :: ys) = mx x y :: mx xs ys) by (intros; unfold MoveFacts.mx; now destruct m).
    rewrite !C1. cbn [map sarize tl]. rewrite T. set (tr := start_trend h1 l1 h2 l2).
    pose proof (mv_sar_loop t AF AX (h2 :: hs) (l2 :: ls)
      (mkSar tr (if tr then h2 else l2) (if tr then l1 else h1) AF h2 l2) E2) as Q.
    rewrite !C1 in Q. cbn [map] in Q. unfold mv_st in Q. cbn [s_trend s_ep s_sar s_af s_hi s_lo] in Q.
    assert (P : forall (X : V * V -> res (list V)), (let '(ep, sar) :=
        if mx tr (negb tr) then (aff m t (mx h2 l2), aff m t (mx l1 h1)) else (aff m t (mx l2 h2), aff m t (mx h1 l1)) in X (ep, sar)) =
        X (aff m t (if tr then h2 else l2), aff m t (if tr then l1 else h1))).
    { intro X. unfold MoveFacts.mx. destruct m, tr; reflexivity. }
    rewrite (P (fun q => let '(ep, sar) := q in Ok (vnan :: sar_loop AF AX (mkSar (mx tr (negb tr)) ep sar AF (aff m t (mx h2 l2)) (aff m t (mx l2 h2)))
       (aff m t (mx h2 l2) :: map (aff m t) (mx hs ls)) (aff m t (mx l2 h2) :: map (aff m t) (mx ls hs))))).
    rewrite Q. replace (vnan : V) with (aff m t vnan) at 1 by apply aff_nan. destruct tr; reflexivity.
  Qed.
  Lemma mv_sar t AF AX h l : fit n h -> fit n l ->
    turning t (slice_from (lser h) (Z.max (lmp h) (lmp l) - 1)) (slice_from (lser l) (Z.max (lmp h) (lmp l) - 1)) ->
    sar AF AX (mv t (mx h l)) (mv t (mx l h)) = converted (mv t) (sar AF AX h l).
  Proof.
    intros [H1 H2] [L1 L2] T. unfold sar, apply_, max_mp. cbn [fold_left map lmp lser mapl].
    assert (M : Z.max (lmp (mx h l)) (lmp (mx l h)) = Z.max (lmp h) (lmp l)) by (unfold MoveFacts.mx; destruct m; lia).
    rewrite M. rewrite !slice_from_map, map_length. set (k := (Z.max (lmp h) (lmp l) - 1)%Z) in *.
    assert (S1 : slice_from (lser (mx h l)) k = mx (slice_from (lser h) k) (slice_from (lser l) k)) by (unfold MoveFacts.mx; now destruct m).
    assert (S2 : slice_from (lser (mx l h)) k = mx (slice_from (lser l) k) (slice_from (lser h) k)) by (unfold MoveFacts.mx; now destruct m).
    assert (S3 : length (lser (mx h l)) = length (lser h)) by (unfold MoveFacts.mx; destruct m; congruence).
    rewrite S1, S2, S3, mv_sarize; [|unfold slice_from; now rewrite !skipn_length, H2, L2|exact T].
    destruct (sarize AF AX _ _) as [r|]; [|reflexivity]. cbn [bind converted]. f_equal.
    rewrite (h_nans (aff m t) (aff_nan m t)).
    unfold clone, period_. cbn [lmp lser]. assert (Z : (Z.max (lmp h) (lmp l) =? 0)%Z = false) by (apply Z.eqb_neq; lia).
    rewrite Z. reflexivity.
  Qed.
End Ind.
