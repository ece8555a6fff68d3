(** No repainting for sessions with every indicator, and missing prices. *)
From Coq Require Import ZArith QArith List Bool Reals Lra Lia Arith.
From Verif Require Import Num Series Line Spec RSpec LineFacts ScanFacts RFacts Expr CausalFacts
  Apply IndSar IndHT HTSpec HTFacts HTFacts2 PropHTFacts Catalog CatalogSpec CatalogR CatalogR2 CatalogFacts CatalogHT.
Import ListNotations.
Local Open Scope R_scope.

Section F.
  Variables n n' : nat.
  Hypothesis Hnn : (n <= n')%nat.
  Notation line := (line (ext R)).
  Notation Rl := (@Rl (ext R) n n').
  Notation Rls := (Forall2 Rl).

  Lemma Rb_inht (f f' : ht_in (ext R) -> res (list line)) ins ins' :
    Rls ins ins' -> (forall i i', Rin n n' i i' -> Rb Rls (f i) (f' i')) -> Rb Rls (inht ins f) (inht ins' f').
  Proof.
    intros H Hf. destruct H as [|a a' ? ? Ha [|b b' ? ? Hb [|]]]; try (intros ? ? HH; discriminate HH);
      apply Hf; simpl; auto.
  Qed.

  Lemma run_Rb x ins ins' : valid x -> Rls ins ins' -> Rb Rls (run x ins) (run x ins').
  Proof.
    intros Hv Hi.
    destruct x; try (apply Rb_of; apply (run_R Hnn); [exact Hv|intro HH; exact HH|exact Hi]);
      cbn [run]; (apply Rb_inht; [exact Hi|]; intros i i' Hin).
    - eapply Rb_bind; [exact (Rb_dcphase n n' Hnn i i' Hin)|]. intros a a' Ha. apply Rb_ok. auto.
    - eapply Rb_bind; [exact (Rb_sine n n' Hnn i i' Hin)|]. intros a a' [H1 H2]. apply Rb_ok. auto.
    - eapply Rb_bind; [exact (Rb_trendline n n' Hnn i i' Hin)|]. intros a a' Ha. apply Rb_ok. auto.
    - eapply Rb_bind; [exact (Rb_trendmode n n' Hnn i i' Hin)|]. intros a a' Ha. apply Rb_ok. auto.
  Qed.

  Lemma session_Rb steps env env' :
    Forall (fun s => valid (fst s)) steps -> Rls env env' -> Rb Rls (session env steps) (session env' steps).
  Proof.
    intro Hs. revert env env'. induction Hs as [|[x is] steps Hv Hs IH]; intros env env' He; cbn [session].
    - now apply Rb_ok.
    - eapply Rb_bind; [apply Rb_of, (pick_R (n:=n) (n':=n')), He|]. intros ins ins' Hi.
      eapply Rb_bind; [now apply run_Rb|]. intros o o' Ho. apply IH. now apply Forall2_app.
  Qed.
End F.

Lemma session_agree n n' (env env' : list (line (ext R))) steps outs outs' :
  (n <= n')%nat ->
  Forall2 (fun x x' => (1 <= lmp x)%Z /\ length (lser x) = n /\ length (lser x') = n' /\
                       extends x x') env env' ->
  Forall (fun s => valid (fst s)) steps ->
  session env steps = Ok outs -> session env' steps = Ok outs' -> Forall2 extends outs outs'.
Proof.
  intros Hn HE Hs He He'.
  assert (HR : Forall2 (@Rl (ext R) n n') env env').
  { clear -HE. induction HE as [|x y xs ys (A & B & C & D & E)]; constructor; auto. repeat split; auto. }
  pose proof (session_Rb n n' Hn steps _ _ Hs HR _ _ He He') as H.
  clear -H. induction H as [|x y xs ys (A & B & C & D & F)]; constructor; auto. split; auto.
Qed.

(** ** A missing price *)
Lemma add_nan (x : ext R) : vadd x NaN = NaN. Proof. destruct x; reflexivity. Qed.
Lemma sub_nan (x : ext R) : vsub x NaN = NaN. Proof. destruct x; reflexivity. Qed.
Lemma mul_nan (x : ext R) : vmul x NaN = NaN. Proof. destruct x; reflexivity. Qed.

Lemma ht_nan (d : deque7 (ext R)) adj : x6 d = NaN -> ht_ d adj = NaN.
Proof. intro H. unfold ht_. rewrite H. reflexivity. Qed.
Lemma step_nan (st : htst (ext R)) : h_sp (ht_step st NaN) = NaN.
Proof.
  unfold ht_step. cbv zeta. cbn [h_sp].
  set (adj := vadd (vmul (vofQ (75 # 1000)) (h_period st)) (vofQ (54 # 100))).
  set (price := dappend (h_price st) NaN).
  assert (Hd : ht_ price adj = NaN) by (apply ht_nan; reflexivity). rewrite Hd.
  set (det := dappend (h_det st) NaN).
  assert (Hq : ht_ det adj = NaN) by (apply ht_nan; reflexivity). rewrite Hq.
  set (q1 := dappend (h_q1 st) NaN).
  assert (Hj : ht_ q1 adj = NaN) by (apply ht_nan; reflexivity). rewrite Hj.
  rewrite sub_nan, !mix_nan_l.
  change (vadd NaN (ht_ (dappend (h_i1 st) (x3 det)) adj)) with (@NaN R).
  set (w := limit_period _ _). assert (Hw : w = NaN).
  { unfold w, raw_period. rewrite rad2deg_fin.
    change (if _ && _ then _ else _) with (@NaN R) at 1.
    unfold limit_period, pymin, pymax. cbn [vltb NumExt].
    assert (HL : forall x : ext R, eltb x NaN = false) by (intros [| | |]; reflexivity).
    rewrite !HL. reflexivity. }
  rewrite Hw, !mix_nan_l. reflexivity.
Qed.

Lemma dft_seen (s : list (ext R)) i c dcis a b :
  (i < length s)%nat -> (forall j, In j dcis -> (j <= i)%nat) ->
  exists r, dft_from s (Z.of_nat i) c dcis a b = Ok r.
Proof.
  intros Hi. revert a b. induction dcis as [|j dcis IH]; intros a b Hj; cbn [dft_from]; [eauto|].
  assert (Hji : (j <= i)%nat) by (apply Hj; now left).
  replace (Z.of_nat i - Z.of_nat j)%Z with (Z.of_nat (i - j)) by lia.
  destruct (nth_error s (i - j)) as [x|] eqn:E; [|apply nth_error_None in E; lia].
  rewrite (getitem_nat _ _ E). cbn [bind]. apply IH. intros j' H. apply Hj. now right.
Qed.
Lemma phase_seen (s : list (ext R)) d v ph :
  okp (S d) v -> (31 + d < length s)%nat ->
  (v = NaN /\ phase_at s (31 + d) v ph = Raise ValueError) \/ exists r, phase_at s (31 + d) v ph = Ok r.
Proof.
  intros Hv Hs. unfold phase_at. destruct (pyint _) as [z|e] eqn:E; cbn [bind].
  - right. destruct (bars_seen Hv E) as (w & -> & Hw). unfold dft.
    destruct (@dft_seen s (31 + d) (Z.of_nat w) (seq 0 (Z.to_nat (Z.of_nat w))) v0 v0) as [r ->]; auto.
    + intros j Hj. apply in_seq in Hj. lia.
    + cbn [bind]. eauto.
  - left. destruct Hv as [->|(q & -> & [H0 _] & _)].
    + split; [reflexivity|]. now injection E as <-.
    + rewrite pyint_fin in E by lra. discriminate.
Qed.

Section Missing.
  Variables s s0 : list (ext R).
  Lemma phase_missing rest d st ph :
    (31 + d + length rest <= length s)%nat -> st_ok d st -> In NaN rest ->
    phase_loop s (31 + d) st ph rest = Raise ValueError.
  Proof.
    revert d st ph. induction rest as [|p rest IH]; intros d st ph Hlen Hst Hin; [contradiction|].
    cbn [phase_loop length] in *. pose proof (step_ok p Hst) as Hst'.
    destruct (@phase_seen s d (h_sp (ht_step st p)) ph (proj2 Hst') ltac:(lia)) as [[_ ->]|[r E]]; [reflexivity|].
    destruct Hin as [->|Hin].
    - rewrite step_nan in *. exfalso. unfold phase_at, pyint in E. discriminate.
    - rewrite E. cbn [bind]. specialize (IH (S d) (ht_step st p) r ltac:(lia) Hst' Hin).
      replace (31 + S d)%nat with (S (31 + d)) in IH by lia. rewrite IH. reflexivity.
  Qed.
  Lemma trend_missing rest d st a b c :
    st_ok d st -> In NaN rest -> trend_loop s0 (31 + d) st a b c rest = Raise ValueError.
  Proof.
    revert d st a b c. induction rest as [|p rest IH]; intros d st a b c Hst Hin; [contradiction|].
    cbn [trend_loop] in *. pose proof (step_ok p Hst) as Hst'.
    destruct Hin as [->|Hin].
    - rewrite step_nan. reflexivity.
    - destruct (pyint _) as [z|e] eqn:E; cbn [bind].
      + specialize (IH (S d) (ht_step st p) (it_at s0 (31 + d) z) a b Hst' Hin).
        replace (31 + S d)%nat with (S (31 + d)) in IH by lia. rewrite IH. reflexivity.
      + destruct (proj2 Hst') as [Hv|(q & Hv & [H0 _] & _)]; rewrite Hv in E.
        * now injection E as <-.
        * rewrite pyint_fin in E by lra. discriminate.
  Qed.
  Lemma tm_missing rest d st S0 :
    (31 + d + length rest <= length s)%nat -> st_ok d st -> In NaN rest ->
    tm_loop s s0 (31 + d) st S0 rest = Raise ValueError.
  Proof.
    revert d st S0. induction rest as [|p rest IH]; intros d st S0 Hlen Hst Hin; [contradiction|].
    cbn [tm_loop length] in *. pose proof (step_ok p Hst) as Hst'. unfold tm_step at 1.
    destruct (@phase_seen s d (h_sp (ht_step st p)) (t_phase S0) (proj2 Hst') ltac:(lia)) as [[_ ->]|[r E]]; [reflexivity|].
    destruct Hin as [->|Hin].
    - rewrite step_nan in *. exfalso. unfold phase_at, pyint in E. discriminate.
    - rewrite E. cbn [bind]. destruct (pyint _) as [z|e] eqn:Ez; cbn [bind].
      + destruct (mode_at _ _ _ _ _ _ _ _ _ _) as [mm dd]. cbn [fst snd bind].
        match goal with |- context [tm_loop _ _ _ _ ?X _] =>
          specialize (IH (S d) (ht_step st p) X ltac:(lia) Hst' Hin) end.
        replace (31 + S d)%nat with (S (31 + d)) in IH by lia. rewrite IH. reflexivity.
      + destruct (proj2 Hst') as [Hv|(q & Hv & [H0 _] & _)]; rewrite Hv in Ez.
        * now injection Ez as <-.
        * rewrite pyint_fin in Ez by lra. discriminate.
  Qed.
End Missing.

(** the smoothed price of a bar is NaN when the price is *)
Lemma smooth_any (p0 : line (ext R)) n k f :
  feeds p0 n k f ->
  exists g, feeds (ht_p0smooth p0) n (k + 6) g /\ forall i, f i = NaN -> g i = NaN.
Proof.
  intro H. unfold ht_p0smooth.
  pose proof (@at_ago_delivers _ _ p0 n k 1 f H ltac:(lia)) as A1.
  pose proof (@at_ago_delivers _ _ p0 n k 2 f H ltac:(lia)) as A2.
  pose proof (@at_ago_delivers _ _ p0 n k 3 f H ltac:(lia)) as A3.
  pose proof (rbinop_s_delivers vmul (vofZ 4) H) as M0.
  pose proof (rbinop_s_delivers vmul (vofZ 3) (delivers_feeds A1)) as M1.
  pose proof (rbinop_s_delivers vmul (vofZ 2) (delivers_feeds A2)) as M2.
  pose proof (binop_delivers vadd (delivers_feeds M0) (delivers_feeds M1)) as S1.
  pose proof (binop_delivers vadd (delivers_feeds S1) (delivers_feeds M2)) as S2.
  pose proof (binop_delivers vadd (delivers_feeds S2) (delivers_feeds A3)) as S3.
  pose proof (binop_s_delivers vdiv (vofZ 10) (delivers_feeds S3)) as S4.
  pose proof (@period_feeds _ _ _ _ _ _ 3 (delivers_feeds S4)) as S5.
  replace (Nat.max (Nat.max (Nat.max k (k + 1)) (k + 2)) (k + 3) + 3)%nat with (k + 6)%nat in S5 by lia.
  eexists. split; [exact S5|]. intros i E. cbv beta. rewrite E. reflexivity.
Qed.

Lemma missing_all (a : line (ext R)) n k f i :
  feeds a n k f -> (k + 37 <= i < n)%nat -> f i = NaN ->
  ht_dcphase (HLine a) = Raise ValueError /\ ht_sine (HLine a) = Raise ValueError /\
  ht_trendline (HLine a) = Raise ValueError /\ ht_trendmode (HLine a) = Raise ValueError.
Proof.
  intros Ha Hi Hf. destruct (@smooth_any a n k f Ha) as (g & Hg & HN).
  set (sm := ht_p0smooth a) in *.
  set (w := map g (seq (k + 6) (n - (k + 6)))).
  assert (Hw : length w = (n - (k + 6))%nat) by (unfold w; now rewrite map_length, seq_length).
  assert (Hin : In NaN (skipn 31 w)).
  { unfold w. rewrite skipn_map_seq. apply in_map_iff. exists i. split; [now apply HN|]. apply in_seq. lia. }
  assert (Hz : phase_loop (zeroed 31 w) 31 ht0 v0 (skipn 31 w) = Raise ValueError).
  { apply (@phase_missing (zeroed 31 w) (skipn 31 w) 0 ht0 v0); [|apply ht0_ok|exact Hin].
    rewrite zeroed_length, skipn_length by lia. lia. }
  assert (Hmp : forall v b, In b [filled sm v] -> (lmp b <= lmp sm)%Z).
  { intros v b [<-|[]]. rewrite filled_mp. lia. }
  assert (Hmp0 : forall v b, In b [a; filled sm v] -> (lmp b <= lmp sm)%Z).
  { intros v b [<-|[<-|[]]]; [rewrite (feeds_mp Ha), (feeds_mp Hg)|rewrite filled_mp]; lia. }
  assert (Hmp2 : forall v b, In b [filled sm v; filled sm v] -> (lmp b <= lmp sm)%Z).
  { intros v b [<-|[<-|[]]]; rewrite filled_mp; lia. }
  assert (Hsl : slice_from (lser sm) (lmp sm - 1) = w).
  { rewrite (feeds_mp Hg), mp_idx, (@feeds_slice _ sm n (k + 6) g (k + 6) Hg) by lia. reflexivity. }
  split; [|split; [|split]].
  - unfold ht_dcphase. cbv zeta. cbn [ht_p0]. fold sm. unfold apply_.
    rewrite (max_mp_le sm _ (Hmp _)), Hsl. unfold dcphasize at 1. rewrite Hz. reflexivity.
  - unfold ht_sine. cbv zeta. cbn [ht_p0]. fold sm. unfold applymulti_.
    rewrite (max_mp_le sm _ (Hmp2 _)), Hsl. unfold sinize at 1. rewrite Hz. reflexivity.
  - unfold ht_trendline. cbv zeta. cbn [ht_p0]. fold sm. unfold apply_.
    rewrite (max_mp_le sm _ (Hmp0 _)), Hsl. cbn [map]. unfold trendlinize.
    rewrite (@trend_missing _ (skipn 31 w) 0 ht0 v0 v0 v0 ht0_ok Hin). reflexivity.
  - unfold ht_trendmode. cbv zeta. cbn [ht_p0]. fold sm. unfold apply_.
    rewrite (max_mp_le sm _ (Hmp0 _)), Hsl. cbn [map]. unfold trendmodize.
    rewrite (@tm_missing (zeroed 31 w) _ (skipn 31 w) 0 ht0 tm0); [reflexivity| |apply ht0_ok|exact Hin].
    rewrite zeroed_length, skipn_length by lia. lia.
Qed.
