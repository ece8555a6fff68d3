(** The parabolic system on finite lines. *)
From Coq Require Import ZArith QArith List Bool Lia Arith Reals Lra Psatz.
From Verif Require Import Num Series Line Spec RSpec BoundSpec SarSpec LineFacts ScanFacts RFacts OpFacts
  RLineFacts Apply IndSar.
Import ListNotations.
Set Implicit Arguments.
Local Open Scope R_scope.

(** ** apply_ *)
Lemma apply2_delivers {V} {N : Num V} (F : list V -> list (list V) -> res (list V)) (a b : line V) n ka kb f g r :
  feeds a n ka f -> feeds b n kb g ->
  let k := Nat.max ka kb in
  F (map f (seq k (n - k))) [map g (seq k (n - k))] = Ok (map r (seq k (n - k))) ->
  exists y, apply_ F a [b] = Ok y /\ delivers y n k r.
Proof.
  intros Ha Hb k HF. unfold apply_, max_mp. cbn [fold_left map].
  rewrite (feeds_mp Ha), (feeds_mp Hb).
  assert (MX : Z.max (Z.of_nat (S ka)) (Z.of_nat (S kb)) = Z.of_nat (S k)).
  { unfold k. rewrite <- Nat2Z.inj_max. f_equal. }
  rewrite MX, mp_idx, (@feeds_slice _ a n ka f k Ha) by (unfold k; lia).
  rewrite (@feeds_slice _ b n kb g k Hb) by (unfold k; lia). rewrite HF. cbn [bind].
  eexists. split; [reflexivity|]. rewrite clone_S, (feeds_len Ha).
  apply delivers_mk; [lia|]. intros i Hi. lia.
Qed.
Lemma apply2_raise {V} {N : Num V} (F : list V -> list (list V) -> res (list V)) (a b : line V) n ka kb f g e :
  feeds a n ka f -> feeds b n kb g ->
  let k := Nat.max ka kb in
  F (map f (seq k (n - k))) [map g (seq k (n - k))] = Raise e ->
  apply_ F a [b] = Raise e.
Proof.
  intros Ha Hb k HF. unfold apply_, max_mp. cbn [fold_left map].
  rewrite (feeds_mp Ha), (feeds_mp Hb).
  assert (MX : Z.max (Z.of_nat (S ka)) (Z.of_nat (S kb)) = Z.of_nat (S k)).
  { unfold k. rewrite <- Nat2Z.inj_max. f_equal. }
  rewrite MX, mp_idx, (@feeds_slice _ a n ka f k Ha) by (unfold k; lia).
  rewrite (@feeds_slice _ b n kb g k Hb) by (unfold k; lia). now rewrite HF.
Qed.

(** ** the real-valued loop *)
Record rst := mkR { r_long : bool; r_ext : R; r_stop : R; r_acc : R }.

Definition rstep (af afmax hi1 lo1 hi lo : R) (st : rst) : rst * R :=
  let '(lg, s, e, a) :=
    if r_long st then
      if Rle_dec lo (r_stop st) then (false, r_ext st, lo, af)
      else if Rlt_dec (r_ext st) hi then (true, r_stop st, hi, Rmin (r_acc st + af) afmax)
      else (true, r_stop st, r_ext st, r_acc st)
    else
      if Rle_dec (r_stop st) hi then (true, r_ext st, hi, af)
      else if Rlt_dec lo (r_ext st) then (false, r_stop st, lo, Rmin (r_acc st + af) afmax)
      else (false, r_stop st, r_ext st, r_acc st) in
  let next := s + a * (e - s) in
  (mkR lg e (if lg then Rmin next (Rmin lo lo1) else Rmax next (Rmax hi hi1)) a, s).

Definition toV (hi lo : R) (st : rst) : sarst (V:=ext R) :=
  mkSar (r_long st) (Fin (r_ext st)) (Fin (r_stop st)) (Fin (r_acc st)) (Fin hi) (Fin lo).

Lemma pymax_fin a b : pymax (Fin a) (Fin b) = Fin (Rmax a b).
Proof.
  unfold pymax. rewrite vltb_fin. unfold Rmax. destruct (Rltb_spec a b), (Rle_dec a b); try reflexivity; try lra.
  f_equal. lra.
Qed.
Lemma pymin_fin a b : pymin (Fin a) (Fin b) = Fin (Rmin a b).
Proof.
  unfold pymin. rewrite vltb_fin. unfold Rmin. destruct (Rltb_spec b a), (Rle_dec a b); try reflexivity; try lra.
Qed.

Lemma Rmax3 a b c : Rmax (Rmax a b) c = Rmax a (Rmax b c).
Proof. unfold Rmax. repeat destruct (Rle_dec _ _); lra. Qed.
Lemma Rmin3 a b c : Rmin (Rmin a b) c = Rmin a (Rmin b c).
Proof. unfold Rmin. repeat destruct (Rle_dec _ _); lra. Qed.

Lemma sar_step_fin af afmax hi1 lo1 hi lo st :
  sar_step (Fin af) (Fin afmax) (toV hi1 lo1 st) (Fin hi) (Fin lo) =
  (toV hi lo (fst (rstep af afmax hi1 lo1 hi lo st)), Fin (snd (rstep af afmax hi1 lo1 hi lo st))).
Proof.
  unfold sar_step, rstep, toV. cbn [s_trend s_ep s_sar s_af s_hi s_lo].
  rewrite !vleb_fin, !vltb_fin.
  destruct (r_long st).
  - destruct (Rltb_spec (r_stop st) lo), (Rle_dec lo (r_stop st)); try lra; cbn [negb].
    + destruct (Rltb_spec (r_ext st) hi), (Rlt_dec (r_ext st) hi); try lra; cbn [fst snd r_long r_ext r_stop r_acc];
        repeat rewrite ?vadd_fin, ?vmul_fin, ?vsub_fin, ?pymin_fin; rewrite ?Rmin3; reflexivity.
    + cbn [fst snd r_long r_ext r_stop r_acc]. repeat rewrite ?vadd_fin, ?vmul_fin, ?vsub_fin, ?pymax_fin.
      rewrite ?Rmax3. reflexivity.
  - destruct (Rltb_spec hi (r_stop st)), (Rle_dec (r_stop st) hi); try lra; cbn [negb].
    + destruct (Rltb_spec lo (r_ext st)), (Rlt_dec lo (r_ext st)); try lra; cbn [fst snd r_long r_ext r_stop r_acc];
        repeat rewrite ?vadd_fin, ?vmul_fin, ?vsub_fin, ?pymin_fin, ?pymax_fin; rewrite ?Rmax3; reflexivity.
    + cbn [fst snd r_long r_ext r_stop r_acc]. repeat rewrite ?vadd_fin, ?vmul_fin, ?vsub_fin, ?pymin_fin.
      rewrite ?Rmin3. reflexivity.
Qed.

Lemma sar_loop_scan (AF AFMAX : ext R) st h l :
  sar_loop AF AFMAX st h l = scan (fun s '(hi, lo) => sar_step AF AFMAX s hi lo) st (combine h l).
Proof.
  revert st l; induction h as [|a h IH]; intros st [|b l]; try reflexivity.
  cbn [sar_loop combine scan]. destruct (sar_step AF AFMAX st a b). now rewrite IH.
Qed.

Lemma combine_map_seq {A B} (f : nat -> A) (g : nat -> B) j m :
  combine (map f (seq j m)) (map g (seq j m)) = map (fun i => (f i, g i)) (seq j m).
Proof. revert j; induction m as [|m IH]; intro j; simpl; [reflexivity|]. now rewrite IH. Qed.

Section Run.
  Variables (h l : nat -> R) (k : nat) (af afmax : R).

  Definition downtrend : bool :=
    if Rlt_dec 0 (l k - l (S k)) then
      if Rlt_dec (h (S k) - h k) (l k - l (S k)) then true else false
    else false.
  Definition rst0 : rst :=
    let lg := negb downtrend in
    mkR lg (if lg then h (S k) else l (S k)) (if lg then l k else h k) af.

  (** state after bar k + d *)
  Fixpoint stt (d : nat) : rst :=
    match d with
    | 0%nat => rst0
    | S d' => let i := (k + S d')%nat in
              fst (rstep af afmax (h (before k i)) (l (before k i)) (h i) (l i) (stt d'))
    end.
  Definition outt (i : nat) : R :=
    snd (rstep af afmax (h (before k i)) (l (before k i)) (h i) (l i) (stt (i - 1 - k))).

  Lemma start_trend_fin : start_trend (Fin (h k)) (Fin (l k)) (Fin (h (S k))) (Fin (l (S k))) = negb downtrend.
  Proof.
    unfold start_trend, downtrend. rewrite !vsub_fin, v0_fin, pymax_fin, vltb_fin.
    f_equal. set (dm := l k - l (S k)). set (um := h (S k) - h k).
    replace (vmul (Fin (Rmax dm 0)) (vofbool (Rltb um dm))) with (Fin (if Rltb um dm then Rmax dm 0 else 0)).
    2:{ unfold vofbool. destruct (Rltb um dm); [rewrite v1_fin|rewrite v0_fin]; rewrite vmul_fin; f_equal; ring. }
    rewrite vltb_fin. destruct (Rltb_spec um dm), (Rlt_dec um dm); try lra.
    - unfold Rmax. destruct (Rle_dec dm 0), (Rlt_dec 0 dm); try lra.
      + destruct (Rltb_spec 0 0); [lra|reflexivity].
      + destruct (Rltb_spec 0 dm); [reflexivity|lra].
    - destruct (Rltb_spec 0 0); [lra|]. now destruct (Rlt_dec 0 dm).
  Qed.

  Let step := fun s '(hi, lo) => sar_step (Fin af) (Fin afmax) s hi lo.
  Let f := fun i => (Fin (h i), Fin (l i)).

  Lemma stt_scan d :
    scan_st step f (S k) (toV (h (S k)) (l (S k)) rst0) d =
    toV (h (Nat.max (S k) (k + d))) (l (Nat.max (S k) (k + d))) (stt d).
  Proof.
    induction d as [|d IH].
    - cbn [scan_st stt]. now replace (Nat.max (S k) (k + 0)) with (S k) by lia.
    - cbn [scan_st]. rewrite IH. unfold step, f. rewrite sar_step_fin. cbn [fst stt].
      replace (S k + d)%nat with (k + S d)%nat by lia. unfold before.
      replace (Nat.max (S k) (k + S d)) with (k + S d)%nat by lia.
      now replace (k + S d - 1)%nat with (k + d)%nat by lia.
  Qed.

  Lemma sar_loop_fin m :
    sar_loop (Fin af) (Fin afmax) (toV (h (S k)) (l (S k)) rst0) (map (fin h) (seq (S k) m)) (map (fin l) (seq (S k) m)) =
    map (fin outt) (seq (S k) m).
  Proof.
    rewrite sar_loop_scan, combine_map_seq. change (fun i => (fin h i, fin l i)) with f.
    fold step. rewrite scan_seq. apply map_ext_seq. intros i Hi. rewrite stt_scan. unfold step, f.
    rewrite sar_step_fin. cbn [snd]. unfold fin, outt, before.
    replace (k + (i - S k))%nat with (i - 1)%nat by lia. now replace (i - S k)%nat with (i - 1 - k)%nat by lia.
  Qed.

  Lemma sarize_fin m : (2 <= m)%nat ->
    sarize (Fin af) (Fin afmax) (map (fin h) (seq k m)) (map (fin l) (seq k m)) =
    Ok (map (fun i => if Nat.eqb i k then NaN else Fin (outt i)) (seq k m)).
  Proof.
    intro Hm. destruct m as [|[|m]]; [lia|lia|]. cbn [seq map]. unfold sarize. cbn [tl].
    unfold fin. rewrite start_trend_fin.
    assert (E : (if negb downtrend then (Fin (h (S k)), Fin (l k)) else (Fin (l (S k)), Fin (h k))) =
                (Fin (r_ext rst0), Fin (r_stop rst0))).
    { unfold rst0. cbn [r_ext r_stop]. now destruct downtrend. }
    rewrite E. f_equal. rewrite Nat.eqb_refl. f_equal.
    change (mkSar (negb downtrend) (Fin (r_ext rst0)) (Fin (r_stop rst0)) (Fin af) (Fin (h (S k))) (Fin (l (S k))))
      with (toV (h (S k)) (l (S k)) rst0).
    assert (L := sar_loop_fin (S m)). cbn [seq map] in L. unfold fin in *. rewrite L.
    f_equal; [destruct (Nat.eqb_spec (S k) k); [lia|reflexivity]|].
    apply map_ext_seq. intros i Hi. destruct (Nat.eqb_spec i k); [lia|reflexivity].
  Qed.

  (** the loop is Wilder's system *)
  Definition longf i := r_long (stt (i - k)).
  Definition extf i := r_ext (stt (i - k)).
  Definition accf i := r_acc (stt (i - k)).
  Definition stopf i := r_stop (stt (i - 1 - k)).

  Lemma psar_holds n : psar h l k n af afmax longf stopf outt extf accf.
  Proof.
    split.
    - unfold psar_start, longf, stopf, extf, accf.
      replace (S k - 1 - k)%nat with 0%nat by lia. rewrite Nat.sub_diag. cbn [stt].
      unfold rst0, downtrend. cbn [r_long r_ext r_stop r_acc].
      split; [|split; [|split]]; try reflexivity.
      destruct (Rlt_dec 0 (l k - l (S k))), (Rlt_dec (h (S k) - h k) (l k - l (S k))); cbn [negb];
        (split; [intro E; try discriminate E; split; assumption|intros [A B]; try reflexivity; try contradiction]).
    - intros i Hi.
      assert (Es : stt (i - k) = fst (rstep af afmax (h (before k i)) (l (before k i)) (h i) (l i) (stt (i - 1 - k)))).
      { replace (i - k)%nat with (S (i - 1 - k)) by lia. cbn [stt].
        now replace (k + S (i - 1 - k))%nat with i by lia. }
      unfold psar_bar, hit, longf, extf, accf, stopf.
      replace (S i - 1 - k)%nat with (i - k)%nat by lia.
      rewrite Es. unfold outt. set (st := stt (i - 1 - k)). unfold rstep.
      destruct (r_long st) eqn:EL; cbn [negb].
      + destruct (Rle_dec (l i) (r_stop st)) as [A|A].
        * cbn [fst snd r_long r_ext r_stop r_acc]. split; [intros _; repeat split; reflexivity|].
          split; [intro B; contradiction|]. reflexivity.
        * destruct (Rlt_dec (r_ext st) (h i)) as [B|B]; cbn [fst snd r_long r_ext r_stop r_acc].
          -- split; [intro C; contradiction|]. split; [|reflexivity].
             intros _. split; [reflexivity|]. split; [reflexivity|]. split; [rewrite Rmax_right; lra|].
             destruct (Req_EM_T (h i) (r_ext st)); [lra|reflexivity].
          -- split; [intro C; contradiction|]. split; [|reflexivity].
             intros _. split; [reflexivity|]. split; [reflexivity|]. split; [rewrite Rmax_left; lra|].
             destruct (Req_EM_T (r_ext st) (r_ext st)); [reflexivity|lra].
      + destruct (Rle_dec (r_stop st) (h i)) as [A|A].
        * cbn [fst snd r_long r_ext r_stop r_acc]. split; [intros _; repeat split; reflexivity|].
          split; [intro B; contradiction|]. reflexivity.
        * destruct (Rlt_dec (l i) (r_ext st)) as [B|B]; cbn [fst snd r_long r_ext r_stop r_acc].
          -- split; [intro C; contradiction|]. split; [|reflexivity].
             intros _. split; [reflexivity|]. split; [reflexivity|]. split; [rewrite Rmin_right; lra|].
             destruct (Req_EM_T (l i) (r_ext st)); [lra|reflexivity].
          -- split; [intro C; contradiction|]. split; [|reflexivity].
             intros _. split; [reflexivity|]. split; [reflexivity|]. split; [rewrite Rmin_left; lra|].
             destruct (Req_EM_T (r_ext st) (r_ext st)); [reflexivity|lra].
  Qed.
End Run.

Lemma period1_delivers {V} {N : Num V} (a : line V) n k f :
  delivers a n k f -> f k = vnan -> delivers (period_ a 1 false None) n (S k) f.
Proof.
  intros [(M & L & F) W] Hk. unfold period_. replace (1 - 0 =? 0)%Z with false by reflexivity.
  split; [split; [|split]|]; cbn [lmp lser].
  - rewrite M. lia.
  - exact L.
  - intros i Hi. apply F. lia.
  - intros i Hi Hn. destruct (Nat.eq_dec i k) as [->|]; [rewrite F by lia; now rewrite Hk|apply W; lia].
Qed.

Lemma sar_delivers (hl ll : line (ext R)) n kh kl xh xl af afmax :
  feeds hl n kh (fin xh) -> feeds ll n kl (fin xl) ->
  let k := Nat.max kh kl in
  (k + 2 <= n)%nat ->
  exists y, sar (Fin af) (Fin afmax) hl ll = Ok y /\
    delivers y n (S k) (fin (outt xh xl k af afmax)).
Proof.
  intros Hh Hl k Hn. unfold sar.
  destruct (@apply2_delivers _ _ (fun h args => match args with l :: _ => sarize (Fin af) (Fin afmax) h l | [] => Raise TypeError end)
      hl ll n kh kl (fin xh) (fin xl) (fun i => if Nat.eqb i k then NaN else Fin (outt xh xl k af afmax i)) Hh Hl)
    as (y & E & D).
  { fold k. apply sarize_fin. lia. }
  rewrite E. cbn [bind]. eexists. split; [reflexivity|].
  eapply delivers_ext; [|apply period1_delivers; [exact D|]].
  - intros i Hi. cbv beta. fold k in Hi. destruct (Nat.eqb_spec i k); [lia|reflexivity].
  - cbv beta. fold k. now rewrite Nat.eqb_refl.
Qed.

Lemma sar_short (AF AFMAX : ext R) (hl ll : line (ext R)) n kh kl f g :
  feeds hl n kh f -> feeds ll n kl g ->
  (n < Nat.max kh kl + 2)%nat -> sar AF AFMAX hl ll = Raise IndexError.
Proof.
  intros Hh Hl Hn. unfold sar.
  rewrite (@apply2_raise _ _ _ hl ll n kh kl f g IndexError Hh Hl); [reflexivity|].
  set (k := Nat.max kh kl) in *. destruct (n - k)%nat as [|[|m]] eqn:E; [reflexivity|reflexivity|lia].
Qed.

(** ** the extended system *)
Record xst := mkX { x_long : bool; x_e : R; x_s : R; x_al : R; x_as : R }.
Record xpar := mkXP { pal : R; paxl : R; pas : R; paxs : R; poffs : R }.

Definition xstep (P : xpar) (hi1 lo1 hi lo : R) (st : xst) : xst * R :=
  if x_long st then
    if Rle_dec lo (x_s st) then
      let s := x_e st + x_s st * poffs P in
      (mkX false lo (Rmax (s + pas P * (lo - s)) (Rmax hi hi1)) (x_al st) (pas P), - s)
    else
      let '(e, a) := if Rlt_dec (x_e st) hi then (hi, Rmin (x_al st + pal P) (paxl P)) else (x_e st, x_al st) in
      (mkX true e (Rmin (x_s st + a * (e - x_s st)) (Rmin lo lo1)) a (x_as st), x_s st)
  else
    if Rle_dec (x_s st) hi then
      let s := x_e st - x_s st * poffs P in
      (mkX true hi (Rmin (s + pal P * (hi - s)) (Rmin lo lo1)) (pal P) (x_as st), s)
    else
      let '(e, a) := if Rlt_dec lo (x_e st) then (lo, Rmin (x_as st + pas P) (paxs P)) else (x_e st, x_as st) in
      (mkX false e (Rmax (x_s st + a * (e - x_s st)) (Rmax hi hi1)) (x_al st) a, - x_s st).

Definition toVX (hi lo : R) (st : xst) : sarxst (V:=ext R) :=
  mkSarx (x_long st) (Fin (x_e st)) (Fin (x_s st)) (Fin (x_al st)) (Fin (x_as st)) (Fin hi) (Fin lo).
Definition toVP (P : xpar) : sarpar (V:=ext R) :=
  mkSarPar (Fin (pal P)) (Fin (paxl P)) (Fin (pas P)) (Fin (paxs P)) (Fin (poffs P)).

Lemma vneg_fin a : vneg (Fin a) = Fin (- a).
Proof. unfold vneg. rewrite v0_fin, vsub_fin. f_equal. ring. Qed.

Lemma sarx_step_fin P hi1 lo1 hi lo st :
  sarx_step (toVP P) (toVX hi1 lo1 st) (Fin hi) (Fin lo) =
  (toVX hi lo (fst (xstep P hi1 lo1 hi lo st)), Fin (snd (xstep P hi1 lo1 hi lo st))).
Proof.
  unfold sarx_step, xstep, toVX, toVP.
  cbn [x_trend x_ep x_sar x_afl x_afs x_hi x_lo AFL AFXL AFS AFXS OFFS].
  rewrite !vleb_fin, !vltb_fin.
  destruct (x_long st).
  - destruct (Rltb_spec (x_s st) lo), (Rle_dec lo (x_s st)); try lra; cbn [negb].
    + destruct (Rltb_spec (x_e st) hi), (Rlt_dec (x_e st) hi); try lra; cbn [fst snd x_long x_e x_s x_al x_as];
        repeat rewrite ?vadd_fin, ?vmul_fin, ?vsub_fin, ?pymin_fin; rewrite ?Rmin3; reflexivity.
    + cbn [fst snd x_long x_e x_s x_al x_as]. repeat rewrite ?vadd_fin, ?vmul_fin, ?vsub_fin, ?pymax_fin, ?vneg_fin.
      rewrite ?Rmax3. reflexivity.
  - destruct (Rltb_spec hi (x_s st)), (Rle_dec (x_s st) hi); try lra; cbn [negb].
    + destruct (Rltb_spec lo (x_e st)), (Rlt_dec lo (x_e st)); try lra; cbn [fst snd x_long x_e x_s x_al x_as];
        repeat rewrite ?vadd_fin, ?vmul_fin, ?vsub_fin, ?pymin_fin, ?pymax_fin, ?vneg_fin; rewrite ?Rmax3; reflexivity.
    + cbn [fst snd x_long x_e x_s x_al x_as]. repeat rewrite ?vadd_fin, ?vmul_fin, ?vsub_fin, ?pymin_fin.
      rewrite ?Rmin3. reflexivity.
Qed.

Lemma sarx_loop_scan (P : sarpar (V:=ext R)) st h l :
  sarx_loop P st h l = scan (fun s '(hi, lo) => sarx_step P s hi lo) st (combine h l).
Proof.
  revert st l; induction h as [|a h IH]; intros st [|b l]; try reflexivity.
  cbn [sarx_loop combine scan]. destruct (sarx_step P st a b). now rewrite IH.
Qed.

Section RunX.
  Variables (h l : nat -> R) (k : nat) (start : R) (P : xpar).

  Definition xlong0 : bool :=
    if Req_EM_T start 0 then negb (downtrend h l k) else if Rlt_dec 0 start then true else false.
  Definition xst0 : xst :=
    mkX xlong0 (if xlong0 then h (S k) else l (S k))
        (if Req_EM_T start 0 then (if xlong0 then l k else h k) else Rabs start) (pal P) (pas P).

  Fixpoint xstt (d : nat) : xst :=
    match d with
    | 0%nat => xst0
    | S d' => let i := (k + S d')%nat in
              fst (xstep P (h (before k i)) (l (before k i)) (h i) (l i) (xstt d'))
    end.
  Definition xout (i : nat) : R :=
    snd (xstep P (h (before k i)) (l (before k i)) (h i) (l i) (xstt (i - 1 - k))).

  Let step := fun s '(hi, lo) => sarx_step (toVP P) s hi lo.
  Let f := fun i => (Fin (h i), Fin (l i)).

  Lemma xstt_scan d :
    scan_st step f (S k) (toVX (h (S k)) (l (S k)) xst0) d =
    toVX (h (Nat.max (S k) (k + d))) (l (Nat.max (S k) (k + d))) (xstt d).
  Proof.
    induction d as [|d IH].
    - cbn [scan_st xstt]. now replace (Nat.max (S k) (k + 0)) with (S k) by lia.
    - cbn [scan_st]. rewrite IH. unfold step, f. rewrite sarx_step_fin. cbn [fst xstt].
      replace (S k + d)%nat with (k + S d)%nat by lia. unfold before.
      replace (Nat.max (S k) (k + S d)) with (k + S d)%nat by lia.
      now replace (k + S d - 1)%nat with (k + d)%nat by lia.
  Qed.

  Lemma sarx_loop_fin m :
    sarx_loop (toVP P) (toVX (h (S k)) (l (S k)) xst0) (map (fin h) (seq (S k) m)) (map (fin l) (seq (S k) m)) =
    map (fin xout) (seq (S k) m).
  Proof.
    rewrite sarx_loop_scan, combine_map_seq. change (fun i => (fin h i, fin l i)) with f.
    fold step. rewrite scan_seq. apply map_ext_seq. intros i Hi. rewrite xstt_scan. unfold step, f.
    rewrite sarx_step_fin. cbn [snd]. unfold fin, xout, before.
    replace (k + (i - S k))%nat with (i - 1)%nat by lia. now replace (i - S k)%nat with (i - 1 - k)%nat by lia.
  Qed.

  Lemma sarxize_fin m : (2 <= m)%nat ->
    sarxize (Fin start) (toVP P) (map (fin h) (seq k m)) (map (fin l) (seq k m)) =
    Ok (map (fun i => if Nat.eqb i k then NaN else Fin (xout i)) (seq k m)).
  Proof.
    intro Hm. destruct m as [|[|m]]; [lia|lia|]. cbn [seq map]. unfold sarxize. cbn [tl].
    unfold fin. rewrite start_trend_fin, v0_fin, veqb_fin, vltb_fin.
    cbv zeta.
    assert (E : (if beqb start 0 then
                   if negb (downtrend h l k) then (negb (downtrend h l k), Fin (h (S k)), Fin (l k))
                   else (negb (downtrend h l k), Fin (l (S k)), Fin (h k))
                 else if Rltb 0 start then (true, Fin (h (S k)), Fin start)
                 else (false, Fin (l (S k)), vabs (Fin start))) =
                (x_long xst0, Fin (x_e xst0), Fin (x_s xst0))).
    { unfold xst0, xlong0. cbn [x_long x_e x_s].
      destruct (beqb_spec start 0) as [E|E], (Req_EM_T start 0); try contradiction.
      - now destruct (downtrend h l k).
      - destruct (Rltb_spec 0 start), (Rlt_dec 0 start); try lra.
        + now rewrite Rabs_pos_eq by lra.
        + now rewrite vabs_fin. }
    rewrite E. f_equal. rewrite Nat.eqb_refl. f_equal.
    change (mkSarx (x_long xst0) (Fin (x_e xst0)) (Fin (x_s xst0)) (AFL (toVP P)) (AFS (toVP P)) (Fin (h (S k))) (Fin (l (S k))))
      with (toVX (h (S k)) (l (S k)) xst0).
    assert (L := sarx_loop_fin (S m)). cbn [seq map] in L. unfold fin in *. rewrite L.
    f_equal; [destruct (Nat.eqb_spec (S k) k); [lia|reflexivity]|].
    apply map_ext_seq. intros i Hi. destruct (Nat.eqb_spec i k); [lia|reflexivity].
  Qed.

  Definition xlongf i := x_long (xstt (i - k)).
  Definition xextf i := x_e (xstt (i - k)).
  Definition xaccf i := if xlongf i then x_al (xstt (i - k)) else x_as (xstt (i - k)).
  Definition xstopf i := x_s (xstt (i - 1 - k)).
  Definition xsarf i := if xlongf i then xout i else - xout i.

  Definition bothl (b : bool) := if b then pal P else pas P.
  Definition bothx (b : bool) := if b then paxl P else paxs P.

  Lemma psarx_holds n : psarx h l k n xlongf xstopf xsarf xextf xaccf start (poffs P) bothl bothx.
  Proof.
    split.
    - unfold psarx_start, xlongf, xstopf, xextf, xaccf, xlongf.
      replace (S k - 1 - k)%nat with 0%nat by lia. rewrite Nat.sub_diag. cbn [xstt].
      unfold xst0. cbn [x_long x_e x_s x_al x_as].
      split; [|split; [|split]]; try reflexivity.
      + intros Z. unfold xlong0. destruct (Req_EM_T start 0); [|contradiction]. split; [|reflexivity].
        unfold downtrend.
        destruct (Rlt_dec 0 (l k - l (S k))), (Rlt_dec (h (S k) - h k) (l k - l (S k))); cbn [negb];
          (split; [intro E; try discriminate E; split; assumption|intros [A B]; try reflexivity; try contradiction]).
      + intros NZ. unfold xlong0. destruct (Req_EM_T start 0); [contradiction|]. split; [|reflexivity].
        destruct (Rlt_dec 0 start); split; intro E; try reflexivity; try assumption; try discriminate E; contradiction.
    - intros i Hi.
      assert (Es : xstt (i - k) = fst (xstep P (h (before k i)) (l (before k i)) (h i) (l i) (xstt (i - 1 - k)))).
      { replace (i - k)%nat with (S (i - 1 - k)) by lia. cbn [xstt].
        now replace (k + S (i - 1 - k))%nat with i by lia. }
      unfold psarx_bar, hit, xsarf, xaccf, xextf, xlongf, xstopf.
      replace (S i - 1 - k)%nat with (i - k)%nat by lia.
      rewrite Es. unfold xout. set (st := xstt (i - 1 - k)). unfold xstep, bothl, bothx.
      destruct (x_long st) eqn:EL; cbn [negb].
      + destruct (Rle_dec (l i) (x_s st)) as [A|A].
        * cbn [fst snd x_long x_e x_s x_al x_as]. split; [intros _; split; [reflexivity|split; [ring|split; reflexivity]]|].
          split; [intro B; contradiction|]. now rewrite !Ropp_involutive.
        * destruct (Rlt_dec (x_e st) (h i)) as [B|B]; cbn [fst snd x_long x_e x_s x_al x_as].
          -- split; [intro C; contradiction|]. split; [|reflexivity].
             intros _. split; [reflexivity|]. split; [reflexivity|]. split; [rewrite Rmax_right; lra|].
             destruct (Req_EM_T (h i) (x_e st)); [lra|reflexivity].
          -- split; [intro C; contradiction|]. split; [|reflexivity].
             intros _. split; [reflexivity|]. split; [reflexivity|]. split; [rewrite Rmax_left; lra|].
             destruct (Req_EM_T (x_e st) (x_e st)); [reflexivity|lra].
      + destruct (Rle_dec (x_s st) (h i)) as [A|A].
        * cbn [fst snd x_long x_e x_s x_al x_as]. split; [intros _; split; [reflexivity|split; [ring|split; reflexivity]]|].
          split; [intro B; contradiction|]. reflexivity.
        * destruct (Rlt_dec (l i) (x_e st)) as [B|B]; cbn [fst snd x_long x_e x_s x_al x_as].
          -- split; [intro C; contradiction|]. split; [|now rewrite !Ropp_involutive].
             intros _. split; [reflexivity|]. split; [ring|]. split; [rewrite Rmin_right; lra|].
             destruct (Req_EM_T (l i) (x_e st)); [lra|reflexivity].
          -- split; [intro C; contradiction|]. split; [|now rewrite !Ropp_involutive].
             intros _. split; [reflexivity|]. split; [ring|]. split; [rewrite Rmin_left; lra|].
             destruct (Req_EM_T (x_e st) (x_e st)); [reflexivity|lra].
  Qed.
End RunX.

Lemma sarext_delivers (hl ll : line (ext R)) n kh kl xh xl start P :
  feeds hl n kh (fin xh) -> feeds ll n kl (fin xl) ->
  let k := Nat.max kh kl in
  (k + 2 <= n)%nat ->
  exists y, sarext (Fin start) (toVP P) hl ll = Ok y /\
    delivers y n (S k) (fin (xout xh xl k start P)).
Proof.
  intros Hh Hl k Hn. unfold sarext.
  destruct (@apply2_delivers _ _ (fun h args => match args with l :: _ => sarxize (Fin start) (toVP P) h l | [] => Raise TypeError end)
      hl ll n kh kl (fin xh) (fin xl) (fun i => if Nat.eqb i k then NaN else Fin (xout xh xl k start P i)) Hh Hl)
    as (y & E & D).
  { fold k. apply sarxize_fin. lia. }
  rewrite E. cbn [bind]. eexists. split; [reflexivity|].
  eapply delivers_ext; [|apply period1_delivers; [exact D|]].
  - intros i Hi. cbv beta. fold k in Hi. destruct (Nat.eqb_spec i k); [lia|reflexivity].
  - cbv beta. fold k. now rewrite Nat.eqb_refl.
Qed.

Lemma sarext_short (S0 : ext R) P (hl ll : line (ext R)) n kh kl f g :
  feeds hl n kh f -> feeds ll n kl g ->
  (n < Nat.max kh kl + 2)%nat -> sarext S0 P hl ll = Raise IndexError.
Proof.
  intros Hh Hl Hn. unfold sarext.
  rewrite (@apply2_raise _ _ _ hl ll n kh kl f g IndexError Hh Hl); [reflexivity|].
  set (k := Nat.max kh kl) in *. destruct (n - k)%nat as [|[|m]] eqn:E; [reflexivity|reflexivity|lia].
Qed.
