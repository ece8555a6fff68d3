(** The statements of C41 and C42. *)
From Coq Require Import ZArith List Bool Lia Arith Reals Lra.
From Verif Require Import Num Series Line Spec RSpec MavpSpec LineFacts ScanFacts RFacts OpFacts
  IndMA MAFacts RLineFacts Expr CausalFacts WarmFacts PropMAFacts PropLinesFacts Apply IndMavp MavpFacts.
Import ListNotations.
Set Implicit Arguments.

Lemma clip_clamp lo hi p : lo <= hi -> clip_period lo hi p = clamp lo hi p.
Proof. intro H. unfold clip_period, clamp. lia. Qed.
Lemma map_clamp lo hi ps : lo <= hi -> map (clip_period lo hi) ps = map (clamp lo hi) ps.
Proof. intro H. apply map_ext. intro. now apply clip_clamp. Qed.

Lemma longest_largest lo hi ps : lo <= hi -> ps <> [] -> largest_period lo hi ps (longest lo hi ps).
Proof.
  intros H NE. destruct (longest_spec lo hi NE) as [A (i & Hi & B)]. split.
  - rewrite <- map_clamp by exact H. rewrite <- B. now apply chosen_in.
  - intros p Hp. rewrite <- clip_clamp by exact H.
    apply In_nth with (d := 0) in Hp. destruct Hp as (j & Hj & <-). apply (A j Hj).
Qed.
Lemma largest_unique lo hi ps M M' : largest_period lo hi ps M -> largest_period lo hi ps M' -> M = M'.
Proof.
  intros [A B] [A' B'].
  apply in_map_iff in A. destruct A as (p & <- & Hp).
  apply in_map_iff in A'. destruct A' as (p' & <- & Hp').
  apply Nat.le_antisymm; auto.
Qed.

Section Gen.
  Context {V : Type} {N : Num V}.

  Lemma mavp_any (talib : bool) (ma : ma_fun V) lo hi (close : line V) periods n k f g M :
    feeds close n k f -> length periods = n -> 1 <= n -> 1 <= lo <= hi ->
    (if talib then M = hi else largest_period lo hi periods M) ->
    (forall p, In p (map (clamp lo hi) periods) -> exists y, ma p close = Ok y /\ delivers y n (k + p - 1) (g p)) ->
    exists y, mavp talib ma lo hi close periods = Ok y /\
      delivers y n (k + M - 1) (fun i => g (clamp lo hi (nth i periods 0)) i).
  Proof.
    intros Ha Hper Hn Hlo HM Hma.
    assert (NE : periods <> []) by (destruct periods; [simpl in Hper; lia|discriminate]).
    assert (EM : (if talib then hi else longest lo hi periods) = M).
    { destruct talib; [now symmetry|]. eapply largest_unique; [|exact HM]. now apply longest_largest. }
    assert (BD : forall p, In p (map (clamp lo hi) periods) -> 1 <= p <= M).
    { intros p Hp. apply in_map_iff in Hp. destruct Hp as (q & <- & Hq).
      destruct talib; [subst M; unfold clamp; lia|]. split; [unfold clamp; lia|apply HM; exact Hq]. }
    set (Y := fun p => match ma p close with Ok y => y | Raise _ => close end).
    assert (S := @mavp_shape V N talib ma lo hi close periods Y k n (feeds_mp Ha) (feeds_len Ha) Hper Hn).
    cbv zeta in S. rewrite EM in S.
    assert (M1 : 1 <= M).
    { assert (I := chosen_in lo hi (i:=0) periods ltac:(lia)). rewrite map_clamp in I by lia. apply BD in I. lia. }
    rewrite S; [|exact M1|].
    - eexists. split; [reflexivity|]. apply line_delivers_eq; [reflexivity|]. cbn [lser].
      apply map_ext_in. intros i Hi. apply in_seq in Hi. destruct (Nat.ltb_spec i (k + M - 1)); [reflexivity|].
      assert (I : In (chosen lo hi periods i) (map (clamp lo hi) periods)).
      { rewrite <- map_clamp by lia. apply chosen_in. lia. }
      destruct (Hma _ I) as (y & E & (D & _)). unfold Y. rewrite E.
      destruct (BD _ I) as [B1 B2]. destruct D as (_ & _ & D).
      erewrite nth_error_nth by (apply D; lia). unfold chosen. now rewrite clip_clamp by lia.
    - intros p Hp. rewrite map_clamp in Hp by lia. destruct (Hma p Hp) as (y & E & (D & _)).
      unfold Y. rewrite E. split; [reflexivity|]. destruct (BD p Hp) as [B1 B2].
      split; [rewrite (feeds_mp D); lia|exact (feeds_len D)].
  Qed.

  Lemma mavp_raises talib (ma : ma_fun V) lo hi (close : line V) periods e :
    lo <= hi ->
    (forall p, In p (map (clamp lo hi) periods) -> ma p close = Raise e \/ exists y, ma p close = Ok y) ->
    (exists p, In p (map (clamp lo hi) periods) /\ ma p close = Raise e) ->
    mavp talib ma lo hi close periods = Raise e.
  Proof.
    intros Hlo H (p & Hp & E). unfold mavp. rewrite map_clamp by exact Hlo.
    rewrite (@traverse_raise _ _ _ _ e); [reflexivity| |].
    - intros q Hq. apply (proj1 (unique_in _ q)) in Hq. destruct (H q Hq) as [-> |[y ->]]; [now left|right].
      cbn [bind]. eauto.
    - exists p. split; [now apply unique_in|]. now rewrite E.
  Qed.

  (** ** repainting *)
  Lemma extends_feeds (a a' : line V) : extends a a' ->
    forall i v, nth_error (lser a) i = Some v -> nth_error (lser a') i = Some v.
  Proof.
    intros [_ [t ->]] i v H. rewrite nth_error_app1; [exact H|]. apply nth_error_Some. congruence.
  Qed.
  Lemma line_feeds (a : line V) n : (1 <= lmp a)%Z -> length (lser a) = n ->
    feeds a n (Z.to_nat (lmp a - 1)) (fun i => nth i (lser a) vnan).
  Proof.
    intros H L. split; [lia|]. split; [exact L|]. intros i Hi. apply nth_error_nth'. lia.
  Qed.

  Lemma mavp_steady_shape (talib : bool) (ma : ma_fun V) lo hi (close : line V) periods M :
    steady ma -> (1 <= lmp close)%Z -> length periods = length (lser close) -> periods <> [] -> 1 <= lo <= hi ->
    (if talib then M = hi else largest_period lo hi periods M) ->
    (forall p, In p (map (clamp lo hi) periods) -> exists y, ma p close = Ok y) ->
    let q := Z.to_nat (lmp close - 1) + M - 1 in
    mavp talib ma lo hi close periods =
      Ok (mkLine (Z.of_nat (S q))
            (map (fun i => if i <? q then vnan
                           else nth i (lser (match ma (clamp lo hi (nth i periods 0)) close with Ok y => y | Raise _ => close end)) vnan)
                 (seq 0 (length (lser close))))).
  Proof.
    intros ST Hmp Hlen NE Hlo HM Hok q.
    assert (EM : (if talib then hi else longest lo hi periods) = M).
    { destruct talib; [now symmetry|]. eapply largest_unique; [|exact HM]. now apply longest_largest. }
    assert (BD : forall p, In p (map (clamp lo hi) periods) -> 1 <= p <= M).
    { intros p Hp. apply in_map_iff in Hp. destruct Hp as (r & <- & Hr).
      destruct talib; [subst M; unfold clamp; lia|]. split; [unfold clamp; lia|apply HM; exact Hr]. }
    assert (LN : 1 <= length periods) by (destruct periods; [congruence|simpl; lia]).
    set (Y := fun p => match ma p close with Ok y => y | Raise _ => close end).
    assert (S := @mavp_shape V N talib ma lo hi close periods Y (Z.to_nat (lmp close - 1)) (length (lser close))
       ltac:(lia) eq_refl Hlen ltac:(lia)).
    cbv zeta in S. rewrite EM in S.
    assert (M1 : 1 <= M).
    { assert (I := chosen_in lo hi (i:=0) periods ltac:(lia)). rewrite map_clamp in I by lia. apply BD in I. lia. }
    rewrite S; [|exact M1|].
    - do 2 f_equal. apply map_ext. intro i. fold q. destruct (i <? q); [reflexivity|].
      unfold chosen, Y. now rewrite clip_clamp by lia.
    - intros p Hp. rewrite map_clamp in Hp by lia. destruct (Hok p Hp) as (y & E). destruct (BD p Hp).
      destruct (ST p close close y ltac:(lia) Hmp (conj eq_refl (ex_intro _ [] (eq_sym (app_nil_r _)))) E) as (L1 & L2 & _).
      unfold Y. rewrite E. split; [reflexivity|]. split; [lia|exact L2].
  Qed.

  Lemma mavp_ok_mas talib (ma : ma_fun V) lo hi (close : line V) periods y :
    lo <= hi -> mavp talib ma lo hi close periods = Ok y ->
    forall p, In p (map (clamp lo hi) periods) -> exists z, ma p close = Ok z.
  Proof.
    intros Hlo E p Hp. unfold mavp in E. rewrite map_clamp in E by exact Hlo.
    destruct (traverse _ (unique _)) as [mas|e] eqn:T; [|discriminate E].
    destruct (traverse_inv _ _ T p) as [z Hz]; [now apply unique_in|].
    destruct (ma p close) as [w|e]; [eauto|discriminate Hz].
  Qed.

  Lemma mavp_nonempty_ok (ma : ma_fun V) lo hi (close : line V) y :
    mavp false ma lo hi close [] = Ok y -> False.
  Proof. intro E. discriminate E. Qed.

  (** the value at a delivered bar *)
  Lemma mavp_extends (talib : bool) (ma : ma_fun V) lo hi (close close' : line V) periods more y y' :
    steady ma -> 1 <= lo <= hi ->
    (1 <= lmp close)%Z -> extends close close' ->
    length periods = length (lser close) -> length (periods ++ more) = length (lser close') -> periods <> [] ->
    (talib = true \/ forall M, largest_period lo hi periods M -> forall p, In p more -> clamp lo hi p <= M) ->
    mavp talib ma lo hi close periods = Ok y ->
    mavp talib ma lo hi close' (periods ++ more) = Ok y' ->
    extends y y'.
  Proof.
    intros ST Hlo Hmp EX Hlen Hlen' NE HT E E'.
    assert (OK := @mavp_ok_mas talib ma lo hi close periods y ltac:(lia) E).
    assert (OK' := @mavp_ok_mas talib ma lo hi close' (periods ++ more) y' ltac:(lia) E').
    assert (HM : exists M, (if talib then M = hi else largest_period lo hi periods M) /\
                           (if talib then M = hi else largest_period lo hi (periods ++ more) M)).
    { destruct talib; [now exists hi|]. exists (longest lo hi periods).
      assert (LL := longest_largest (lo:=lo) (hi:=hi) (ps:=periods) ltac:(lia) NE). split; [exact LL|].
      destruct HT as [HT|HT]; [discriminate|]. destruct LL as [L1 L2]. split.
      - rewrite map_app. apply in_or_app. now left.
      - intros p Hp. apply in_app_or in Hp. destruct Hp as [Hp|Hp]; [now apply L2|].
        apply (HT (longest lo hi periods)); [split; assumption|exact Hp]. }
    destruct HM as (M & HM & HM').
    assert (EL := proj1 EX).
    rewrite (@mavp_steady_shape talib ma lo hi close periods M ST Hmp Hlen NE Hlo HM OK) in E.
    rewrite (@mavp_steady_shape talib ma lo hi close' (periods ++ more) M ST ltac:(lia) Hlen'
               ltac:(destruct periods; [congruence|discriminate]) Hlo HM' OK') in E'.
    injection E as <-. injection E' as <-. rewrite <- EL.
    set (q := Z.to_nat (lmp close - 1) + M - 1). split; [reflexivity|]. cbn [lser].
    set (n := length (lser close)) in *. destruct EX as [EX1 [t EX2]].
    assert (LN : length (lser close') = n + length t) by (rewrite EX2, app_length; reflexivity).
    rewrite LN, seq_app, map_app. eexists. f_equal. apply map_ext_in. intros i Hi. apply in_seq in Hi.
    destruct (i <? q) eqn:Q; [reflexivity|].
    rewrite app_nth1 by lia.
    assert (I : In (clamp lo hi (nth i periods 0)) (map (clamp lo hi) periods)) by (apply in_map, nth_In; lia).
    destruct (OK _ I) as [z Hz].
    destruct (ST (clamp lo hi (nth i periods 0)) close close' z) as (_ & L2 & z' & Hz' & (_ & tz & Ez)); try assumption.
    { unfold clamp. lia. }
    { split; [exact EX1|eauto]. }
    rewrite Hz, Hz', Ez. rewrite app_nth1 by lia. reflexivity.
  Qed.

  (** without the emulation: a longer period on a later bar removes values already delivered *)
  Lemma mavp_repaints (ma : ma_fun V) lo hi (close close' : line V) periods more y y' M M' :
    steady ma -> 1 <= lo <= hi ->
    (1 <= lmp close)%Z -> extends close close' ->
    length periods = length (lser close) -> length (periods ++ more) = length (lser close') -> periods <> [] ->
    largest_period lo hi periods M -> largest_period lo hi (periods ++ more) M' ->
    mavp false ma lo hi close periods = Ok y ->
    mavp false ma lo hi close' (periods ++ more) = Ok y' ->
    forall i, (lmp close - 1 + Z.of_nat M - 1 <= Z.of_nat i < lmp close - 1 + Z.of_nat M' - 1)%Z ->
      i < length (lser close) ->
      (exists z, ma (clamp lo hi (nth i periods 0)) close = Ok z /\ nth_error (lser y) i = nth_error (lser z) i) /\
      nth_error (lser y') i = Some vnan.
  Proof.
    intros ST Hlo Hmp EX Hlen Hlen' NE HM HM' E E' i Hi Hn.
    assert (OK := @mavp_ok_mas false ma lo hi close periods y ltac:(lia) E).
    assert (OK' := @mavp_ok_mas false ma lo hi close' (periods ++ more) y' ltac:(lia) E').
    assert (EL := proj1 EX).
    rewrite (@mavp_steady_shape false ma lo hi close periods M ST Hmp Hlen NE Hlo HM OK) in E.
    rewrite (@mavp_steady_shape false ma lo hi close' (periods ++ more) M' ST ltac:(lia) Hlen'
               ltac:(destruct periods; [congruence|discriminate]) Hlo HM' OK') in E'.
    injection E as <-. injection E' as <-. rewrite <- EL. cbn [lser].
    assert (I : In (clamp lo hi (nth i periods 0)) (map (clamp lo hi) periods)) by (apply in_map, nth_In; lia).
    destruct (OK _ I) as [z Hz]. split.
    - exists z. split; [exact Hz|]. rewrite nth_error_map_seq by lia. cbv beta. rewrite ?Nat.add_0_l.
      replace (i <? Z.to_nat (lmp close - 1) + M - 1) with false by (symmetry; apply Nat.ltb_ge; lia).
      rewrite Hz. symmetry. apply nth_error_nth'.
      destruct (ST (clamp lo hi (nth i periods 0)) close close z) as (_ & L2 & _); try assumption.
      { unfold clamp. lia. }
      { split; [reflexivity|exists []; now rewrite app_nil_r]. }
      lia.
    - destruct EX as [_ [t Et]].
      assert (i < length (lser close')) by (rewrite Et, app_length; lia).
      rewrite nth_error_map_seq by lia. cbv beta. rewrite ?Nat.add_0_l.
      replace (i <? Z.to_nat (lmp close - 1) + M' - 1) with true by (symmetry; apply Nat.ltb_lt; lia). reflexivity.
  Qed.
End Gen.

(** ** the averages are steady *)
Lemma steady_expr {V} {N : Num V} (ma : ma_fun V) (e : nat -> expr V) :
  (forall p a, 1 <= p -> ma p a = eval [a] (e p)) ->
  (forall p mps, 1 <= p -> look mps (e p) = (mps 0%nat + Z.of_nat p - 1)%Z) ->
  nan_laws N -> steady ma.
Proof.
  intros HE HL NL p a a' y Hp Hmp EX E. rewrite HE in E by exact Hp.
  destruct (@minperiod_exact V N [a] (length (lser a)) (fun v => match v with 0 => lmp a | _ => 1%Z end) (e p) y NL) as (A & B & _).
  - intros v x Hx. destruct v as [|[|v]]; try discriminate Hx. injection Hx as <-. repeat split. exact Hmp.
  - exact E.
  - rewrite HL in A by exact Hp. split; [exact A|]. split; [exact B|].
    rewrite HE by exact Hp. eapply no_repaint; [|constructor; [|constructor]|exact E].
    2:{ split; [exact Hmp|]. split; [reflexivity|]. split; [reflexivity|exact EX]. }
    destruct EX as [_ [t ->]]. rewrite app_length. lia.
Qed.

Lemma sma_steady {V} {N : Num V} : nan_laws N -> steady (sma_ (V:=V)).
Proof.
  apply (@steady_expr V N sma_ (fun p => ERoll (p - 1) win_mean (EIn 0))).
  - intros p a Hp. cbn [eval nth_error bind]. unfold sma_, sma. now replace (S (p - 1)) with p by lia.
  - intros p mps Hp. cbn [look]. lia.
Qed.
Lemma wma_steady {V} {N : Num V} : nan_laws N -> steady (fun p (a : line V) => Ok (wma p a)).
Proof.
  apply (@steady_expr V N _ (fun p => ERBinS vmul (vdiv (vofZ 2) (vofZ (Z.of_nat p * (Z.of_nat p + 1)))) (ERoll (p - 1) win_wma (EIn 0)))).
  - intros p a Hp. cbn [eval nth_error bind]. unfold wma. now replace (S (p - 1)) with p by lia.
  - intros p mps Hp. cbn [look]. lia.
Qed.
Lemma ema_steady {V} {N : Num V} : nan_laws N -> steady (ema (V:=V)).
Proof.
  apply (@steady_expr V N ema (fun p => EEma (p - 1) SEED_AVG (EIn 0))).
  - intros p a Hp. cbn [eval nth_error bind]. unfold ema, ema_full. now replace (S (p - 1)) with p by lia.
  - intros p mps Hp. cbn [look]. lia.
Qed.
Lemma smma_steady {V} {N : Num V} : nan_laws N -> steady (smma (V:=V)).
Proof.
  apply (@steady_expr V N smma (fun p => ESmma (p - 1) SEED_AVG (EIn 0))).
  - intros p a Hp. cbn [eval nth_error bind]. unfold smma, smma_seed. now replace (S (p - 1)) with p by lia.
  - intros p mps Hp. cbn [look]. lia.
Qed.

Lemma mas_steady : 
  steady (sma_ (V:=ext R)) /\ steady (fun p (a : line (ext R)) => Ok (wma p a)) /\
  steady (ema (V:=ext R)) /\ steady (smma (V:=ext R)).
Proof.
  split; [apply sma_steady|split; [apply wma_steady|split; [apply ema_steady|apply smma_steady]]]; apply nan_laws_ext.
Qed.

(** ** with the averages of the library *)
Lemma mavp_sma (talib : bool) lo hi (close : line (ext R)) periods n k x M :
  feeds close n k (fin x) -> length periods = n -> 1 <= n -> 1 <= lo <= hi ->
  (if talib then M = hi else largest_period lo hi periods M) ->
  exists y, mavp talib sma_ lo hi close periods = Ok y /\
    delivers y n (k + M - 1) (fin (fun i => Rmean (lastp x i (clamp lo hi (nth i periods 0))))).
Proof.
  intros Ha Hl Hn Hlo HM.
  apply (@mavp_any _ _ talib sma_ lo hi close periods n k _ (fun p => fin (fun i => Rmean (lastp x i p))) M Ha Hl Hn Hlo HM).
  intros p Hp. apply in_map_iff in Hp. destruct Hp as (q & <- & _).
  eexists. split; [reflexivity|]. apply sma_fin; [exact Ha|]. unfold clamp. lia.
Qed.

Lemma mavp_ema (talib : bool) lo hi (close : line (ext R)) periods n k x M :
  feeds close n k (fin x) -> length periods = n -> 1 <= n -> 1 <= lo <= hi ->
  (if talib then M = hi else largest_period lo hi periods M) -> k + M <= n ->
  exists y e, mavp talib ema lo hi close periods = Ok y /\
    (forall p, In p (map (clamp lo hi) periods) -> is_ema p k x (e p)) /\
    delivers y n (k + M - 1) (fin (fun i => e (clamp lo hi (nth i periods 0)) i)).
Proof.
  intros Ha Hl Hn Hlo HM HkM.
  assert (BD : forall p, In p (map (clamp lo hi) periods) -> 1 <= p /\ k + p <= n).
  { intros p Hp. apply in_map_iff in Hp. destruct Hp as (q & <- & Hq).
    destruct talib; [unfold clamp; lia|]. assert (Z := proj2 HM q Hq). unfold clamp in *. lia. }
  assert (EX : forall ps, (forall p, In p ps -> 1 <= p /\ k + p <= n) ->
     exists e : nat -> nat -> R, forall p, In p ps -> is_ema p k x (e p) /\
       exists y, ema p close = Ok y /\ delivers y n (k + p - 1) (fin (e p))).
  { induction ps as [|p ps IH]; intro H; [exists (fun _ _ => 0%R); intros p []|].
    destruct IH as [e He]; [intros; apply H; now right|].
    destruct (@ema_fin close n k x p Ha) as (y & ep & E1 & E2 & E3); try (apply H; now left).
    exists (fun q => if Nat.eqb q p then ep else e q). intros q Hq.
    destruct (Nat.eqb_spec q p) as [->|NE]; [split; [exact E2|exists y; split; assumption]|].
    apply He. destruct Hq; [congruence|assumption]. }
  destruct (EX _ BD) as [e He].
  destruct (@mavp_any _ _ talib ema lo hi close periods n k _ (fun p => fin (e p)) M Ha Hl Hn Hlo HM) as (y & E & D).
  - intros p Hp. apply (He p Hp).
  - exists y, e. split; [exact E|]. split; [intros p Hp; apply (He p Hp)|exact D].
Qed.

Lemma mavp_ema_short talib lo hi (close : line (ext R)) periods n k x :
  feeds close n k (fin x) -> 1 <= lo <= hi ->
  (exists p, In p periods /\ n < k + clamp lo hi p) ->
  mavp talib ema lo hi close periods = Raise IndexError.
Proof.
  intros Ha Hlo (p & Hp & Hs). apply mavp_raises; [lia| |].
  - intros q Hq. apply in_map_iff in Hq. destruct Hq as (r & <- & _).
    destruct (Nat.lt_ge_cases n (k + clamp lo hi r)) as [C|C].
    + left. apply (@ema_short _ _ close n k (fin x)); [exact Ha|unfold clamp; lia|exact C].
    + right. destruct (@ema_fin close n k x (clamp lo hi r) Ha) as (y & e & E & _); [unfold clamp; lia|lia|eauto].
  - exists (clamp lo hi p). split; [now apply in_map|].
    apply (@ema_short _ _ close n k (fin x)); [exact Ha|unfold clamp; lia|exact Hs].
Qed.
