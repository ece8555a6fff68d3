(** Proofs about Strict.v. *)
From Coq Require Import ZArith List Bool Lia.
From Verif Require Import Num Series Line Spec LineFacts CausalFacts Expr WarmFacts LineApi Strict.
Import ListNotations.
Set Implicit Arguments.

Lemma put_fits {A} (d : A) n k r :
  length r = n - k -> (n = 0 \/ k <= n) -> put d n (Z.of_nat k) r = Ok (set_from (repeat d n) (Z.of_nat k) r).
Proof.
  intros L [E|E]; unfold put.
  - subst. cbn [Nat.eqb]. replace (length r) with 0 by lia. cbn [Nat.leb].
    destruct r; [|cbn in L; lia]. f_equal. unfold set_from. now rewrite app_nil_r; destruct (slice_lo _ _).
  - destruct (Nat.eqb_spec n 0) as [Z0|Z0].
    + subst. replace (length r) with 0 by lia. cbn [Nat.leb].
      destruct r; [|cbn in L; lia]. f_equal. unfold set_from. now rewrite app_nil_r; destruct (slice_lo _ _).
    + replace (Z.of_nat k <? 0)%Z with false by (symmetry; apply Z.ltb_ge; lia).
      replace (Z.of_nat n - Z.of_nat k =? Z.of_nat (length r))%Z with true; [reflexivity|].
      symmetry. apply Z.eqb_eq. lia.
Qed.

Lemma put_short {A} (d : A) n k r :
  length r = n - k -> 1 <= n -> n < k -> put d n (Z.of_nat k) r = Raise ValueError.
Proof.
  intros L H1 H2. unfold put. destruct (Nat.eqb_spec n 0) as [Z0|Z0]; [lia|].
  replace (Z.of_nat k <? 0)%Z with false by (symmetry; apply Z.ltb_ge; lia).
  replace (Z.of_nat n - Z.of_nat k =? Z.of_nat (length r))%Z with false; [reflexivity|].
  symmetry. apply Z.eqb_neq. lia.
Qed.

Section F.
  Context {V : Type} {N : Num V}.
  Hypothesis HN : nan_laws N.
  Variable n : nat.

  Definition ok_at (k : nat) : Prop := n = 0 \/ k <= n.

  (** storing succeeds exactly when there are enough bars *)
  Lemma place_fits k self mp (r : list V) :
    (1 <= mp)%Z -> length r = n - k -> ok_at k ->
    place n self mp (Z.of_nat k) r = Ok (mkLine mp (set_from (nans n) (Z.of_nat k) r)).
  Proof.
    intros Hm L O. unfold place. rewrite put_fits by assumption. cbn [bind].
    destruct (Z.eqb_spec mp 0); [lia|reflexivity].
  Qed.
  Lemma place_short k self mp (r : list V) :
    length r = n - k -> 1 <= n -> n < k -> place n self mp (Z.of_nat k) r = Raise ValueError.
  Proof. intros L H1 H2. unfold place. now rewrite put_short. Qed.
  Lemma bplace_fits k self mp r :
    (1 <= mp)%Z -> length r = n - k -> ok_at k ->
    bplace n self mp (Z.of_nat k) r = Ok (mkBLine mp (set_from (repeat true n) (Z.of_nat k) r)).
  Proof.
    intros Hm L O. unfold bplace. rewrite put_fits by assumption. cbn [bind].
    destruct (Z.eqb_spec mp 0); [lia|reflexivity].
  Qed.
  Lemma bplace_short k self mp r :
    length r = n - k -> 1 <= n -> n < k -> bplace n self mp (Z.of_nat k) r = Raise ValueError.
  Proof. intros L H1 H2. unfold bplace. now rewrite put_short. Qed.

  Lemma slice_from_length {A} (s : list A) k : length s = n -> length (slice_from s (Z.of_nat k)) = n - k.
  Proof. intros L. rewrite slice_from_nat, skipn_length. lia. Qed.

  (** what evaluation needs to know of a line *)
  Definition L (k : nat) (l : line V) : Prop := lmp l = Z.of_nat (S k) /\ length (lser l) = n.
  Definition BL (k : nat) (l : bline) : Prop := bmp l = Z.of_nat (S k) /\ length (bser l) = n.

  Ltac mi := match goal with |- context[(Z.of_nat (S ?k) - 1)%Z] => replace (Z.of_nat (S k) - 1)%Z with (Z.of_nat k) by lia end.

  Lemma unary_fits F inc a k :
    L k a -> (forall s, length (F s) = length s) -> ok_at k ->
    unary F inc a =
    Ok (mkLine (lmp a + inc) (set_from (nans n) (lmp a - 1) (F (slice_from (lser a) (lmp a - 1))))).
  Proof.
    intros [M Ln] HF O. unfold unary, bars. rewrite M, Ln. mi.
    rewrite place_fits; [reflexivity|lia| |exact O]. rewrite HF. now apply slice_from_length.
  Qed.
  Lemma unary_short F inc a k :
    L k a -> (forall s, length (F s) = length s) -> 1 <= n -> n < k -> unary F inc a = Raise ValueError.
  Proof.
    intros [M Ln] HF H1 H2. unfold unary, bars. rewrite M, Ln. mi.
    rewrite place_short; [reflexivity| |exact H1|exact H2]. rewrite HF. now apply slice_from_length.
  Qed.

  Lemma max2 a b : (Z.max (Z.of_nat (S a)) (Z.of_nat (S b)) - 1 = Z.of_nat (Nat.max a b))%Z.
  Proof. lia. Qed.
  Lemma max1 a : (Z.max (Z.of_nat (S a)) 1 - 1 = Z.of_nat a)%Z.
  Proof. lia. Qed.
  Lemma map2_len {A B C} (op : A -> B -> C) s t k :
    length s = n -> length t = n ->
    length (map2 op (slice_from s (Z.of_nat k)) (slice_from t (Z.of_nat k))) = n - k.
  Proof. intros A1 A2. rewrite map2_length, !slice_from_length by assumption. lia. Qed.

  Lemma binary_fits op a b ka kb :
    L ka a -> L kb b -> ok_at (Nat.max ka kb) -> binary op a b = Ok (binop op a b).
  Proof.
    intros [M Ln] [M' Ln'] O. unfold binary, binop, bars, clone. rewrite M, M', Ln, max2.
    rewrite place_fits; [|lia|now apply map2_len|exact O].
    destruct (Z.eqb_spec (Z.max (Z.of_nat (S ka)) (Z.of_nat (S kb))) 0); [lia|reflexivity].
  Qed.
  Lemma binary_short op a b ka kb :
    L ka a -> L kb b -> 1 <= n -> n < Nat.max ka kb -> binary op a b = Raise ValueError.
  Proof.
    intros [M Ln] [M' Ln'] H1 H2. unfold binary, bars. rewrite M, M', Ln, max2.
    apply place_short; [now apply map2_len|exact H1|exact H2].
  Qed.
  Lemma scalar_fits f a k :
    L k a -> ok_at k ->
    scalar f a = Ok (clone a (set_from (nans (bars a)) (Z.max (lmp a) 1 - 1)
                               (map f (slice_from (lser a) (Z.max (lmp a) 1 - 1)))) (Z.max (lmp a) 1)).
  Proof.
    intros [M Ln] O. unfold scalar, bars, clone. rewrite M, Ln, max1.
    rewrite place_fits; [|lia|rewrite map_length; now apply slice_from_length|exact O].
    destruct (Z.eqb_spec (Z.max (Z.of_nat (S k)) 1) 0); [lia|reflexivity].
  Qed.
  Lemma scalar_short f a k : L k a -> 1 <= n -> n < k -> scalar f a = Raise ValueError.
  Proof.
    intros [M Ln] H1 H2. unfold scalar, bars. rewrite M, Ln, max1.
    apply place_short; [rewrite map_length; now apply slice_from_length|exact H1|exact H2].
  Qed.
  Lemma mul_bool_fits a b ka kb :
    L ka a -> BL kb b -> ok_at (Nat.max ka kb) -> mul_bool a b = Ok (mul_b a b).
  Proof.
    intros [M Ln] [M' Ln'] O. unfold mul_bool, mul_b, bars, clone. rewrite M, M', Ln, max2.
    rewrite place_fits; [|lia|now apply map2_len|exact O].
    destruct (Z.eqb_spec (Z.max (Z.of_nat (S ka)) (Z.of_nat (S kb))) 0); [lia|reflexivity].
  Qed.
  Lemma mul_bool_short a b ka kb :
    L ka a -> BL kb b -> 1 <= n -> n < Nat.max ka kb -> mul_bool a b = Raise ValueError.
  Proof.
    intros [M Ln] [M' Ln'] H1 H2. unfold mul_bool, bars. rewrite M, M', Ln, max2.
    apply place_short; [now apply map2_len|exact H1|exact H2].
  Qed.
  Lemma rmul_bool_fits c b k : BL k b -> ok_at k -> rmul_bool c b = Ok (rmul_b c b).
  Proof.
    intros [M Ln] O. unfold rmul_bool, rmul_b. rewrite M, Ln, max1.
    rewrite place_fits; [|lia|rewrite map_length; now apply slice_from_length|exact O].
    destruct (Z.eqb_spec (Z.max (Z.of_nat (S k)) 1) 0); [lia|reflexivity].
  Qed.
  Lemma rmul_bool_short c b k : BL k b -> 1 <= n -> n < k -> rmul_bool c b = Raise ValueError.
  Proof.
    intros [M Ln] H1 H2. unfold rmul_bool. rewrite M, Ln, max1.
    apply place_short; [rewrite map_length; now apply slice_from_length|exact H1|exact H2].
  Qed.
  Lemma compare_fits op a b ka kb :
    L ka a -> L kb b -> ok_at (Nat.max ka kb) -> compare op a b = Ok (cmpop op a b).
  Proof.
    intros [M Ln] [M' Ln'] O. unfold compare, cmpop, bars, bclone. rewrite M, M', Ln, max2.
    rewrite bplace_fits; [|lia|now apply map2_len|exact O].
    destruct (Z.eqb_spec (Z.max (Z.of_nat (S ka)) (Z.of_nat (S kb))) 0); [lia|reflexivity].
  Qed.
  Lemma compare_short op a b ka kb :
    L ka a -> L kb b -> 1 <= n -> n < Nat.max ka kb -> compare op a b = Raise ValueError.
  Proof.
    intros [M Ln] [M' Ln'] H1 H2. unfold compare, bars. rewrite M, M', Ln, max2.
    apply bplace_short; [now apply map2_len|exact H1|exact H2].
  Qed.
  Lemma compare_s_fits op a c k : L k a -> ok_at k -> compare_s op a c = Ok (cmpop_s op a c).
  Proof.
    intros [M Ln] O. unfold compare_s, cmpop_s, bars, bclone. rewrite M, Ln, max1.
    rewrite bplace_fits; [|lia|rewrite map_length; now apply slice_from_length|exact O].
    destruct (Z.eqb_spec (Z.max (Z.of_nat (S k)) 1) 0); [lia|reflexivity].
  Qed.
  Lemma compare_s_short op a c k : L k a -> 1 <= n -> n < k -> compare_s op a c = Raise ValueError.
  Proof.
    intros [M Ln] H1 H2. unfold compare_s, bars. rewrite M, Ln, max1.
    apply bplace_short; [rewrite map_length; now apply slice_from_length|exact H1|exact H2].
  Qed.
  Lemma logic_fits op a b ka kb :
    BL ka a -> BL kb b -> ok_at (Nat.max ka kb) -> logic op a b = Ok (bbinop op a b).
  Proof.
    intros [M Ln] [M' Ln'] O. unfold logic, bbinop, bclone. rewrite M, M', Ln, max2.
    rewrite bplace_fits; [|lia|now apply map2_len|exact O].
    destruct (Z.eqb_spec (Z.max (Z.of_nat (S ka)) (Z.of_nat (S kb))) 0); [lia|reflexivity].
  Qed.
  Lemma logic_short op a b ka kb :
    BL ka a -> BL kb b -> 1 <= n -> n < Nat.max ka kb -> logic op a b = Raise ValueError.
  Proof.
    intros [M Ln] [M' Ln'] H1 H2. unfold logic. rewrite M, M', Ln, max2.
    apply bplace_short; [now apply map2_len|exact H1|exact H2].
  Qed.

  (** the object of _ewm: where it starts and how long its trailer is *)
  Lemma mf_ewm_shape a k p sd o :
    L k a -> mf_ewm a (Z.of_nat (S p)) 0 0 1 sd = Ok o ->
    mf_line o = a /\ mf_mp o = lmp a /\ mf_pval o = Some (Z.of_nat (S p)) /\ mf_pearly o = 0%Z /\ mf_alphap o = 1%Z /\
    mf_minidx o = Z.of_nat (k + p) /\ length (mf_trailer o) = n - (k + p).
  Proof.
    intros [M Ln]. unfold mf_ewm. rewrite M.
    replace (0 =? 0)%Z with true by reflexivity. cbv iota.
    replace (Z.of_nat (S p) <? 1)%Z with false by (symmetry; apply Z.ltb_ge; lia).
    rewrite andb_false_r. cbv iota.
    replace (Z.of_nat (S k) - 1 + Z.of_nat (S p) - 0)%Z with (Z.of_nat (S (k + p))) by lia.
    replace (Z.of_nat (S (k + p)) - 1)%Z with (Z.of_nat (k + p)) by lia.
    replace (Z.of_nat (S (k + p)) - Z.of_nat (S p))%Z with (Z.of_nat k) by lia.
    set (pre := map (fun _ : V => vnan) (slice (lser a) (Z.of_nat (k + p)) (Z.of_nat (S (k + p))))).
    assert (Lp : length pre = Nat.min 1 (n - (k + p))).
    { unfold pre. rewrite map_length, slice_nat, firstn_length, skipn_length. lia. }
    assert (LS : length (slice_from (lser a) (Z.of_nat (S (k + p)))) = n - S (k + p)).
    { now apply slice_from_length. }
    assert (Hset : forall v q, match rev pre with [] => Raise IndexError | _ :: r => Ok (rev (v :: r)) end = Ok q ->
                               length q = Nat.min 1 (n - (k + p))).
    { intros v q E. rewrite <- Lp. rewrite <- (rev_length pre). destruct (rev pre) as [|x r]; [discriminate E|].
      inversion E; subst. cbn [rev]. rewrite app_length, rev_length. cbn. lia. }
    intros E. apply bind_ok in E. destruct E as (q & E1 & E2).
    assert (Lq : length q = Nat.min 1 (n - (k + p))).
    { destruct sd.
      - exact (Hset _ _ E1).
      - apply bind_ok in E1. destruct E1 as (v & _ & E1). exact (Hset _ _ E1).
      - exact (Hset _ _ E1).
      - inversion E1; subst. exact Lp.
      - exact (Hset _ _ E1).
      - inversion E1; subst. now rewrite map_length. }
    inversion E2; subst; clear E2. cbn [mf_line mf_mp mf_pval mf_pearly mf_alphap mf_minidx mf_trailer].
    repeat (split; [first [reflexivity|exact (eq_sym M)|lia]|]). rewrite app_length.
    change (Z.pos (Pos.of_succ_nat (k + p))) with (Z.of_nat (S (k + p))). rewrite LS, Lq. lia.
  Qed.

  Lemma smoothed_fits p sd F a k :
    L k a -> (forall s, length (F s) = length s) -> ok_at (k + p) ->
    smoothed p sd F a = ewm_call a (Z.of_nat (S p)) 0 0 1 sd (fun t => Ok (F t)).
  Proof.
    intros La HF O. unfold smoothed, ewm_call. destruct (mf_ewm a _ _ _ _ sd) as [o|x] eqn:E; [|reflexivity].
    cbn [bind]. destruct (@mf_ewm_shape a k p sd o La E) as (E1 & E2 & E3 & E4 & E5 & E6 & E7).
    destruct La as [M Ln]. unfold mf_call. rewrite E1, E2, E3, E4, E5, E6. cbn [snd bind]. unfold bars. rewrite Ln.
    rewrite place_fits; [|lia|now rewrite HF|exact O].
    unfold clone. rewrite M.
    replace (Z.of_nat (S k) + (Z.of_nat (S p) - 0 - 1))%Z with (Z.of_nat (S k) + Z.of_nat p)%Z by lia.
    destruct (Z.eqb_spec (Z.max (Z.of_nat (S k) + Z.of_nat p) 1) 0); [lia|reflexivity].
  Qed.
  Lemma smoothed_short p sd F a k :
    L k a -> (forall s, length (F s) = length s) -> 1 <= n -> n < k + p ->
    exists x, smoothed p sd F a = Raise x.
  Proof.
    intros La HF H1 H2. unfold smoothed. destruct (mf_ewm a _ _ _ _ sd) as [o|x] eqn:E; [|exists x; reflexivity].
    cbn [bind]. destruct (@mf_ewm_shape a k p sd o La E) as (E1 & E2 & E3 & E4 & E5 & E6 & E7).
    destruct La as [M Ln]. exists ValueError. unfold bars. rewrite E6, Ln.
    apply place_short; [now rewrite HF|exact H1|exact H2].
  Qed.

  Variable env : list (line V).
  Variable mps : nat -> Z.
  Hypothesis Henv : forall v l, nth_error env v = Some l -> lmp l = mps v /\ (1 <= lmp l)%Z /\ length (lser l) = n.

  Definition fitsZ (z : Z) : Prop := n = 0 \/ (z <= Z.of_nat n)%Z.

  Lemma W_L e l : eval env e = Ok l -> exists k, L k l /\ look mps e = Z.of_nat (S k).
  Proof.
    intros E. destruct (proj1 (eval_warm HN env mps Henv) _ _ E) as (A & B & C & _).
    exists (Z.to_nat (look mps e - 1)). split; [split|]; [lia|exact C|lia].
  Qed.
  Lemma W_BL b l : beval env b = Ok l -> exists k, BL k l /\ blook mps b = Z.of_nat (S k).
  Proof.
    intros E. destruct (proj2 (eval_warm HN env mps Henv) _ _ E) as (A & B & C).
    exists (Z.to_nat (blook mps b - 1)). split; [split|]; [lia|exact C|lia].
  Qed.

  Lemma fits_max a b : fitsZ (Z.max a b) <-> fitsZ a /\ fitsZ b.
  Proof. unfold fitsZ. lia. Qed.

  Ltac ok1 := unfold ok_at; unfold fitsZ in *; lia.

  Lemma cau {B} (F : list V -> list B) : causal F -> forall s, length (F s) = length s.
  Proof. intros [H _]. exact H. Qed.

  Lemma stdop_unary F a k : L k a -> stdop F a =
    mkLine (lmp a + 0) (set_from (nans n) (lmp a - 1) (F (slice_from (lser a) (lmp a - 1)))).
  Proof.
    intros [M Ln]. unfold stdop, clone, bars. rewrite Ln. rewrite Z.add_0_r.
    destruct (Z.eqb_spec (lmp a) 0); [lia|reflexivity].
  Qed.
  Lemma kwop_unary F a k p : L k a -> kwop_p F a p =
    mkLine (lmp a + p) (set_from (nans n) (lmp a - 1) (F (slice_from (lser a) (lmp a - 1)) p)).
  Proof.
    intros [M Ln]. unfold kwop_p, clone, bars. cbn [lmp lser]. rewrite Ln.
    destruct (Z.eqb_spec (lmp a) 0); [lia|reflexivity].
  Qed.
  Lemma rolling_unary w G a k : L k a -> rolling (S w) G a =
    mkLine (lmp a + Z.of_nat w)
      (set_from (nans n) (lmp a - 1) (ser_rolling (S w) G (slice_from (lser a) (lmp a - 1)))).
  Proof.
    intros [M Ln]. unfold rolling, clone, bars. rewrite Ln.
    replace (Z.max (lmp a + (Z.of_nat (S w) - 0 - 1)) 1) with (lmp a + Z.of_nat w)%Z by lia.
    destruct (Z.eqb_spec (lmp a + Z.of_nat w) 0); [lia|reflexivity].
  Qed.
  Lemma ewm_unary p adj a k : L k a -> ewm_mean (S p) adj a =
    mkLine (lmp a + Z.of_nat p)
      (set_from (nans n) (lmp a - 1)
         (ser_ewma (alpha_span (vofZ (Z.of_nat (S p)))) adj (slice_from (lser a) (lmp a - 1)))).
  Proof.
    intros [M Ln]. unfold ewm_mean, clone, bars. rewrite Ln.
    replace (Z.max (lmp a + (Z.of_nat (S p) - 0 - 1)) 1) with (lmp a + Z.of_nat p)%Z by lia.
    destruct (Z.eqb_spec (lmp a + Z.of_nat p) 0); [lia|reflexivity].
  Qed.

  (** with enough bars the check never strikes *)
  Ltac one a IH :=
    rewrite IH by (unfold fitsZ in *; lia);
    match goal with |- context[eval env a] =>
      let x := fresh "x" in let E := fresh "E" in
      destruct (eval env a) as [x|x] eqn:E; [|reflexivity];
      let k := fresh "k" in let Lk := fresh "Lk" in let Ek := fresh "Ek" in
      destruct (W_L _ E) as (k & Lk & Ek)
    end; cbn [bind].
  Ltac bone a IH :=
    rewrite IH by (unfold fitsZ in *; lia);
    match goal with |- context[beval env a] =>
      let x := fresh "x" in let E := fresh "E" in
      destruct (beval env a) as [x|x] eqn:E; [|reflexivity];
      let k := fresh "k" in let Lk := fresh "Lk" in let Ek := fresh "Ek" in
      destruct (W_BL _ E) as (k & Lk & Ek)
    end; cbn [bind].

  Lemma seval_fits :
    (forall e, fitsZ (needs mps e) -> seval env e = eval env e) /\
    (forall b, fitsZ (bneeds mps b) -> sbeval env b = beval env b).
  Proof.
    apply expr_bexpr_ind; cbn [needs bneeds seval sbeval eval beval];
      fold (@beval V N); fold (@eval V N); fold (@sbeval V N); fold (@seval V N);
      fold (@bneeds V); fold (@needs V); fold (@blook V); fold (@look V).
    - reflexivity.
    - intros op a IHa b IHb H. one a IHa. one b IHb.
      apply (@binary_fits op x x0 k k0); [assumption..|ok1].
    - intros op a IHa c H. one a IHa. apply (@scalar_fits _ x k); [assumption..|ok1].
    - intros op c a IHa H. one a IHa. apply (@scalar_fits _ x k); [assumption..|ok1].
    - intros f a IHa H. one a IHa.
      rewrite (@unary_fits _ _ x k); [|assumption|apply cau, causal_map|ok1].
      unfold mapop. now rewrite (@stdop_unary _ x k Lk).
    - intros a IHa H. one a IHa.
      rewrite (@unary_fits _ _ x k); [|assumption|apply cau, causal_cumsum|ok1]. now rewrite (@stdop_unary _ x k Lk).
    - intros a IHa H. one a IHa.
      rewrite (@unary_fits _ _ x k); [|assumption|apply cau, causal_ffill|ok1]. now rewrite (@stdop_unary _ x k Lk).
    - intros a IHa H. one a IHa.
      rewrite (@unary_fits _ _ x k); [|assumption|apply cau, causal_repl0|ok1]. now rewrite (@stdop_unary _ x k Lk).
    - intros a IHa b IHb H. one a IHa. one b IHb.
      apply (@binary_fits _ x x0 k k0); [assumption..|ok1].
    - intros a IHa b IHb H. one a IHa. one b IHb.
      apply (@binary_fits _ x x0 k k0); [assumption..|ok1].
    - intros a IHa p H. one a IHa.
      rewrite (@unary_fits _ _ x k); [|assumption|apply cau, causal_shift|ok1].
      unfold shift. now rewrite (@kwop_unary _ x k _ Lk).
    - intros a IHa p H. one a IHa.
      rewrite (@unary_fits _ _ x k); [|assumption|apply cau, causal_diff|ok1].
      unfold diff. now rewrite (@kwop_unary _ x k _ Lk).
    - intros a IHa p H. one a IHa.
      rewrite (@unary_fits _ _ x k); [|assumption|apply cau, causal_pct|ok1].
      unfold pct_change. now rewrite (@kwop_unary _ x k _ Lk).
    - intros w G a IHa H. one a IHa.
      rewrite (@unary_fits _ _ x k); [|assumption|apply cau, causal_rolling|ok1]. now rewrite (@rolling_unary _ _ x k Lk).
    - intros p adj a IHa H. one a IHa.
      rewrite (@unary_fits _ _ x k); [|assumption|apply cau, causal_ewma|ok1]. now rewrite (@ewm_unary _ _ x k Lk).
    - intros p sd a IHa H. one a IHa.
      apply (@smoothed_fits p sd _ x k); [assumption|apply cau, causal_ewma|ok1].
    - intros p sd a IHa H. one a IHa. unfold ewm_com.
      replace (Z.of_nat (S p) - 1 + 1)%Z with (Z.of_nat (S p)) by lia.
      apply (@smoothed_fits p sd _ x k); [assumption|apply cau, causal_ewma|ok1].
    - intros p sd al be a IHa H. one a IHa.
      apply (@smoothed_fits p sd _ x k); [assumption|apply cau, causal_mean_exp|ok1].
    - intros a IHa b IHb H. one a IHa. bone b IHb.
      apply (@mul_bool_fits x x0 k k0); [assumption..|ok1].
    - intros c b IHb H. bone b IHb. apply (@rmul_bool_fits c x k); [assumption|ok1].
    - intros op a IHa b IHb H. one a IHa. one b IHb.
      apply (@compare_fits op x x0 k k0); [assumption..|ok1].
    - intros op a IHa c H. one a IHa. apply (@compare_s_fits op x c k); [assumption|ok1].
    - intros op a IHa b IHb H. bone a IHa. bone b IHb.
      apply (@logic_fits op x x0 k k0); [assumption..|ok1].
  Qed.

  (** with fewer bars some operator fails *)
  Lemma bind_raise {A B} (x : res A) (f : A -> res B) :
    (exists y, x = Raise y) -> exists y, bind x f = Raise y.
  Proof. intros [y ->]. now exists y. Qed.
  Lemma bind_raise2 {A B} (x : res A) (f : A -> res B) :
    (forall a, x = Ok a -> exists y, f a = Raise y) -> exists y, bind x f = Raise y.
  Proof. intros H. destruct x as [a|y]; [now apply H|now exists y]. Qed.

  Hypothesis Hn : 1 <= n.
  Lemma fits_not z : ~ fitsZ z <-> (Z.of_nat n < z)%Z.
  Proof. unfold fitsZ. lia. Qed.
  Lemma fits_dec z : fitsZ z \/ (Z.of_nat n < z)%Z.
  Proof. unfold fitsZ. lia. Qed.

  Ltac sone a IH :=
    match goal with |- context[seval env a] =>
      let Fa := fresh "Fa" in destruct (fits_dec (needs mps a)) as [Fa|Fa]; [|apply bind_raise, IH, Fa];
      rewrite (proj1 seval_fits a Fa); apply bind_raise2;
      let x := fresh "x" in let E := fresh "E" in intros x E;
      let k := fresh "k" in let Lk := fresh "Lk" in let Ek := fresh "Ek" in
      destruct (W_L _ E) as (k & Lk & Ek)
    end.
  Ltac sbone a IH :=
    match goal with |- context[sbeval env a] =>
      let Fa := fresh "Fa" in destruct (fits_dec (bneeds mps a)) as [Fa|Fa]; [|apply bind_raise, IH, Fa];
      rewrite (proj2 seval_fits a Fa); apply bind_raise2;
      let x := fresh "x" in let E := fresh "E" in intros x E;
      let k := fresh "k" in let Lk := fresh "Lk" in let Ek := fresh "Ek" in
      destruct (W_BL _ E) as (k & Lk & Ek)
    end.
  Ltac rz := unfold fitsZ in *; lia.

  Lemma seval_short :
    (forall e, (Z.of_nat n < needs mps e)%Z -> exists y, seval env e = Raise y) /\
    (forall b, (Z.of_nat n < bneeds mps b)%Z -> exists y, sbeval env b = Raise y).
  Proof.
    apply expr_bexpr_ind; cbn [needs bneeds seval sbeval];
      fold (@sbeval V N); fold (@seval V N);
      fold (@bneeds V); fold (@needs V); fold (@blook V); fold (@look V).
    - intros v H. lia.
    - intros op a IHa b IHb H. sone a IHa. sone b IHb. exists ValueError.
      apply (@binary_short op x x0 k k0); [assumption..|rz].
    - intros op a IHa c H. sone a IHa. exists ValueError. apply (@scalar_short _ x k); [assumption..|rz].
    - intros op c a IHa H. sone a IHa. exists ValueError. apply (@scalar_short _ x k); [assumption..|rz].
    - intros f a IHa H. sone a IHa. exists ValueError.
      apply (@unary_short _ _ x k); [assumption|apply cau, causal_map|assumption|rz].
    - intros a IHa H. sone a IHa. exists ValueError.
      apply (@unary_short _ _ x k); [assumption|apply cau, causal_cumsum|assumption|rz].
    - intros a IHa H. sone a IHa. exists ValueError.
      apply (@unary_short _ _ x k); [assumption|apply cau, causal_ffill|assumption|rz].
    - intros a IHa H. sone a IHa. exists ValueError.
      apply (@unary_short _ _ x k); [assumption|apply cau, causal_repl0|assumption|rz].
    - intros a IHa b IHb H. sone a IHa. sone b IHb. exists ValueError.
      apply (@binary_short _ x x0 k k0); [assumption..|rz].
    - intros a IHa b IHb H. sone a IHa. sone b IHb. exists ValueError.
      apply (@binary_short _ x x0 k k0); [assumption..|rz].
    - intros a IHa p H. sone a IHa. exists ValueError.
      apply (@unary_short _ _ x k); [assumption|apply cau, causal_shift|assumption|rz].
    - intros a IHa p H. sone a IHa. exists ValueError.
      apply (@unary_short _ _ x k); [assumption|apply cau, causal_diff|assumption|rz].
    - intros a IHa p H. sone a IHa. exists ValueError.
      apply (@unary_short _ _ x k); [assumption|apply cau, causal_pct|assumption|rz].
    - intros w G a IHa H. sone a IHa. exists ValueError.
      apply (@unary_short _ _ x k); [assumption|apply cau, causal_rolling|assumption|rz].
    - intros p adj a IHa H. sone a IHa. exists ValueError.
      apply (@unary_short _ _ x k); [assumption|apply cau, causal_ewma|assumption|rz].
    - intros p sd a IHa H. sone a IHa.
      apply (@smoothed_short p sd _ x k); [assumption|apply cau, causal_ewma|assumption|rz].
    - intros p sd a IHa H. sone a IHa.
      apply (@smoothed_short p sd _ x k); [assumption|apply cau, causal_ewma|assumption|rz].
    - intros p sd al be a IHa H. sone a IHa.
      apply (@smoothed_short p sd _ x k); [assumption|apply cau, causal_mean_exp|assumption|rz].
    - intros a IHa b IHb H. sone a IHa. sbone b IHb. exists ValueError.
      apply (@mul_bool_short x x0 k k0); [assumption..|rz].
    - intros c b IHb H. sbone b IHb. exists ValueError. apply (@rmul_bool_short c x k); [assumption..|rz].
    - intros op a IHa b IHb H. sone a IHa. sone b IHb. exists ValueError.
      apply (@compare_short op x x0 k k0); [assumption..|rz].
    - intros op a IHa c H. sone a IHa. exists ValueError. apply (@compare_s_short op x c k); [assumption..|rz].
    - intros op a IHa b IHb H. sbone a IHa. sbone b IHb. exists ValueError.
      apply (@logic_short op x x0 k k0); [assumption..|rz].
  Qed.

  (** the declared minimum period is always enough *)
  Lemma needs_look :
    (forall e : expr V, (forall v, (1 <= mps v)%Z) -> (needs mps e <= look mps e - 1)%Z) /\
    (forall b : bexpr V, (forall v, (1 <= mps v)%Z) -> (bneeds mps b <= blook mps b - 1)%Z).
  Proof.
    clear Hn Henv.
    apply expr_bexpr_ind; cbn [needs bneeds look blook];
      fold (@bneeds V); fold (@needs V); fold (@blook V); fold (@look V); intros;
      repeat match goal with H : (forall v, (1 <= mps v)%Z) -> _ , H' : forall v, (1 <= mps v)%Z |- _ => specialize (H H') end;
      try lia.
    match goal with v : nat, H : forall v, (1 <= mps v)%Z |- _ => specialize (H v) end. lia.
  Qed.
End F.
