(** The moving average with variable period. *)
From Coq Require Import ZArith List Bool Lia Arith.
From Verif Require Import Num Series Line Spec LineFacts ScanFacts OpFacts IndMA Apply IndMavp.
Import ListNotations.
Set Implicit Arguments.

Lemma traverse_ok {A B} (f : A -> res B) g l : (forall x, In x l -> f x = Ok (g x)) -> traverse f l = Ok (map g l).
Proof.
  induction l as [|x l IH]; intro H; [reflexivity|]. cbn [traverse map].
  rewrite H by (left; reflexivity). cbn [bind]. rewrite IH by (intros; apply H; right; assumption). reflexivity.
Qed.
Lemma traverse_inv {A B} (f : A -> res B) l r : traverse f l = Ok r -> forall x, In x l -> exists y, f x = Ok y.
Proof.
  revert r; induction l as [|a l IH]; intros r E x Hx; [destruct Hx|]. cbn [traverse] in E.
  destruct (f a) as [y|e] eqn:Ea; [|discriminate E]. cbn [bind] in E.
  destruct (traverse f l) as [ys|e] eqn:El; [|discriminate E].
  destruct Hx as [<-|Hx]; [now exists y|]. eapply IH; [reflexivity|exact Hx].
Qed.
Lemma traverse_raise {A B} (f : A -> res B) l e :
  (forall x, In x l -> f x = Raise e \/ exists y, f x = Ok y) -> (exists x, In x l /\ f x = Raise e) ->
  traverse f l = Raise e.
Proof.
  induction l as [|a l IH]; intros H (x & Hx & E); [destruct Hx|]. cbn [traverse].
  destruct (H a (or_introl eq_refl)) as [Ea|[y Ea]]; rewrite Ea; [reflexivity|]. cbn [bind].
  rewrite IH; [reflexivity|intros; apply H; now right|].
  destruct Hx as [->|Hx]; [congruence|]. now exists x.
Qed.

Lemma unique_from_in l : forall seen p, In p (unique_from seen l) <-> In p l /\ ~ In p seen.
Proof.
  induction l as [|q l IH]; intros seen p; cbn [unique_from]; [simpl; tauto|].
  assert (EX : existsb (Nat.eqb q) seen = true <-> In q seen).
  { rewrite existsb_exists. split; [intros (x & Hx & E); apply Nat.eqb_eq in E; now subst|].
    intro H. exists q. split; [exact H|apply Nat.eqb_refl]. }
  destruct (existsb (Nat.eqb q) seen) eqn:E.
  - rewrite IH. simpl. assert (In q seen) by now apply EX. split; [tauto|].
    intros [[->|H1] H2]; [tauto|tauto].
  - assert (~ In q seen) by (intro H; apply EX in H; discriminate).
    cbn [In]. rewrite IH. simpl. split.
    + intros [->|[H1 H2]]; [tauto|]. split; [tauto|]. tauto.
    + intros [[->|H1] H2]; [now left|]. destruct (Nat.eq_dec q p); [now left|]. right. tauto.
Qed.
Lemma unique_in l p : In p (unique l) <-> In p l.
Proof. unfold unique. rewrite unique_from_in. simpl. tauto. Qed.

Lemma fold_max_spec l : forall u, (forall x, In x (u :: l) -> x <= fold_left Nat.max l u) /\ In (fold_left Nat.max l u) (u :: l).
Proof.
  induction l as [|a l IH]; intro u; cbn [fold_left].
  - split; [intros x [->|[]]; lia|now left].
  - destruct (IH (Nat.max u a)) as [H1 H2]. split.
    + intros x [->|[->|Hx]].
      * etransitivity; [|apply H1; now left]. lia.
      * etransitivity; [|apply H1; now left]. lia.
      * apply H1. now right.
    + destruct H2 as [H2|H2]; [|now right; right].
      rewrite <- H2. destruct (Nat.max_spec u a) as [[_ ->]|[_ ->]]; [right; now left|now left].
Qed.

Lemma fold_zmax {A} (g : A -> Z) l : forall m, (forall x, In x l -> (g x <= m)%Z) -> fold_left (fun m x => Z.max m (g x)) l m = m.
Proof.
  induction l as [|a l IH]; intros m H; [reflexivity|]. cbn [fold_left].
  rewrite Z.max_l by (apply H; now left). apply IH. intros; apply H; now right.
Qed.

Section Facts.
  Context {V : Type} {N : Num V}.
  Notation line := (line V).

  Lemma lookup_ma_ok (g : nat -> list V) us p : In p us -> lookup_ma (map (fun q => (q, g q)) us) p = Ok (g p).
  Proof.
    unfold lookup_ma. induction us as [|q us IH]; intro H; [destruct H|]. cbn [map find].
    destruct (Nat.eqb_spec p q) as [->|E]; [reflexivity|]. apply IH. destruct H; [congruence|assumption].
  Qed.

  Definition chosen lo hi (periods : list nat) i := clip_period lo hi (nth i periods 0).
  (** the largest period in use *)
  Definition longest lo hi (periods : list nat) :=
    match map (clip_period lo hi) periods with [] => 0 | u :: l => fold_left Nat.max l u end.

  Lemma clip_bounds lo hi p : lo <= hi -> lo <= clip_period lo hi p <= hi.
  Proof. unfold clip_period. lia. Qed.

  Lemma chosen_in lo hi periods i : i < length periods -> In (chosen lo hi periods i) (map (clip_period lo hi) periods).
  Proof. intro H. unfold chosen. apply in_map. now apply nth_In. Qed.
  Lemma in_chosen lo hi periods p : In p (map (clip_period lo hi) periods) ->
    exists i, i < length periods /\ p = chosen lo hi periods i.
  Proof.
    intro H. apply in_map_iff in H. destruct H as (q & <- & Hq). apply In_nth with (d := 0) in Hq.
    destruct Hq as (i & Hi & E). exists i. split; [exact Hi|]. unfold chosen. now rewrite E.
  Qed.

  Lemma max_same l l' : (forall x, In x l <-> In x l') ->
    match l with [] => 0 | u :: t => fold_left Nat.max t u end =
    match l' with [] => 0 | u :: t => fold_left Nat.max t u end.
  Proof.
    intro H. destruct l as [|u t], l' as [|u' t'].
    - reflexivity.
    - exfalso. apply (proj2 (H u')). now left.
    - exfalso. apply (proj1 (H u)). now left.
    - destruct (fold_max_spec t u) as [A1 A2], (fold_max_spec t' u') as [B1 B2].
      apply Nat.le_antisymm; [apply B1, H, A2|apply A1, H, B2].
  Qed.

  Lemma longest_spec lo hi periods : periods <> [] ->
    (forall i, i < length periods -> chosen lo hi periods i <= longest lo hi periods) /\
    exists i, i < length periods /\ chosen lo hi periods i = longest lo hi periods.
  Proof.
    intro H. unfold longest. destruct (map (clip_period lo hi) periods) as [|u t] eqn:E.
    - destruct periods; [congruence|discriminate].
    - destruct (fold_max_spec t u) as [A1 A2]. rewrite <- E in A1, A2. split.
      + intros i Hi. apply A1. now apply chosen_in.
      + apply in_chosen in A2. destruct A2 as (i & Hi & ->). exists i. split; [exact Hi|reflexivity].
  Qed.

  (** the general shape of the result *)
  Lemma mavp_shape (talib : bool) ma lo hi (close : line) periods (Y : nat -> line) k n :
    lmp close = Z.of_nat (S k) -> length (lser close) = n -> length periods = n -> 1 <= n ->
    let maxp := if talib then hi else longest lo hi periods in
    1 <= maxp ->
    let q := k + maxp - 1 in
    (forall p, In p (map (clip_period lo hi) periods) ->
       ma p close = Ok (Y p) /\ (lmp (Y p) <= Z.of_nat (S q))%Z /\ length (lser (Y p)) = n) ->
    mavp talib ma lo hi close periods =
    Ok (mkLine (Z.of_nat (S q))
          (map (fun i => if i <? q then vnan else nth i (lser (Y (chosen lo hi periods i))) vnan) (seq 0 n))).
  Proof.
    intros Hmp Hlen Hper Hn maxp Hmaxp q HY. unfold mavp.
    set (ps := map (clip_period lo hi) periods) in *.
    rewrite (@traverse_ok _ _ _ (fun p => (p, Y p))).
    2:{ intros p Hp. apply (proj1 (unique_in ps p)) in Hp. destruct (HY p Hp) as [-> _]. reflexivity. }
    cbn [bind].
    assert (EM : (if talib then Ok hi
                  else match unique ps with [] => Raise ValueError | u :: us' => Ok (fold_left Nat.max us' u) end) = Ok maxp).
    { unfold maxp. destruct talib; [reflexivity|].
      assert (M := @max_same (unique ps) ps (unique_in ps)). unfold longest. fold ps.
      destruct (unique ps) as [|u us] eqn:E.
      - exfalso. destruct periods as [|p0 periods']; [simpl in Hper; lia|].
        assert (I : In (clip_period lo hi p0) (unique ps)) by (apply unique_in; left; reflexivity).
        rewrite E in I. exact I.
      - now rewrite M. }
    rewrite EM. cbn [bind].
    assert (EP : period_ close (Z.of_nat maxp) true None = mkLine (Z.of_nat (S q)) (lser close)).
    { unfold period_. destruct (Z.eqb_spec (Z.of_nat maxp - 1) 0).
      - destruct close as [m s]. cbn [lmp lser] in *. f_equal. lia.
      - f_equal. lia. }
    rewrite EP. cbn [lmp lser].
    assert (EX : max_mp (mkLine (Z.of_nat (S q)) (lser close)) (map snd (map (fun p => (p, Y p)) (unique ps))) = Z.of_nat (S q)).
    { unfold max_mp. cbn [lmp]. apply fold_zmax. intros x Hx. rewrite map_map in Hx. apply in_map_iff in Hx.
      destruct Hx as (p & <- & Hp). apply HY. now apply unique_in. }
    rewrite EX, mp_idx, Hlen. rewrite map_map.
    assert (EB : mavp_body (map (fun p => (p, slice_from (lser (Y p)) (Z.of_nat q))) (unique ps))
                   (slice_from (lser close) (Z.of_nat q)) (slice_from ps (Z.of_nat q)) =
                 Ok (map (fun i => nth i (lser (Y (chosen lo hi periods i))) vnan) (seq q (n - q)))).
    { unfold mavp_body. rewrite !slice_from_nat, skipn_length, Hlen.
      rewrite (@traverse_ok _ _ _ (fun i => nth (q + i) (lser (Y (chosen lo hi periods (q + i)))) vnan)).
      - f_equal. assert (G : forall m a, map (fun i => nth (q + i) (lser (Y (chosen lo hi periods (q + i)))) vnan) (seq a m) =
          map (fun i => nth i (lser (Y (chosen lo hi periods i))) vnan) (seq (q + a) m)).
        { induction m as [|m IHm]; intro a; [reflexivity|]. cbn [seq map]. rewrite IHm.
          now replace (q + S a) with (S (q + a)) by lia. }
        rewrite G. now rewrite Nat.add_0_r.
      - intros i Hi. apply in_seq in Hi.
        assert (Hin : In (chosen lo hi periods (q + i)) ps) by (apply chosen_in; lia).
        assert (NE : nth_error (skipn q ps) i = Some (chosen lo hi periods (q + i))).
        { rewrite nth_error_skipn. unfold ps. rewrite nth_error_map.
          rewrite (nth_error_nth' periods 0) by lia. reflexivity. }
        rewrite NE. rewrite (map_ext _ (fun p => (p, skipn q (lser (Y p))))) by (intro; now rewrite slice_from_nat).
        rewrite lookup_ma_ok by (now apply unique_in). cbn [bind]. rewrite nth_error_skipn.
        destruct (HY _ Hin) as (_ & _ & L). rewrite (nth_error_nth' _ vnan) by lia. reflexivity. }
    rewrite EB. cbn [bind]. rewrite clone_S. do 2 f_equal. apply (placed_spec n q).
  Qed.
End Facts.
