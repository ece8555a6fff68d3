(** A function applied to lines, indicators, Series and other objects. *)
From Coq Require Import ZArith String List Bool Lia Arith.
From Verif Require Import Num Series Line Spec LineApiSpec Py LinesGen Holder HolderSpec Operand OperandSpec LineFacts OperandFacts
  LineApi Apply StrictFacts LineApiFacts ApplyAny ApplySpec.
Import ListNotations.
Set Implicit Arguments.
Local Open Scope nat_scope.

Section Facts.
  Context {V : Type} {N : Num V} {A : Type}.
  Notation uarg := (uarg V A).
  Notation farg := (farg V A).

  Lemma sees_arg n (x : uarg) k v : sees n x k v ->
    arg_mp x = Ok (Z.of_nat (S k)) /\ forall m, k <= m -> arg_cut (Z.of_nat m) x = Ok (v m).
  Proof.
    intro H. destruct H as [l k f F|h k K f B Y|s f F L|x]; cbn [arg_mp arg_cut].
    - split; [now rewrite (feeds_mp F)|]. intros m Hm. rewrite (feeds_slice F Hm). reflexivity.
    - destruct (built_lines_of _ _ _ _ _ B Y) as (l & _ & F & R & Hk). unfold right_line in R.
      destruct (asked_minperiod h) as [z|]; cbn [bind] in R; [|discriminate].
      destruct (asked_series h) as [s|]; cbn [bind] in *; [|discriminate]. injection R as -> ->.
      split; [reflexivity|]. intros m Hm. rewrite (feeds_slice (m := m) F) by lia. reflexivity.
    - split; [reflexivity|]. intros m Hm.
      assert (Fe : feeds (mkLine 1 s) n 0 f) by (split; [reflexivity|split; [exact L|intros i Hi; apply F; lia]]).
      change s with (lser (mkLine 1 s)). rewrite (feeds_slice (m := m) Fe) by lia. reflexivity.
    - split; reflexivity.
  Qed.
  Lemma max_assoc l : forall z, fold_left Z.max l z = Z.max z (fold_left Z.max l 1%Z) \/ (z < 1)%Z.
  Proof.
    induction l as [|x l IH]; intro z; cbn [fold_left]; [lia|].
    destruct (Z.lt_ge_cases z 1) as [H|H]; [now right|left].
    destruct (IH (Z.max z x)) as [E|E]; [|lia]. destruct (IH (Z.max 1 x)) as [E'|E']; [|lia]. rewrite E, E'. lia.
  Qed.
  Lemma see_all_args n (l : list uarg) K vs : see_all n l K vs ->
    (exists ms, all_ok arg_mp l = Ok ms /\ fold_left Z.max ms 1%Z = Z.of_nat (S K)) /\
    forall m, K <= m -> all_ok (arg_cut (Z.of_nat m)) l = Ok (vs m).
  Proof.
    induction 1 as [|x l k K v vs H HS IH]; cbn [all_ok].
    - split; [exists []; split; reflexivity|reflexivity].
    - destruct (sees_arg H) as [E C]. destruct IH as [(ms & Em & Mx) IH]. rewrite E, Em. cbn [bind]. split.
      + eexists. split; [reflexivity|]. cbn [fold_left]. destruct (max_assoc ms (Z.max 1 (Z.of_nat (S k)))) as [X|X]; lia.
      + intros m Hm. rewrite C, IH by lia. reflexivity.
  Qed.
  Lemma all_ok_kw n (l : list (string * uarg)) K vs : see_all n (map snd l) K vs ->
    (exists ms, all_ok (fun kx => arg_mp (snd kx)) l = Ok ms /\ fold_left Z.max ms 1%Z = Z.of_nat (S K)) /\
    forall m, K <= m -> all_ok (fun kx => bind (arg_cut (Z.of_nat m) (snd kx)) (fun y => Ok (fst kx, y))) l = Ok (combine (map fst l) (vs m)).
  Proof.
    revert K vs. induction l as [|[s x] l IH]; intros K vs H; cbn [map snd] in H; inversion H as [|x0 l0 k0 K0 v0 vs0 H3 H4]; subst; cbn [all_ok].
    - split; [exists []; split; reflexivity|reflexivity].
    - destruct (sees_arg H3) as [E C]. destruct (IH _ _ H4) as [(ms & Em & Mx) IH']. cbn [snd fst map]. rewrite E, Em. cbn [bind]. split.
      + eexists. split; [reflexivity|]. cbn [fold_left]. destruct (max_assoc ms (Z.max 1 (Z.of_nat (S k0)))) as [X|X]; lia.
      + intros m Hm. rewrite C by lia. cbn [bind]. rewrite IH' by lia. reflexivity.
  Qed.

  Section Call.
    Variables (a : line V) (args : list uarg) (kwargs : list (string * uarg)) (n k Ka Kk : nat) (f : nat -> V).
    Variables (vs ws : nat -> list farg).
    Hypothesis Fa : feeds a n k f.
    Hypothesis Ha : see_all n args Ka vs.
    Hypothesis Hk : see_all n (map snd kwargs) Kk ws.
    Let K := Nat.max k (Nat.max Ka Kk).
    Lemma minperiodize_ok : minperiodize a args kwargs = Ok (Z.of_nat (S K), vs K, combine (map fst kwargs) (ws K)).
    Proof.
      unfold minperiodize. destruct (see_all_args Ha) as [(ms & Em & Mm) Ca]. destruct (all_ok_kw _ Hk) as [(ks & Ek & Mk) Ck].
      rewrite Em, Ek. cbn [bind]. rewrite fold_left_app, (feeds_mp Fa).
      destruct (max_assoc ms (Z.of_nat (S k))) as [X|X]; [|lia]. rewrite X, Mm.
      destruct (max_assoc ks (Z.max (Z.of_nat (S k)) (Z.of_nat (S Ka)))) as [Y|Y]; [|lia]. rewrite Y, Mk.
      replace (Z.max (Z.max (Z.of_nat (S k)) (Z.of_nat (S Ka))) (Z.of_nat (S Kk))) with (Z.of_nat (S K)) by (unfold K; lia).
      rewrite mp_idx, Ca, Ck by (unfold K; lia). reflexivity.
    Qed.
    Lemma seen_cut : slice_from (lser a) (Z.of_nat (S K) - 1) = delivered f K n.
    Proof. rewrite mp_idx. apply (feeds_slice Fa). unfold K. lia. Qed.
    Lemma put_outcome r : K <= n -> 0 < n ->
      bind (put vnan (bars a) (Z.of_nat (S K) - 1) r) (fun s => Ok (clone a s (Z.of_nat (S K)))) =
      if Nat.eqb (length r) (n - K) then Ok (mkLine (Z.of_nat (S K)) (set_from (nans n) (Z.of_nat K) r)) else Raise ValueError.
    Proof.
      intros Hn Hp. rewrite mp_idx. unfold bars. rewrite (feeds_len Fa). destruct (Nat.eqb_spec (length r) (n - K)) as [E|E].
      - rewrite put_fits by (try assumption; lia). cbn [bind]. now rewrite clone_S.
      - unfold put. destruct (Nat.eqb_spec n 0); [lia|].
        replace (Z.of_nat K <? 0)%Z with false by (symmetry; apply Z.ltb_ge; lia).
        replace (Z.of_nat n - Z.of_nat K =? Z.of_nat (length r))%Z with false; [reflexivity|]. symmetry. apply Z.eqb_neq. lia.
    Qed.
    Lemma apply_ok F r : K <= n -> 0 < n -> F (delivered f K n) (vs K) (combine (map fst kwargs) (ws K)) = Ok r ->
      (length r = n - K -> exists y, apply_any F a args kwargs = Ok y /\ delivers y n K (fun i => nth (i - K) r vnan)) /\
      (length r <> n - K -> apply_any F a args kwargs = Raise ValueError).
    Proof.
      intros Hn Hp E. unfold apply_any. rewrite minperiodize_ok. cbn [bind]. rewrite seen_cut, E. cbn [bind]. rewrite put_outcome by assumption.
      destruct (Nat.eqb_spec (length r) (n - K)) as [L|L]; split; intro H; try contradiction; [|reflexivity].
      eexists. split; [reflexivity|]. apply nth_delivers; [lia|exact L].
    Qed.
    Lemma apply_raise F e : F (delivered f K n) (vs K) (combine (map fst kwargs) (ws K)) = Raise e ->
      apply_any F a args kwargs = Raise e.
    Proof. intro E. unfold apply_any. rewrite minperiodize_ok. cbn [bind]. now rewrite seen_cut, E. Qed.
    (** with fewer bars than the arguments need nothing fits, not even an empty result *)
    Lemma apply_short F r : 0 < n < K -> F [] (vs K) (combine (map fst kwargs) (ws K)) = Ok r ->
      apply_any F a args kwargs = Raise ValueError.
    Proof.
      intros Hn E. unfold apply_any. rewrite minperiodize_ok. cbn [bind]. rewrite seen_cut.
      replace (delivered f K n) with (@nil V) by (unfold delivered; replace (n - K) with 0 by lia; reflexivity).
      rewrite E. cbn [bind]. rewrite mp_idx. unfold bars, put. rewrite (feeds_len Fa). destruct (Nat.eqb_spec n 0); [lia|].
      replace (Z.of_nat K <? 0)%Z with false by (symmetry; apply Z.ltb_ge; lia).
      replace (Z.of_nat n - Z.of_nat K =? Z.of_nat (length r))%Z with false; [reflexivity|]. symmetry. apply Z.eqb_neq. lia.
    Qed.
    Lemma multi_ok F rs : K <= n -> 0 < n -> F (delivered f K n) (vs K) (combine (map fst kwargs) (ws K)) = Ok rs ->
      (Forall (fun r => length r = n - K) rs -> exists ys, applymulti_any F a args kwargs = Ok ys /\
         Forall2 (fun r y => delivers y n K (fun i => nth (i - K) r vnan)) rs ys) /\
      (~ Forall (fun r => length r = n - K) rs -> applymulti_any F a args kwargs = Raise ValueError).
    Proof.
      intros Hn Hp E. unfold applymulti_any. rewrite minperiodize_ok. cbn [bind]. rewrite seen_cut, E. cbn [bind]. clear E.
      induction rs as [|r rs [IH1 IH2]]; cbn [all_ok]; [split; intro H; [exists []; auto|elim H; constructor]|].
      rewrite put_outcome by assumption. destruct (Nat.eqb_spec (length r) (n - K)) as [L|L]; cbn [bind]; split; intro H.
      - inversion H; subst. destruct (IH1 H3) as (ys & Ey & Dy). rewrite Ey. cbn [bind]. eexists. split; [reflexivity|].
        constructor; [apply nth_delivers; [lia|exact L]|exact Dy].
      - rewrite IH2; [reflexivity|]. intro Q. apply H. constructor; auto.
      - inversion H; subst. contradiction.
      - reflexivity.
    Qed.
  End Call.
End Facts.

(** the calls of the library (Apply.v) are the same for functions that keep the length *)
Section Library.
  Context {V : Type} {N : Num V} {A : Type}.
  Lemma lines_args (ls : list (line V)) idx :
    all_ok (@arg_mp V A) (map (@ULine V A) ls) = Ok (map (@lmp V) ls) /\
    all_ok (@arg_cut V A idx) (map (@ULine V A) ls) = Ok (map (fun x => FSer (slice_from (lser x) idx)) ls).
  Proof.
    induction ls as [|l ls [IH1 IH2]]; cbn [map all_ok arg_mp arg_cut bind]; [split; reflexivity|].
    rewrite IH1, IH2. split; reflexivity.
  Qed.
  Definition values (x : farg V A) : list V := match x with FSer s => s | FOther _ => [] end.
  Lemma values_ser (ls : list (line V)) idx :
    map values (map (fun x => FSer (slice_from (lser x) idx)) ls) = map (fun x => slice_from (lser x) idx) ls.
  Proof. rewrite map_map. reflexivity. Qed.
  Lemma mp_lines (ls : list (line V)) : forall z, fold_left Z.max (map (@lmp V) ls ++ []) z = fold_left (fun m x => Z.max m (lmp x)) ls z.
  Proof. rewrite app_nil_r. induction ls as [|l ls IH]; intro z; cbn [map fold_left]; [reflexivity|]. apply IH. Qed.
  Lemma library_args (a : line V) ls : minperiodize (A := A) a (map (@ULine V A) ls) [] =
    Ok (max_mp a ls, map (fun x => FSer (slice_from (lser x) (max_mp a ls - 1))) ls, []).
  Proof.
    unfold minperiodize. rewrite (proj1 (lines_args ls 0)). cbn [all_ok bind]. rewrite mp_lines.
    fold (max_mp a ls). rewrite (proj2 (lines_args ls _)). reflexivity.
  Qed.
  Lemma stored (a : line V) K (r : list V) : 0 < bars a -> K <= bars a -> length r = bars a - K ->
    put vnan (bars a) (Z.of_nat (S K) - 1) r = Ok (set_from (nans (length (lser a))) (Z.of_nat (S K) - 1) r).
  Proof. intros P L E. rewrite mp_idx. rewrite put_fits by (try assumption; lia). reflexivity. Qed.
  Lemma cut_length (s : list V) K : length (slice_from s (Z.of_nat (S K) - 1)) = length s - K.
  Proof. rewrite mp_idx, slice_from_nat. apply skipn_length. Qed.
  Lemma library_apply F (a : line V) ls K : max_mp a ls = Z.of_nat (S K) -> K <= length (lser a) -> 0 < length (lser a) ->
    (forall s ss r, F s ss = Ok r -> length r = length s) ->
    apply_any (A := A) (fun s xs _ => F s (map values xs)) a (map (@ULine V A) ls) [] = apply_ F a ls.
  Proof.
    intros M L P HF. unfold apply_any. rewrite library_args. cbn [bind]. unfold apply_. rewrite values_ser.
    destruct (F _ _) as [r|e] eqn:E; cbn [bind]; [|reflexivity]. apply HF in E. rewrite M in *. rewrite cut_length in E.
    rewrite stored by (unfold bars; assumption). reflexivity.
  Qed.
  Lemma library_multi F (a : line V) ls K : max_mp a ls = Z.of_nat (S K) -> K <= length (lser a) -> 0 < length (lser a) ->
    (forall s ss rs, F s ss = Ok rs -> Forall (fun r => length r = length s) rs) ->
    applymulti_any (A := A) (fun s xs _ => F s (map values xs)) a (map (@ULine V A) ls) [] = applymulti_ F a ls.
  Proof.
    intros M L P HF. unfold applymulti_any. rewrite library_args. cbn [bind]. unfold applymulti_. rewrite values_ser.
    destruct (F _ _) as [rs|e] eqn:E; cbn [bind]; [|reflexivity]. apply HF in E. rewrite M in *. rewrite cut_length in E.
    clear HF. induction E as [|r rs Er E IH]; cbn [all_ok map]; [reflexivity|].
    rewrite stored by (unfold bars; assumption). cbn [bind]. rewrite IH. reflexivity.
  Qed.
End Library.
