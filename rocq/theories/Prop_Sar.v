(** Property theorems C62 and C63: the parabolic stop and reverse.  Models: IndSar.v;
    Wilder's rules ([psar], and [psarx] for the extended version): SarSpec.v. *)
From Coq Require Import ZArith QArith List Bool Reals Lra Lia.
From Verif Require Import Num Series Line Spec RSpec SarSpec LineFacts RFacts OpFacts
  RLineFacts Apply IndSar SarFacts PropLinesFacts PropSarFacts.
Import ListNotations.
Local Open Scope R_scope.

(** concrete inputs: a rise, a fall and a rise *)
Definition sh : list R := [10; 12; 14; 16; 12; 10; 9; 14; 16].
Definition sl : list R := [8; 10; 12; 14; 7; 6; 6; 10; 13].
Example sh_feeds : feeds (raw (map Fin sh)) 9 0 (fin (fun i => nth i sh 0)).
Proof. exact (raw_fin_feeds sh). Qed.
Example sl_feeds : feeds (raw (map Fin sl)) 9 0 (fin (fun i => nth i sl 0)).
Proof. exact (raw_fin_feeds sl). Qed.
Example sbar : forall i, (Nat.max 0 0 <= i < 9)%nat -> 0 < nth i sl 0 <= nth i sh 0.
Proof. intros i Hi. do 9 (destruct i as [|i]; [simpl; lra|]). lia. Qed.
Definition qsh : line (ext Q) := raw (map Fin [10; 12; 14; 16; 12; 10; 9; 14; 16]%Q).
Definition qsl : line (ext Q) := raw (map Fin [8; 10; 12; 14; 7; 6; 6; 10; 13]%Q).

(** [sar] delivers the values of Wilder's rules from the second usable bar on *)
Theorem C62_run :
  forall (hl ll : line (ext R)) n kh kl h l af afmax,
    feeds hl n kh (fin h) -> feeds ll n kl (fin l) ->
    let k := Nat.max kh kl in
    (k + 2 <= n)%nat ->
    exists y long stop s ext acc,
      sar (Fin af) (Fin afmax) hl ll = Ok y /\
      psar h l k n af afmax long stop s ext acc /\
      delivers y n (S k) (fin s).
Proof. exact sar_all. Qed.
Print Assumptions C62_run.

(** the rules leave no freedom *)
Theorem C62_determined :
  forall h l k n af afmax long stop s ext acc long' stop' s' ext' acc',
    psar h l k n af afmax long stop s ext acc ->
    psar h l k n af afmax long' stop' s' ext' acc' ->
    forall i, (S k <= i < n)%nat -> long i = long' i /\ s i = s' i /\ ext i = ext' i /\ acc i = acc' i.
Proof. exact psar_unique. Qed.
Print Assumptions C62_determined.

(** The side of the market: below the low in a long trend, above the high in a short one;
    at a reversal the value is the highest high (lowest low) since the finished trend
    began; the acceleration stays within its limits. *)
Theorem C62_sides :
  forall (hl ll : line (ext R)) n kh kl h l af afmax y long stop s ext acc,
    feeds hl n kh (fin h) -> feeds ll n kl (fin l) ->
    (forall i, (Nat.max kh kl <= i < n)%nat -> l i <= h i) -> 0 < af <= afmax ->
    psar h l (Nat.max kh kl) n af afmax long stop s ext acc ->
    sar (Fin af) (Fin afmax) hl ll = Ok y ->
    forall i, (Nat.max kh kl < i < n)%nat ->
      nth_error (lser y) i = Some (Fin (s i)) /\
      (long i = long (i - 1)%nat -> if long i then s i < l i else h i < s i) /\
      (long i <> long (i - 1)%nat ->
         exists b, trend_since (Nat.max kh kl) long i b /\
           (exists j, (b <= j <= Nat.max b (i - 1))%nat /\ s i = if long (i - 1)%nat then h j else l j) /\
           forall j, (b <= j <= Nat.max b (i - 1))%nat ->
             if long (i - 1)%nat then h j <= s i else s i <= l j) /\
      af <= acc i <= afmax.
Proof. exact sar_sides. Qed.
Print Assumptions C62_sides.

(** inside a trend the stop only moves towards the market *)
Theorem C62_monotone :
  forall (h l : nat -> R) k n af afmax long stop s ext acc,
    (forall i, (k <= i < n)%nat -> l i <= h i) -> 0 < af <= afmax ->
    psar h l k n af afmax long stop s ext acc ->
    forall i, (k < i)%nat -> (S i < n)%nat -> long i = long (i - 1)%nat -> long (S i) = long i ->
      if long i then s i <= s (S i) else s (S i) <= s i.
Proof. exact sar_monotone. Qed.
Print Assumptions C62_monotone.

(** it never leaves the range of the prices seen so far *)
Theorem C62_range :
  forall (h l : nat -> R) k n af afmax long stop s ext acc,
    (forall i, (k <= i < n)%nat -> l i <= h i) -> 0 < af <= afmax -> afmax <= 1 ->
    psar h l k n af afmax long stop s ext acc ->
    forall i lo hi, (k < i < n)%nat ->
      (forall j, (k <= j <= i)%nat -> lo <= l j /\ h j <= hi) -> lo <= s i <= hi.
Proof. exact sar_in_range. Qed.
Print Assumptions C62_range.

Theorem C62_short_input :
  forall (AF AFMAX : ext R) (hl ll : line (ext R)) n kh kl f g,
    feeds hl n kh f -> feeds ll n kl g ->
    (n < Nat.max kh kl + 2)%nat -> sar AF AFMAX hl ll = Raise IndexError.
Proof. exact sar_short. Qed.
Print Assumptions C62_short_input.

Example C62_run_met := C62_run _ _ 9 0 0 _ _ (2/100) (20/100) sh_feeds sl_feeds (ltac:(simpl; lia)).
Example C62_sides_met :
  exists long stop s ext acc y,
    psar (fun i => nth i sh 0) (fun i => nth i sl 0) 0 9 (2/100) (20/100) long stop s ext acc /\
    sar (Fin (2/100)) (Fin (20/100)) (raw (map Fin sh)) (raw (map Fin sl)) = Ok y /\
    long 3%nat = true /\ long 4%nat = false.
Proof.
  destruct C62_run_met as (y & long & stop & s & ext & acc & E & RUN & D).
  change (Nat.max 0 0) with 0%nat in *.
  exists long, stop, s, ext, acc, y. split; [exact RUN|]. split; [exact E|].
  assert (R1 := RUN). destruct RUN as [(A1 & A2 & A3 & A4) B]. cbv beta in A1, A2, A3. simpl nth in A1, A2, A3.
  assert (L0 : long 0%nat = true).
  { destruct (long 0%nat) eqn:E0; [reflexivity|]. destruct (proj1 A1 eq_refl). lra. }
  rewrite L0 in A2, A3.
  assert (ST : forall i, (1 <= i < 9)%nat -> long (i - 1)%nat = true -> stop i < nth i sl 0 ->
     long i = true /\ s i = stop i /\ stop (S i) <= nth (Nat.max 1 (i - 1)) sl 0).
  { intros i Hi Li Hs. destruct (B i ltac:(lia)) as (_ & Y & Z).
    destruct Y as (Y1 & Y2 & _); [unfold hit; rewrite Li; lra|]. cbv zeta in Z. rewrite Li in Y1.
    split; [exact Y1|]. split; [exact Y2|]. rewrite Z, Y1.
    eapply Rle_trans; [apply Rmin_r|]. apply Rmin_r. }
  destruct (ST 1%nat ltac:(lia) L0) as (L1 & S1 & T1); [rewrite A2; simpl; lra|]. simpl nth in T1.
  destruct (ST 2%nat ltac:(lia) L1) as (L2 & S2 & T2); [simpl nth; lra|]. simpl nth in T2.
  destruct (ST 3%nat ltac:(lia) L2) as (L3 & S3 & T3); [simpl nth; lra|].
  split; [exact L3|].
  destruct (B 4%nat ltac:(lia)) as (X & _). simpl Nat.sub in X. rewrite L3 in X. apply X.
  unfold hit. simpl Nat.sub. rewrite L3. simpl nth.
  assert (HA : 0 < 2/100 <= 20/100) by lra.
  assert (M := C62_monotone _ _ _ _ _ _ _ _ _ _ _ (fun i Hi => proj2 (sbar i Hi)) HA R1).
  assert (M1 := M 1%nat ltac:(lia) ltac:(lia)). simpl Nat.sub in M1. rewrite L1, L2, L0 in M1.
  assert (M2 := M 2%nat ltac:(lia) ltac:(lia)). simpl Nat.sub in M2. rewrite L1, L2, L3 in M2.
  specialize (M1 eq_refl eq_refl). specialize (M2 eq_refl eq_refl).
  destruct (Rle_dec 7 (stop 4%nat)) as [C|C]; [exact C|exfalso].
  (* without a hit the bar would stay long with a stop above its low *)
  destruct (B 3%nat ltac:(lia)) as (_ & _ & Z). cbv zeta in Z. rewrite L3 in Z. simpl nth in Z.
  destruct (B 3%nat ltac:(lia)) as (_ & Y & _).
  destruct Y as (_ & Y2 & Y3 & Y4); [unfold hit; simpl Nat.sub; rewrite L2; simpl nth; lra|].
  rewrite L3 in Y3. simpl nth in Y3. simpl Nat.sub in Y3.
  assert (16 <= ext 3%nat) by (rewrite Y3; apply Rmax_r).
  assert (AC := PropSarFacts.acc_range R1 HA (i := 3%nat) ltac:(lia) ltac:(lia)).
  assert (0 <= acc 3%nat * (ext 3%nat - s 3%nat)) by (apply Rmult_le_pos; lra).
  apply C. rewrite Z. repeat apply Rmin_glb; unfold before; simpl; lra.
Qed.
Example C62_computed :
  exists y, sar (Fin (2#100)) (Fin (20#100)) qsh qsl = Ok y /\
    map (fun v => match v with Fin q => Fin (Qred q) | _ => v end) (lser y) =
      [NaN; Fin 8; Fin (202#25); Fin (5198#625); Fin 16; Fin 16; Fin (78#5);
       Fin (1902#125); Fin 6]%Q.
Proof. eexists. split; vm_compute; reflexivity. Qed.

(** the extended version follows its rules; short stops are delivered negated *)
Theorem C63_rules :
  forall (hl ll : line (ext R)) n kh kl h l start afl afxl afs afxs offs,
    feeds hl n kh (fin h) -> feeds ll n kl (fin l) ->
    let k := Nat.max kh kl in
    (k + 2 <= n)%nat ->
    exists y long stop s ext acc,
      sarext (Fin start) (mkSarPar (Fin afl) (Fin afxl) (Fin afs) (Fin afxs) (Fin offs)) hl ll = Ok y /\
      psarx h l k n long stop s ext acc start offs
        (fun up : bool => if up then afl else afs) (fun up : bool => if up then afxl else afxs) /\
      delivers y n (S k) (fin (fun i => if long i then s i else - s i)).
Proof. exact sarext_all. Qed.
Print Assumptions C63_rules.
Example C63_rules_met := C63_rules _ _ 9 0 0 _ _ (-3) (2/100) (20/100) (3/100) (10/100) (1/100) sh_feeds sl_feeds (ltac:(simpl; lia)).

(** With an automatic start, no offset and equal steps it has the magnitude of [sar]; with
    positive prices that value is positive, so the sign tells the trend. *)
Theorem C63_default :
  forall (hl ll : line (ext R)) n kh kl h l af afmax,
    feeds hl n kh (fin h) -> feeds ll n kl (fin l) ->
    let k := Nat.max kh kl in
    (k + 2 <= n)%nat ->
    exists y x long stop s ext acc,
      sar (Fin af) (Fin afmax) hl ll = Ok y /\
      sarext (Fin 0) (mkSarPar (Fin af) (Fin afmax) (Fin af) (Fin afmax) (Fin 0)) hl ll = Ok x /\
      psar h l k n af afmax long stop s ext acc /\
      delivers y n (S k) (fin s) /\
      delivers x n (S k) (fin (fun i => if long i then s i else - s i)) /\
      ((forall i, (k <= i < n)%nat -> 0 < l i <= h i) -> 0 < af <= afmax -> afmax <= 1 ->
       forall i, (k < i < n)%nat -> 0 < s i).
Proof. exact sarext_sar. Qed.
Print Assumptions C63_default.

Theorem C63_short_input :
  forall (S0 : ext R) P (hl ll : line (ext R)) n kh kl f g,
    feeds hl n kh f -> feeds ll n kl g ->
    (n < Nat.max kh kl + 2)%nat -> sarext S0 P hl ll = Raise IndexError.
Proof. exact sarext_short. Qed.
Print Assumptions C63_short_input.

Example C63_default_met := C63_default _ _ 9 0 0 _ _ (2/100) (20/100) sh_feeds sl_feeds (ltac:(simpl; lia)).
Example C63_computed :
  exists y, sarext (Fin 0%Q) (mkSarPar (Fin (2#100)) (Fin (20#100)) (Fin (2#100)) (Fin (20#100)) (Fin 0%Q)) qsh qsl = Ok y /\
    map (fun v => match v with Fin q => Fin (Qred q) | _ => v end) (lser y) =
      [NaN; Fin 8; Fin (202#25); Fin (5198#625); Fin (-16); Fin (-16); Fin (-78#5);
       Fin (-1902#125); Fin 6]%Q.
Proof. eexists. split; vm_compute; reflexivity. Qed.
