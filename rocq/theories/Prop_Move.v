(** Property theorems C126 and C127: prices upside down, and prices higher by a constant.
    Models: Catalog.v (on top of the Ind*.v files); vocabulary: MoveSpec.v, UnitSpec.v. *)
From Coq Require Import ZArith QArith List Bool Lia Reals Lra.
From Verif Require Import Num Series Line Spec LineFacts RSpec IndMA IndBasic IndStat IndRange IndOsc IndVol Apply IndSar IndHT
  Catalog CatalogSpec UnitSpec MoveSpec MoveFacts3 MoveFacts7 MoveFacts8 PropLinesFacts Prop_Catalog Prop_Unit.
Import ListNotations.
Local Open Scope R_scope.

(** ** C126: a fall is read as a rise of the same size is *)

(** one indicator on mirrored inputs: the outputs of its partner, mirrored as the rules of
    MoveSpec.v say, or the same exception *)
Theorem C126_mirror :
  forall n x vs x' ws (ins : list (line (ext R))),
    mirror x vs x' ws -> valid x ->
    Forall (fun l => (1 <= lmp l)%Z /\ length (lser l) = n) ins -> length ins = length vs ->
    run x' (views vs ins) = converted (views ws) (run x ins).
Proof. exact run_mirror. Qed.
Print Assumptions C126_mirror.

(** two whole programs that are mirror images of each other *)
Theorem C126_program :
  forall n k vs steps steps' ws (env : list (line (ext R))),
    session_mirror k vs steps steps' ws ->
    Forall (fun s => valid (fst s) /\ ~ cyclic (fst s)) steps -> Forall (inside k) vs ->
    Forall (fun l => (1 <= lmp l)%Z /\ length (lser l) = n) env -> length env = k ->
    session (views vs env) steps' = converted (views ws) (session env steps).
Proof. intros n k vs steps steps' ws env H V I F L. exact (session_mirrored n k vs steps steps' ws H V I env F L). Qed.
Print Assumptions C126_program.

(** parabolic stop and reverse: if the first move is definite, a fall is followed as a rise is *)
Theorem C126_sar_partial :
  forall n t af afmax (h l : line (ext R)),
    ((1 <= lmp h)%Z /\ length (lser h) = n) -> ((1 <= lmp l)%Z /\ length (lser l) = n) -> definite h l ->
    sar af afmax (mirrored t l) (mirrored t h) = converted (mirrored t) (sar af afmax h l).
Proof. exact sar_mirrored. Qed.
Print Assumptions C126_sar_partial.

(** Bars high, low, close and volume upside down: the rsi, bands around it, the directional
    index, the distance of the price from the upper band, on balance volume, the highest
    price of 5 bars and a crossing of two averages. *)
Definition bull_steps : list (step (ext R)) :=
  [ (XRsi (ASmma SEED_AVG) 14 1, [2]);
    (XBbands 20 (Fin 2%R) ASma (AStddev 0), [2]);
    (XPlusDi true false (ASmma SEED_AVG) 14 1, [0; 1; 2]);
    (XSub, [6; 2]);
    (XObv false 1, [2; 3]);
    (XAvg AMax 5, [0]);
    (XAvg ASma 10, [2]);
    (XCrossup true, [5; 12]) ]%nat.
Definition bear_steps : list (step (ext R)) :=
  [ (XRsi (ASmma SEED_AVG) 14 1, [2]);
    (XBbands 20 (Fin 2%R) ASma (AStddev 0), [2]);
    (XMinusDi true false (ASmma SEED_AVG) 14 1, [0; 1; 2]);
    (XSub, [7; 2]);
    (XObv false 1, [2; 3]);
    (XAvg AMin 5, [1]);
    (XAvg ASma 10, [2]);
    (XCrossdown true, [5; 12]) ]%nat.
Example bear_met :
  session_mirror 4 [Mir 200 1; Mir 200 0; Mir 200 2; As 3] bull_steps bear_steps
    [Mir 200 1; Mir 200 0; Mir 200 2; As 3; Mir 100 4; Mir 200 5; Mir 200 7; Mir 200 6; As 8;
     Mir (200 - 200) 9; Mir 0 10; Mir 200 11; Mir 200 12; Mir 0 13].
Proof.
  unfold bull_steps, bear_steps.
  eapply sm_step; [apply m_rsi; reflexivity|repeat constructor|reflexivity|reflexivity|cbn].
  eapply sm_step; [apply m_bbands; reflexivity|repeat constructor|reflexivity|reflexivity|cbn].
  eapply sm_step; [apply m_plus_di; lia|repeat constructor|reflexivity|reflexivity|cbn].
  eapply sm_step; [apply (m_sub 200 200)|repeat constructor|reflexivity|reflexivity|cbn].
  eapply sm_step; [apply m_obv|repeat constructor|reflexivity|reflexivity|cbn].
  eapply sm_step; [apply m_max|repeat constructor|reflexivity|reflexivity|cbn].
  eapply sm_step; [apply m_level; reflexivity|repeat constructor|reflexivity|reflexivity|cbn].
  eapply sm_step; [apply m_crossup|repeat constructor|reflexivity|reflexivity|cbn].
  apply sm_end.
Qed.
Example bear_valid : Forall (fun s => valid (fst s) /\ ~ cyclic (fst s)) bull_steps.
Proof. unfold bull_steps, dm_ok. repeat constructor; cbn; unfold dm_ok; try lia; try tauto; try discriminate. Qed.
Example bear_inside : Forall (inside 4) [Mir 200 1; Mir 200 0; Mir 200 2; As 3].
Proof. repeat constructor. Qed.
Example bear_use (h l c v : list (ext R)) : length l = length h -> length c = length h -> length v = length h ->
  session (views [Mir 200 1; Mir 200 0; Mir 200 2; As 3] [raw h; raw l; raw c; raw v]) bear_steps =
  converted (views [Mir 200 1; Mir 200 0; Mir 200 2; As 3; Mir 100 4; Mir 200 5; Mir 200 7; Mir 200 6; As 8;
     Mir (200 - 200) 9; Mir 0 10; Mir 200 11; Mir 200 12; Mir 0 13]) (session [raw h; raw l; raw c; raw v] bull_steps).
Proof.
  intros A B C. apply (C126_program (length h) 4); [exact bear_met|exact bear_valid|exact bear_inside| |reflexivity].
  repeat constructor; cbn [raw lmp lser]; auto; lia.
Qed.

(** computed with rational numbers: the bars of [demo_env] at 20 minus the price *)
Definition upside_down := map (fun l => mkLine (lmp l) (map (vsub (Fin 20%Q)) (lser l))).
Definition demo_down : list (line (ext Q)) :=
  match upside_down demo_env with h :: l :: r => l :: h :: r | r => r end.
Example down_computed :
  match norm (@session _ _ demoT demo_env [(XRsi ASma 3 1, [2]); (XWilliamsr 3, [0; 1; 2])]%nat),
        norm (@session _ _ demoT demo_down [(XRsi ASma 3 1, [2]); (XWilliamsr 3, [0; 1; 2])]%nat) with
  | Ok [_; _; _; rsi; wr], Ok [_; _; _; rsi'; wr'] =>
      rsi = [NaN; NaN; NaN; Fin (400#7); Fin (125#2); Fin (125#2); Fin (250#3); Fin 50; Fin 0]%Q /\
      rsi' = [NaN; NaN; NaN; Fin (300#7); Fin (75#2); Fin (75#2); Fin (50#3); Fin 50; Fin 100]%Q /\
      wr <> wr'
  | _, _ => False
  end.
Proof. vm_compute. repeat split; congruence. Qed.

(** Bars whose first high and low move apart by the same amount: the indicator takes a rise
    for the first trend, of these bars and of the mirrored ones (the mirrored value of the first
    stop, 20 - 11, would be 9). *)
Definition bq (s : list Q) : line (ext Q) := raw (map (@Fin Q) s).
Theorem C126_sar_refuted :
  let h := bq [10; 11; 12]%Q in let l := bq [8; 7; 9]%Q in
  let h' := bq [12; 13; 11]%Q in let l' := bq [10; 9; 8]%Q in
  [h'; l'] = match upside_down [h; l] with [a; b] => [b; a] | r => r end /\
  exists o o', sar (Fin (1 # 50)) (Fin (1 # 5)) h l = Ok o /\ sar (Fin (1 # 50)) (Fin (1 # 5)) h' l' = Ok o' /\
    nth_error (lser o) 1 = Some (Fin 11%Q) /\ nth_error (lser o') 1 = Some (Fin 13%Q).
Proof.
  cbv zeta. split; [vm_compute; reflexivity|]. do 2 eexists. repeat (apply conj); vm_compute; reflexivity.
Qed.
Print Assumptions C126_sar_refuted.

(** On balance volume with [_talib]: the first bar counts as a rise, whatever the prices. *)
Theorem C126_obv_refuted :
  exists c v c' : line (ext Q), [c'] = upside_down [c] /\
    nth_error (lser (obv true 1 c v)) 0 = Some (Fin 100%Q) /\
    nth_error (lser (obv true 1 c' v)) 0 = Some (Fin 100%Q).
Proof.
  exists (bq [10; 11]%Q), (bq [100; 50]%Q), (bq [10; 9]%Q). repeat (apply conj); vm_compute; reflexivity.
Qed.
Print Assumptions C126_obv_refuted.

(** ** C127: all prices higher by a constant *)

Theorem C127_raised :
  forall n x ts ws (ins : list (line (ext R))),
    shifts x ts ws -> valid x ->
    Forall (fun l => (1 <= lmp l)%Z /\ length (lser l) = n) ins -> length ins = length ts ->
    run x (raised_by ts ins) = converted (raised_by ws) (run x ins).
Proof. exact run_shifts. Qed.
Print Assumptions C127_raised.

Theorem C127_program :
  forall n ts steps ws (env : list (line (ext R))),
    session_shifts ts steps ws -> Forall (fun s => valid (fst s) /\ ~ cyclic (fst s)) steps ->
    Forall (fun l => (1 <= lmp l)%Z /\ length (lser l) = n) env -> length env = length ts ->
    session (raised_by ts env) steps = converted (raised_by ws) (session env steps).
Proof. intros n ts steps ws env H V F L. exact (session_shift n ts steps ws H V env F L). Qed.
Print Assumptions C127_program.

(** Bars high, low, close raised by 5, volume as it was: the rsi, bands around it, the bands
    of the price, the width of the bands relative to the true range, the sar and the
    accumulation / distribution line. *)
Definition raise_steps : list (step (ext R)) :=
  [ (XRsi (ASmma SEED_AVG) 14 1, [2]);
    (XBbands 20 (Fin 2%R) ASma (AStddev 0), [4]);
    (XBbands 20 (Fin 2%R) ASma (AStddev 0), [2]);
    (XSub, [9; 10]);
    (XTruerange 1, [0; 1; 2]);
    (XDiv, [11; 12]);
    (XSar (Fin (2 / 100)%R) (Fin (2 / 10)%R), [0; 1]);
    (XAd, [0; 1; 2; 3]) ]%nat.
Example raise_met :
  session_shifts [5; 5; 5; 0] raise_steps [5; 5; 5; 0; 0; 0; 0; 0; 5; 5; 5; 0; 0; 0; 5; 0].
Proof.
  unfold raise_steps.
  apply (ss_step _ _ _ _ [5] [0]); [reflexivity|apply s_rsi|cbn [app]].
  apply (ss_step _ _ _ _ [0] [0; 0; 0]); [reflexivity|apply s_bbands; reflexivity|cbn [app]].
  apply (ss_step _ _ _ _ [5] [5; 5; 5]); [reflexivity|apply s_bbands; reflexivity|cbn [app]].
  apply (ss_step _ _ _ _ [5; 5] [0]); [reflexivity|replace 0 with (5 - 5) by ring; apply s_sub|cbn [app]].
  apply (ss_step _ _ _ _ [5; 5; 5] [0]); [reflexivity|apply s_truerange; lia|cbn [app]].
  apply (ss_step _ _ _ _ [0; 0] [0]); [reflexivity|apply s_still; repeat constructor|cbn [app]].
  apply (ss_step _ _ _ _ [5; 5] [5]); [reflexivity|apply s_sar|cbn [app]].
  apply (ss_step _ _ _ _ [5; 5; 5; 0] [0]); [reflexivity|apply s_ad|cbn [app]].
  apply ss_end.
Qed.
Example raise_valid : Forall (fun s => valid (fst s) /\ ~ cyclic (fst s)) raise_steps.
Proof. unfold raise_steps. repeat constructor; cbn; try lia; tauto. Qed.
Example raise_use (h l c v : list (ext R)) : length l = length h -> length c = length h -> length v = length h ->
  session (raised_by [5; 5; 5; 0] [raw h; raw l; raw c; raw v]) raise_steps =
  converted (raised_by [5; 5; 5; 0; 0; 0; 0; 0; 5; 5; 5; 0; 0; 0; 5; 0]) (session [raw h; raw l; raw c; raw v] raise_steps).
Proof.
  intros A B C. apply (C127_program (length h)); [exact raise_met|exact raise_valid| |reflexivity].
  repeat constructor; cbn [raw lmp lser]; auto; lia.
Qed.

(** Not in the rules, and rightly so: a relative change, the money flow index (its flows are
    products of price and volume) and sarext, whose sign is the trend. *)
Definition ten_up := map (fun l => mkLine (lmp l) (map (vadd (Fin 10%Q)) (lser l))).
Definition at_bar (i : nat) (r : res (list (line (ext Q)))) : option (ext Q) :=
  match norm r with Ok [s] => nth_error s i | _ => None end.
Theorem C127_relative_refuted :
  let roc := @run _ _ demoT (XAvg ARoc 1) in
  let mfi := @run _ _ demoT (XMfi 2) in
  let sarext := @run _ _ demoT (XSarext (Fin 0%Q) (mkSarPar (Fin (1 # 50)) (Fin (1 # 5)) (Fin (1 # 50)) (Fin (1 # 5)) (Fin 0%Q))) in
  let c := bq [10; 20]%Q in let p := bq [10; 12; 11]%Q in let v := bq [1; 1; 1]%Q in
  let h := bq [12; 11; 10]%Q in let l := bq [10; 9; 8]%Q in
  (at_bar 1 (roc [c]) = Some (Fin 100%Q) /\ at_bar 1 (roc (ten_up [c])) = Some (Fin 50%Q)) /\
  (at_bar 2 (mfi [p; p; p; v]) = Some (Fin (1200 # 23)%Q) /\
   at_bar 2 (mfi (ten_up [p; p; p] ++ [v])) = Some (Fin (2200 # 43)%Q)) /\
  (at_bar 1 (sarext [h; l]) = Some (Fin (-12)%Q) /\ at_bar 1 (sarext (ten_up [h; l])) = Some (Fin (-22)%Q)).
Proof. cbv zeta. repeat (apply conj); vm_compute; reflexivity. Qed.
Print Assumptions C127_relative_refuted.
