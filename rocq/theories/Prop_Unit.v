(** Property theorem C121: prices in cents or in dollars, volume in shares or in lots - the
    results are the same, each in its own unit.
    Models: Catalog.v (on top of the Ind*.v files), IndMavp.v; vocabulary: UnitSpec.v. *)
From Coq Require Import ZArith QArith List Bool Lia Reals Lra.
From Verif Require Import Num Series Line Spec LineFacts Expr RSpec StatSpec IndMA IndBasic IndStat IndRange Apply IndSar IndHT
  IndMavp Catalog UnitSpec UnitFacts4 UnitFacts5 PropLinesFacts Prop_Catalog.
Import ListNotations.
Local Open Scope R_scope.

(** one indicator on inputs given in other units: the same outputs in the units of the rules
    in UnitSpec.v, or the same exception *)
Theorem C121_indicator :
  forall x us ws (ins : list (line (ext R))),
    units x us ws -> Forall (Rlt 0) us -> length ins = length us ->
    run x (in_units us ins) = converted (in_units ws) (run x ins).
Proof. exact run_units. Qed.
Print Assumptions C121_indicator.

(** a whole program of the user, every step on inputs and on outputs of earlier steps *)
Theorem C121_session :
  forall us steps ws (env : list (line (ext R))),
    session_units us steps ws -> Forall (Rlt 0) us -> length env = length us ->
    session (in_units us env) steps = converted (in_units ws) (session env steps).
Proof. intros us steps ws env H. exact (session_unit_free us steps ws H env). Qed.
Print Assumptions C121_session.

(** the average with a variable period *)
Theorem C121_variable_period :
  forall u talib a lo hi (close : line (ext R)) periods, 0 < u -> same a = true ->
    mavp talib (avg_fun a) lo hi (in_unit u close) periods =
    converted (in_unit u) (mavp talib (avg_fun a) lo hi close periods).
Proof. intros u talib a lo hi close periods H. exact (in_mavp u H talib a lo hi close periods). Qed.
Print Assumptions C121_variable_period.

(** The exception: the angle of the regression line is neither a price nor a pure number.
    Every window that is not level gets another angle in every other unit. *)
Theorem C121_angle_refuted :
  forall (a : line (ext R)) n k x p u i,
    feeds a n k (fin x) -> (2 <= p)%nat -> (k + p - 1 <= i < n)%nat -> 0 < u -> u <> 1 ->
    (forall b m, least_squares (by_position (lastp x i p)) b m -> m <> 0) ->
    nth_error (lser (linearreg_angle p (in_unit u a))) i <> nth_error (lser (linearreg_angle p a)) i.
Proof. exact angle_changes. Qed.
Print Assumptions C121_angle_refuted.

(** Bars high, low, close in cents instead of dollars, volume in lots of 1000: the average
    true range, the macd, the rsi, bands around the rsi, money flow, on balance volume,
    parabolic sar, the distance of the price from it as a multiple of the true range, the
    trend line of the Hilbert transform and a correlation of price and volume. *)
Definition unit_steps : list (step (ext R)) :=
  [ (XAtr (ASmma SEED_AVG) 14 1, [0; 1; 2]);
    (XMacd (AEma SEED_AVG) (AEma SEED_AVG) 12 26 9, [2]);
    (XRsi (ASmma SEED_AVG) 14 1, [2]);
    (XBbands 20 (Fin 2%R) ASma (AStddev 0), [8]);
    (XMfi 14, [0; 1; 2; 3]);
    (XObv false 1, [2; 3]);
    (XSar (Fin (2 / 100)%R) (Fin (2 / 10)%R), [0; 1]);
    (XSub, [2; 14]);
    (XDiv, [15; 4]);
    (XHtTrendline, [0; 1]);
    (XCorrel 30 1 true, [2; 13]) ]%nat.
Example unit_demo_met :
  session_units [100; 100; 100; / 1000] unit_steps
    [100; 100; 100; / 1000; 100; 100; 100; 100; 1; 1; 1; 1; 1; / 1000; 100; 100; 100 / 100; 100; 1].
Proof.
  apply (su_step _ _ _ _ [100; 100; 100] [100]); [reflexivity|first [constructor; reflexivity | apply (u_trendline 100); now right]|cbn [app]].
  apply (su_step _ _ _ _ [100] [100; 100; 100]); [reflexivity|first [constructor; reflexivity | apply (u_trendline 100); now right]|cbn [app]].
  apply (su_step _ _ _ _ [100] [1]); [reflexivity|first [constructor; reflexivity | apply (u_trendline 100); now right]|cbn [app]].
  apply (su_step _ _ _ _ [1] [1; 1; 1]); [reflexivity|first [constructor; reflexivity | apply (u_trendline 100); now right]|cbn [app]].
  apply (su_step _ _ _ _ [100; 100; 100; / 1000] [1]); [reflexivity|first [constructor; reflexivity | apply (u_trendline 100); now right]|cbn [app]].
  apply (su_step _ _ _ _ [100; / 1000] [/ 1000]); [reflexivity|first [constructor; reflexivity | apply (u_trendline 100); now right]|cbn [app]].
  apply (su_step _ _ _ _ [100; 100] [100]); [reflexivity|first [constructor; reflexivity | apply (u_trendline 100); now right]|cbn [app]].
  apply (su_step _ _ _ _ [100; 100] [100]); [reflexivity|first [constructor; reflexivity | apply (u_trendline 100); now right]|cbn [app]].
  apply (su_step _ _ _ _ [100; 100] [100 / 100]); [reflexivity|first [constructor; reflexivity | apply (u_trendline 100); now right]|cbn [app]].
  apply (su_step _ _ _ _ [100; 100] [100]); [reflexivity|first [constructor; reflexivity | apply (u_trendline 100); now right]|cbn [app]].
  apply (su_step _ _ _ _ [100; / 1000] [1]); [reflexivity|first [constructor; reflexivity | apply (u_trendline 100); now right]|cbn [app]].
  apply su_end.
Qed.
Example unit_demo_pos : Forall (Rlt 0) [100; 100; 100; / 1000].
Proof. repeat constructor; lra. Qed.
Example unit_demo := C121_session _ _ _ [raw []; raw []; raw []; raw []] unit_demo_met unit_demo_pos eq_refl.

(** computed with rational numbers: dollars and cents *)
Definition cents := map (fun l => mkLine (lmp l) (map (vmul (Fin 100%Q)) (lser l))) demo_env.
Definition norm (r : res (list (line (ext Q)))) : res (list (list (ext Q))) :=
  match r with
  | Ok ls => Ok (map (fun l => map (fun v => match v with Fin q => Fin (Qred q) | _ => v end) (lser l)) ls)
  | Raise e => Raise e
  end.
Definition cents_steps : list (step (ext Q)) :=
  [ (XAtr ASma 3 1, [0; 1; 2]); (XRsi ASma 3 1, [2]); (XSar (Fin (2 # 100)%Q) (Fin (2 # 10)%Q), [0; 1]) ]%nat.
Example cents_atr :
  match norm (@session _ _ demoT demo_env cents_steps), norm (@session _ _ demoT cents cents_steps) with
  | Ok [_; _; _; atr; rsi; sar], Ok [_; _; _; atr'; rsi'; sar'] =>
      atr = [NaN; NaN; NaN; Fin 3; Fin 3; Fin 3; Fin 3; Fin 3; Fin (10#3)]%Q /\
      atr' = [NaN; NaN; NaN; Fin 300; Fin 300; Fin 300; Fin 300; Fin 300; Fin (1000#3)]%Q /\
      rsi = [NaN; NaN; NaN; Fin (400#7); Fin (125#2); Fin (125#2); Fin (250#3); Fin 50; Fin 0]%Q /\ rsi' = rsi /\
      firstn 4 sar = [NaN; Fin 3; Fin (77#25); Fin (2073#625)]%Q /\
      firstn 4 sar' = [NaN; Fin 300; Fin 308; Fin (8292#25)]%Q
  | _, _ => False
  end.
Proof. vm_compute. repeat split. Qed.

(** prices 0, 1: the slope is 1 *)
Example angle_met : forall b m, least_squares (by_position (lastp (fun i => nth i [0; 1] 0) 1 2)) b m -> m <> 0.
Proof.
  intros b m H E. subst m. destruct (H 0 1) as [A _]. unfold sse, by_position, lastp in A. cbn in A. nra.
Qed.
Example angle_use : nth_error (lser (linearreg_angle 2 (in_unit 100 (raw [Fin 0; Fin 1])))) 1 <>
                    nth_error (lser (linearreg_angle 2 (raw [Fin 0; Fin 1]))) 1.
Proof.
  apply (C121_angle_refuted _ 2 0 (fun i => nth i [0; 1] 0)); [|lia|lia|lra|lra|exact angle_met].
  exact (raw_fin_feeds [0; 1]).
Qed.
