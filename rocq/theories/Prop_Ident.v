(** Property theorems C130: equations between indicators, each between whole lines (values, missing values and
    minimum period), in exact arithmetic, for every history of numbers. *)
From Coq Require Import ZArith QArith List Bool Lia Reals Lra.
From Verif Require Import Num Series Line Spec RSpec LineFacts IndMA MAFacts IndBasic BasicFacts IndStat IdentFacts.
Import ListNotations.
Local Open Scope R_scope.

(** [x] are the prices from bar [k] on, [n] the number of bars; sums, differences, products and quotients of
    lines are the operators of the library. *)

(** The linear regression over p bars is 3 wma - 2 sma; its slope is 6 (wma - sma) / (p - 1), its value at the
    oldest bar 4 sma - 3 wma, and the forecast adds the slope to the value at the newest bar. *)
Theorem C130_regression :
  forall (a : lineR) n k x p, feeds a n k (fin x) -> (2 <= p)%nat ->
    linearreg p a = lsub (rbinop_s vmul (Fin 3) (wma p a)) (rbinop_s vmul (Fin 2) (sma p a)) /\
    linearreg_slope p a = rbinop_s vmul (Fin (6 / (INR p - 1))) (lsub (wma p a) (sma p a)) /\
    linearreg_intercept true p a = lsub (rbinop_s vmul (Fin 4) (sma p a)) (rbinop_s vmul (Fin 3) (wma p a)) /\
    tsf p a = ladd (linearreg p a) (linearreg_slope p a).
Proof. exact regression_averages. Qed.
Print Assumptions C130_regression.

(** The variance is the average of the squares less the square of the average. *)
Theorem C130_variance :
  forall (a : lineR) n k x p, feeds a n k (fin x) -> (1 <= p)%nat ->
    var p 0 a = lsub (sma p (lmul a a)) (lmul (sma p a) (sma p a)).
Proof. exact var_squares. Qed.
Print Assumptions C130_variance.

(** Moving averages of moving averages do not depend on the order of the periods; the sum is p averages. *)
Theorem C130_averages :
  forall (a : lineR) n k x p q, feeds a n k (fin x) -> (1 <= p)%nat -> (1 <= q)%nat ->
    sma p (sma q a) = sma q (sma p a) /\ sumn p a = rbinop_s vmul (Fin (INR p)) (sma p a).
Proof. intros a n k x p q H Hp Hq. split; [exact (sma_sma H Hp Hq)|exact (sumn_sma H Hp)]. Qed.
Print Assumptions C130_averages.

(** The highest of the highest: the windows add up. *)
Theorem C130_extremes :
  forall (a : lineR) n k x p q, feeds a n k (fin x) -> (1 <= p)%nat -> (1 <= q)%nat ->
    max_ind p (max_ind q a) = max_ind (p + q - 1) a /\ min_ind p (min_ind q a) = min_ind (p + q - 1) a.
Proof. intros a n k x p q H Hp Hq. split; [exact (max_max H Hp Hq)|exact (min_min H Hp Hq)]. Qed.
Print Assumptions C130_extremes.

(** The change over p + q bars is the change over p bars plus the change over the q bars before; ratios multiply. *)
Theorem C130_changes :
  forall (a : lineR) n k x p q, feeds a n k (fin x) -> (1 <= p)%nat -> (1 <= q)%nat ->
    mom (p + q) a = ladd (mom p a) (at_ago (mom q a) (- Z.of_nat p)) /\
    ((forall i, (k <= i < n)%nat -> x i <> 0) ->
     rocr (p + q) a = lmul (rocr p a) (at_ago (rocr q a) (- Z.of_nat p))).
Proof. intros a n k x p q H Hp Hq. split; [exact (mom_mom q H Hp)|intro NZ; exact (rocr_rocr H Hp Hq NZ)]. Qed.
Print Assumptions C130_changes.

(** With the period 1 averages and extremes are the line itself. *)
Theorem C130_period_one :
  forall (a : lineR) n k x, delivers a n k (fin x) -> (k < n)%nat ->
    sma 1 a = a /\ wma 1 a = a /\ ema 1%nat a = Ok a /\ smma 1%nat a = Ok a /\ dema ema 1%nat a = Ok a /\
    tema ema 1%nat a = Ok a /\ trima 1 a = a /\ max_ind 1 a = a /\ min_ind 1 a = a /\ midpoint 1 a = a /\ sumn 1 a = a.
Proof. exact period_one. Qed.
Print Assumptions C130_period_one.

(** Wilder's average over p bars is the exponential one over 2p - 1 bars, up to what is left of the start: their
    difference shrinks by the factor 1 - 1/p with every bar. *)
Theorem C130_wilder :
  forall (a : lineR) n k x p, feeds a n k (fin x) -> (1 <= p)%nat -> (k + (2 * p - 1) <= n)%nat ->
    exists y y' s e, smma p a = Ok y /\ ema (2 * p - 1)%nat a = Ok y' /\
      delivers y n (k + p - 1) (fin s) /\ delivers y' n (k + 2 * p - 2) (fin e) /\
      forall d, (k + 2 * p - 2 + d < n)%nat ->
        s (k + 2 * p - 2 + d)%nat - e (k + 2 * p - 2 + d)%nat = (1 - / INR p) ^ d * (s (k + 2 * p - 2)%nat - e (k + 2 * p - 2)%nat).
Proof. exact smma_ema. Qed.
Print Assumptions C130_wilder.

(** With the factor 0, t3 has the values of three exponential averages in a row. *)
Theorem C130_t3 :
  forall (a : lineR) n k x p, feeds a n k (fin x) -> (1 <= p)%nat -> (k + 6 * (p - 1) + 1 <= n)%nat ->
    exists y e1 e2 e3 f, t3 p (Fin 0) a = Ok y /\ ema p a = Ok e1 /\ ema p e1 = Ok e2 /\ ema p e2 = Ok e3 /\
      delivers e3 n (k + 3 * (p - 1)) (fin f) /\ delivers y n (k + 6 * (p - 1)) (fin f).
Proof. exact t3_zero. Qed.
Print Assumptions C130_t3.

(** The two betas of a pair multiply to the square of the correlation of the returns, also where one of them is
    constant and all are missing. *)
Theorem C130_beta :
  forall (a b : lineR) n k x y p r, feeds a n k (fin x) -> feeds b n k (fin y) -> (2 <= p)%nat ->
    (forall i, (k <= i < n)%nat -> x i <> 0 /\ y i <> 0) ->
    let c := correl p 1 false (pct_change a (Z.of_nat r)) (pct_change b (Z.of_nat r)) in
    lmul (beta p (Z.of_nat r) true a b) (beta p (Z.of_nat r) true b a) = lmul c c.
Proof. exact beta_beta. Qed.
Print Assumptions C130_beta.

(** ppo is apo in percent of the slow average. *)
Theorem C130_ppo :
  forall (ma masig : ma_fun (ext R)) (a : lineR) n k x pf ps pg, averages ma -> averages masig -> feeds a n k (fin x) ->
    (1 <= pf <= ps)%nat -> (1 <= pg)%nat -> (k + (ps - 1) + pg <= n)%nat ->
    exists slow s, ma ps a = Ok slow /\ delivers slow n (k + ps - 1) (fin s) /\
      ((forall i, (k + ps - 1 <= i < n)%nat -> s i <> 0) ->
       exists p sg h o, ppo ma masig pf ps pg a = Ok (p, sg, h) /\ apo ma pf ps a = Ok o /\
         p = ldiv (rbinop_s vmul (Fin 100) o) slow).
Proof. exact ppo_apo. Qed.
Print Assumptions C130_ppo.

(** ** the hypotheses are met *)
Definition idx : list R := [1; 5; 2; 4; 3; 7; 6; 9].
Example C130_met : delivers (raw (map Fin idx)) 8 0 (fin (fun i => nth i idx 0)) /\ averages ema /\ averages sma_ /\
  (forall i, (0 <= i < 8)%nat -> nth i idx 0 <> 0) /\ (0 + 6 * (2 - 1) + 1 <= 8)%nat /\ (0 + (2 * 4 - 1) <= 8)%nat.
Proof.
  split; [|split; [exact averages_ema|split; [exact averages_sma|split; [|split; lia]]]].
  - split; [split; [reflexivity|split; [reflexivity|]]|lia]. intros i Hi. do 8 (destruct i as [|i]; [reflexivity|]). lia.
  - intros i Hi. do 8 (destruct i as [|i]; [cbn; lra|]). lia.
Qed.
(** ... and the equations are not between empty results *)
Definition idq : line (ext Q) := raw (map Fin [1; 5; 2; 4; 3; 7; 6; 9]%Q).
Definition vals (l : line (ext Q)) := map (fun v => match v with Fin q => Fin (Qred q) | _ => v end) (lser l).
Example C130_run :
  vals (lsub (rbinop_s vmul (Fin 3%Q) (wma 3 idq)) (rbinop_s vmul (Fin 2%Q) (sma 3 idq))) = vals (linearreg 3 idq) /\
  vals (linearreg 3 idq) = [NaN; NaN; Fin (19#6); Fin (19#6); Fin (7#2); Fin (37#6); Fin (41#6); Fin (25#3)]%Q /\
  vals (max_ind 2 (max_ind 3 idq)) = [NaN; NaN; NaN; Fin 5; Fin 5; Fin 7; Fin 7; Fin 9]%Q /\
  vals (ladd (mom 2 idq) (at_ago (mom 1 idq) (-2))) = [NaN; NaN; NaN; Fin 3; Fin (-2); Fin 5; Fin 2; Fin 6]%Q /\
  vals (mom 3 idq) = [NaN; NaN; NaN; Fin 3; Fin (-2); Fin 5; Fin 2; Fin 6]%Q.
Proof. repeat (apply conj); vm_compute; reflexivity. Qed.
