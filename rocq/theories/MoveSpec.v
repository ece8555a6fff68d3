(** Vocabulary for C126 and C127.  C127: the same prices, all higher by a constant; C126: the
    same prices upside down, so that every rise becomes a fall of the same size.  For each
    indicator: how far its outputs move, and which indicator reads the mirrored prices as it
    reads the originals. *)
From Coq Require Import ZArith List Bool Reals.
From Verif Require Import Num Series Line Catalog UnitSpec.
Import ListNotations.
Local Open Scope R_scope.

(** every value raised by [t] *)
Definition raised (t : R) (l : line (ext R)) : line (ext R) :=
  mkLine (lmp l) (map (fun x => vadd (Fin t) x) (lser l)).
(** every value mirrored at the level [t / 2]: [t] minus the value *)
Definition mirrored (t : R) (l : line (ext R)) : line (ext R) :=
  mkLine (lmp l) (map (fun x => vsub (Fin t) x) (lser l)).

(** Averages that stay at the level of their input: the weights of the values add up to 1.
    The seed of an exponential average must be a value of the line (or none), the factor of a
    generalized dema a number. *)
Definition steady_seed (sd : seed) : bool :=
  match sd with SEED_AVG | SEED_LAST | SEED_NONE => true | _ => false end.
Definition number (v : ext R) : bool := match v with Fin _ => true | _ => false end.
Fixpoint level (a : avg (ext R)) : bool :=
  match a with
  | ASma | AEwma _ | AWma | ATrima | AIntercept _ | ALinearreg | ATsf | AMidpoint => true
  | AEma sd | ASmma sd | AKama _ _ _ sd => steady_seed sd
  | ADema a | ATema a => level a
  | AGdema a v | AT3gd a v => level a && number v
  | AT3 v => number v
  | _ => false
  end.
(** rates of change: differences of prices *)
Definition change (a : avg (ext R)) : bool :=
  match a with ASlope | AAngle | AMom => true | _ => false end.
(** measures of spread *)
Definition spread (a : avg (ext R)) : bool :=
  match a with AVar _ | AStddev _ | AMad => true | _ => false end.
(** averages of values that are not negative which are not negative themselves *)
Definition positive (a : avg (ext R)) : bool :=
  match a with
  | ASma | AEwma _ | AWma | ATrima | ASum | AMax | AMin => true
  | AEma sd | ASmma sd => steady_seed sd
  | _ => false
  end.

(** ** C127: all prices higher by a constant *)

(** several lines, each raised by its own amount *)
Fixpoint raised_by (ts : list R) (ls : list (line (ext R))) : list (line (ext R)) :=
  match ts, ls with
  | t :: ts', l :: ls' => raised t l :: raised_by ts' ls'
  | _, _ => []
  end.

(** the number of outputs *)
Definition outputs (x : ind (ext R)) : nat :=
  match x with
  | XMinmax _ | XMinmaxindex _ _ | XDm _ _ _ _ _ | XDi _ _ _ _ _ | XStochf _ _ _ | XStochastic _ _ _ _ _
  | XAroon _ | XStochrsiTalib _ _ _ _ _ | XHtPhasor | XMama _ _ | XHtSine => 2
  | XMacd _ _ _ _ _ | XMacdTalib _ _ _ | XPpo _ _ _ _ _ | XPpofast _ _ _ _ _ | XBbands _ _ _ _ => 3
  | _ => 1
  end%nat.

(** [shifts x ts ws]: if the inputs of the indicator [x] are raised by [ts], its outputs are
    raised by [ws].  Left out are the relative changes (percentages of a price), the products
    and functions of prices, the money flow index, sarext and the Hilbert transform. *)
Inductive shifts : ind (ext R) -> list R -> list R -> Prop :=
(* an average *)
| s_level a p t : level a = true -> shifts (XAvg a p) [t] [t]
| s_max p t : shifts (XAvg AMax p) [t] [t]
| s_min p t : shifts (XAvg AMin p) [t] [t]
| s_sum p t : shifts (XAvg ASum p) [t] [t * INR p]
| s_change a p t : change a = true -> shifts (XAvg a p) [t] [0]
| s_spread a p t : spread a = true -> shifts (XAvg a p) [t] [0]
| s_maxindex p t : shifts (XAvg AMaxindex p) [t] [0]
| s_minindex p t : shifts (XAvg AMinindex p) [t] [0]
(* prices *)
| s_avgprice d t : d <> 0 -> shifts (XAvgprice (Fin d)) [t; t; t; t] [(t + t + t + t) / d]
| s_typprice d t : d <> 0 -> shifts (XTypprice (Fin d)) [t; t; t] [(t + t + t) / d]
| s_wclprice w d t : d <> 0 -> shifts (XWclprice (Fin w) (Fin d)) [t; t; t] [(t + t + t * w) / d]
| s_medprice d t : d <> 0 -> shifts (XMedprice (Fin d)) [t; t] [(t + t) / d]
| s_add t u : shifts XAdd [t; u] [t + u]
| s_sub t u : shifts XSub [t; u] [t - u]
(* extremes and their positions *)
| s_minmax p t : shifts (XMinmax p) [t] [t; t]
| s_maxindex_abs p t : shifts (XMaxindexAbs p) [t] [0]
| s_minindex_abs p t : shifts (XMinindexAbs p) [t] [0]
| s_minmaxindex p ab t : shifts (XMinmaxindex p ab) [t] [0; 0]
| s_midprice p t : shifts (XMidprice p) [t; t] [t]
(* differences of averages *)
| s_macd ma masig pf ps psig t : level ma = true -> shifts (XMacd ma masig pf ps psig) [t] [0; 0; 0]
| s_macd_talib pf ps psig t : shifts (XMacdTalib pf ps psig) [t] [0; 0; 0]
| s_apo ma pf ps t : level ma = true -> shifts (XApo ma pf ps) [t] [0]
| s_crossup s t : shifts (XCrossup s) [t; t] [0]
| s_crossdown s t : shifts (XCrossdown s) [t; t] [0]
(* statistics *)
| s_bbands p devs ma sd t : level ma = true -> shifts (XBbands p devs ma sd) [t] [t; t; t]
| s_cci p f ma dev t : level ma = true -> shifts (XCci p f ma dev) [t; t; t] [0]
| s_correl p pr rets t u : shifts (XCorrel p pr rets) [t; u] [0]
| s_beta p pr t u : shifts (XBeta p pr false) [t; u] [0]
(* ranges and directional movement *)
| s_truelow lb t : (1 <= lb)%nat -> shifts (XTruelow lb) [t; t] [t]
| s_truerange lb t : (1 <= lb)%nat -> shifts (XTruerange lb) [t; t; t] [0]
| s_atr ma p lb t : (1 <= lb)%nat -> shifts (XAtr ma p lb) [t; t; t] [0]
| s_plus_dm alt pe ma p lb t : (1 <= lb)%nat -> shifts (XPlusDm alt pe ma p lb) [t; t] [0]
| s_minus_dm alt pe ma p lb t : (1 <= lb)%nat -> shifts (XMinusDm alt pe ma p lb) [t; t] [0]
| s_dm alt pe ma p lb t : (1 <= lb)%nat -> shifts (XDm alt pe ma p lb) [t; t] [0; 0]
| s_plus_di alt pe ma p lb t : (1 <= lb)%nat -> shifts (XPlusDi alt pe ma p lb) [t; t; t] [0]
| s_minus_di alt pe ma p lb t : (1 <= lb)%nat -> shifts (XMinusDi alt pe ma p lb) [t; t; t] [0]
| s_di alt pe ma p lb t : (1 <= lb)%nat -> shifts (XDi alt pe ma p lb) [t; t; t] [0; 0]
| s_dx alt pe ma p lb t : (1 <= lb)%nat -> shifts (XDx alt pe ma p lb) [t; t; t] [0]
| s_adx alt pe ma p lb t : (1 <= lb)%nat -> shifts (XAdx alt pe ma p lb) [t; t; t] [0]
| s_adxr talib pr alt pe ma p lb t : (1 <= lb)%nat -> shifts (XAdxr talib pr alt pe ma p lb) [t; t; t] [0]
(* oscillators *)
| s_rsi ma p lb t : shifts (XRsi ma p lb) [t] [0]
| s_cmo sm p t : shifts (XCmo sm p) [t] [0]
| s_stochf ma p pf t : shifts (XStochf ma p pf) [t; t; t] [0; 0]
| s_stochastic ma mas p pf ps t : shifts (XStochastic ma mas p pf ps) [t; t; t] [0; 0]
| s_williamsr p t : shifts (XWilliamsr p) [t; t; t] [0]
| s_aroon p t : shifts (XAroon p) [t; t] [0; 0]
| s_aroonosc p t : shifts (XAroonosc p) [t; t] [0]
| s_ultosc p1 p2 p3 f1 f2 f3 t : shifts (XUltosc p1 p2 p3 (Fin f1) (Fin f2) (Fin f3)) [t; t; t] [0]
| s_bop t : shifts XBop [t; t; t; t] [0]
| s_stochrsi p ph sc t : shifts (XStochrsi p ph (Fin sc)) [t] [0]
| s_stochrsi_talib p ph sc ma pf t : shifts (XStochrsiTalib p ph (Fin sc) ma pf) [t] [0; 0]
(* volume: the prices are raised, the volume is not *)
| s_ad t : shifts XAd [t; t; t; 0] [0]
| s_adosc ma pf ps t : shifts (XAdosc ma pf ps) [t; t; t; 0] [0]
| s_obv talib period t : shifts (XObv talib period) [t; 0] [0]
(* parabolic stop and reverse *)
| s_sar af afmax t : shifts (XSar af afmax) [t; t] [t]
(* every indicator of lines that do not move *)
| s_still x ts : Forall (eq 0) ts -> shifts x ts (repeat 0 (outputs x)).

(** how far the lines of a session move *)
Inductive session_shifts : list R -> list (step (ext R)) -> list R -> Prop :=
| ss_end ts : session_shifts ts [] ts
| ss_step ts x is r ins outs ws :
    map (nth_error ts) is = map Some ins ->
    shifts x ins outs -> session_shifts (ts ++ outs) r ws -> session_shifts ts ((x, is) :: r) ws.

(** ** C126: prices upside down *)

(** what is read: the line at a position as it is, or mirrored *)
Inductive view : Type := As (i : nat) | Mir (t : R) (i : nat).
Definition see (ls : list (line (ext R))) (v : view) : option (line (ext R)) :=
  match v with
  | As i => nth_error ls i
  | Mir t i => option_map (mirrored t) (nth_error ls i)
  end.
Definition views (vs : list view) (ls : list (line (ext R))) : list (line (ext R)) :=
  flat_map (fun v => match see ls v with Some l => [l] | None => [] end) vs.

(** mirrored bars: the high is the mirrored low and the low is the mirrored high *)
Definition bars_hl (t : R) : list view := [Mir t 1; Mir t 0].
Definition bars_hlc (t : R) : list view := [Mir t 1; Mir t 0; Mir t 2].
Definition bars_ohlc (t : R) : list view := [Mir t 0; Mir t 2; Mir t 1; Mir t 3].

(** [mirror x ins x' outs]: on the views [ins] of its inputs the indicator [x'] gives the views
    [outs] of the outputs that [x] gives on the inputs themselves *)
Inductive mirror : ind (ext R) -> list view -> ind (ext R) -> list view -> Prop :=
(* an average *)
| m_level a p t : level a = true -> mirror (XAvg a p) [Mir t 0] (XAvg a p) [Mir t 0]
| m_max p t : mirror (XAvg AMax p) [Mir t 0] (XAvg AMin p) [Mir t 0]
| m_min p t : mirror (XAvg AMin p) [Mir t 0] (XAvg AMax p) [Mir t 0]
| m_sum p t : mirror (XAvg ASum p) [Mir t 0] (XAvg ASum p) [Mir (t * INR p) 0]
| m_change a p t : change a = true -> mirror (XAvg a p) [Mir t 0] (XAvg a p) [Mir 0 0]
| m_spread a p t : spread a = true -> mirror (XAvg a p) [Mir t 0] (XAvg a p) [As 0]
| m_maxindex p t : mirror (XAvg AMaxindex p) [Mir t 0] (XAvg AMinindex p) [As 0]
| m_minindex p t : mirror (XAvg AMinindex p) [Mir t 0] (XAvg AMaxindex p) [As 0]
(* prices *)
| m_avgprice d t : d <> 0 ->
    mirror (XAvgprice (Fin d)) (bars_ohlc t) (XAvgprice (Fin d)) [Mir ((t + t + t + t) / d) 0]
| m_typprice d t : d <> 0 -> mirror (XTypprice (Fin d)) (bars_hlc t) (XTypprice (Fin d)) [Mir ((t + t + t) / d) 0]
| m_wclprice w d t : d <> 0 ->
    mirror (XWclprice (Fin w) (Fin d)) (bars_hlc t) (XWclprice (Fin w) (Fin d)) [Mir ((t + t + t * w) / d) 0]
| m_medprice d t : d <> 0 -> mirror (XMedprice (Fin d)) (bars_hl t) (XMedprice (Fin d)) [Mir ((t + t) / d) 0]
| m_add t u : mirror XAdd [Mir t 0; Mir u 1] XAdd [Mir (t + u) 0]
| m_sub t u : mirror XSub [Mir t 0; Mir u 1] XSub [Mir (t - u) 0]
(* extremes and their positions *)
| m_minmax p t : mirror (XMinmax p) [Mir t 0] (XMinmax p) [Mir t 1; Mir t 0]
| m_maxindex_abs p t : mirror (XMaxindexAbs p) [Mir t 0] (XMinindexAbs p) [As 0]
| m_minindex_abs p t : mirror (XMinindexAbs p) [Mir t 0] (XMaxindexAbs p) [As 0]
| m_minmaxindex p ab t : mirror (XMinmaxindex p ab) [Mir t 0] (XMinmaxindex p ab) [As 1; As 0]
| m_midprice p t : mirror (XMidprice p) (bars_hl t) (XMidprice p) [Mir t 0]
(* differences of averages *)
| m_macd ma masig pf ps psig t : level ma = true -> level masig = true ->
    mirror (XMacd ma masig pf ps psig) [Mir t 0] (XMacd ma masig pf ps psig) [Mir 0 0; Mir 0 1; Mir 0 2]
| m_macd_talib pf ps psig t :
    mirror (XMacdTalib pf ps psig) [Mir t 0] (XMacdTalib pf ps psig) [Mir 0 0; Mir 0 1; Mir 0 2]
| m_apo ma pf ps t : level ma = true -> mirror (XApo ma pf ps) [Mir t 0] (XApo ma pf ps) [Mir 0 0]
| m_crossup s t : mirror (XCrossup s) [Mir t 0; Mir t 1] (XCrossdown s) [Mir 0 0]
| m_crossdown s t : mirror (XCrossdown s) [Mir t 0; Mir t 1] (XCrossup s) [Mir 0 0]
(* statistics; the outputs of bbands are the middle, the upper and the lower band *)
| m_bbands p devs ma sd t : level ma = true ->
    mirror (XBbands p devs ma sd) [Mir t 0] (XBbands p devs ma sd) [Mir t 0; Mir t 2; Mir t 1]
| m_cci p f ma dev t : level ma = true -> mirror (XCci p f ma dev) (bars_hlc t) (XCci p f ma dev) [Mir 0 0]
| m_correl p pr rets t u : mirror (XCorrel p pr rets) [Mir t 0; Mir u 1] (XCorrel p pr rets) [As 0]
| m_beta p pr t u : mirror (XBeta p pr false) [Mir t 0; Mir u 1] (XBeta p pr false) [As 0]
(* ranges and directional movement *)
| m_truerange lb t : (1 <= lb)%nat -> mirror (XTruerange lb) (bars_hlc t) (XTruerange lb) [As 0]
| m_atr ma p lb t : (1 <= lb)%nat -> mirror (XAtr ma p lb) (bars_hlc t) (XAtr ma p lb) [As 0]
| m_plus_dm alt pe ma p lb t : (1 <= lb)%nat ->
    mirror (XPlusDm alt pe ma p lb) (bars_hl t) (XMinusDm alt pe ma p lb) [As 0]
| m_minus_dm alt pe ma p lb t : (1 <= lb)%nat ->
    mirror (XMinusDm alt pe ma p lb) (bars_hl t) (XPlusDm alt pe ma p lb) [As 0]
| m_dm alt pe ma p lb t : (1 <= lb)%nat -> mirror (XDm alt pe ma p lb) (bars_hl t) (XDm alt pe ma p lb) [As 1; As 0]
| m_plus_di alt pe ma p lb t : (1 <= lb)%nat ->
    mirror (XPlusDi alt pe ma p lb) (bars_hlc t) (XMinusDi alt pe ma p lb) [As 0]
| m_minus_di alt pe ma p lb t : (1 <= lb)%nat ->
    mirror (XMinusDi alt pe ma p lb) (bars_hlc t) (XPlusDi alt pe ma p lb) [As 0]
| m_di alt pe ma p lb t : (1 <= lb)%nat -> mirror (XDi alt pe ma p lb) (bars_hlc t) (XDi alt pe ma p lb) [As 1; As 0]
| m_dx alt pe ma p lb t : (1 <= lb)%nat -> mirror (XDx alt pe ma p lb) (bars_hlc t) (XDx alt pe ma p lb) [As 0]
| m_adx alt pe ma p lb t : (1 <= lb)%nat -> mirror (XAdx alt pe ma p lb) (bars_hlc t) (XAdx alt pe ma p lb) [As 0]
| m_adxr talib pr alt pe ma p lb t : (1 <= lb)%nat ->
    mirror (XAdxr talib pr alt pe ma p lb) (bars_hlc t) (XAdxr talib pr alt pe ma p lb) [As 0]
(* oscillators between 0 and 100: a value [v] becomes [100 - v] *)
| m_rsi ma p lb t : positive ma = true -> mirror (XRsi ma p lb) [Mir t 0] (XRsi ma p lb) [Mir 100 0]
| m_stochf ma p pf t : level ma = true -> mirror (XStochf ma p pf) (bars_hlc t) (XStochf ma p pf) [Mir 100 0; Mir 100 1]
| m_stochastic ma mas p pf ps t : level ma = true -> level mas = true ->
    mirror (XStochastic ma mas p pf ps) (bars_hlc t) (XStochastic ma mas p pf ps) [Mir 100 0; Mir 100 1]
| m_ultosc p1 p2 p3 f1 f2 f3 t :
    mirror (XUltosc p1 p2 p3 (Fin f1) (Fin f2) (Fin f3)) (bars_hlc t) (XUltosc p1 p2 p3 (Fin f1) (Fin f2) (Fin f3)) [Mir 100 0]
| m_stochrsi p ph sc t : mirror (XStochrsi p ph (Fin sc)) [Mir t 0] (XStochrsi p ph (Fin sc)) [Mir sc 0]
| m_stochrsi_talib p ph sc ma pf t : level ma = true ->
    mirror (XStochrsiTalib p ph (Fin sc) ma pf) [Mir t 0] (XStochrsiTalib p ph (Fin sc) ma pf) [Mir sc 0; Mir sc 1]
(* between -100 and 0 *)
| m_williamsr p t : mirror (XWilliamsr p) (bars_hlc t) (XWilliamsr p) [Mir (-100) 0]
(* around 0: the sign changes *)
| m_cmo sm p t : mirror (XCmo sm p) [Mir t 0] (XCmo sm p) [Mir 0 0]
| m_aroon p t : mirror (XAroon p) (bars_hl t) (XAroon p) [As 1; As 0]
| m_aroonosc p t : mirror (XAroonosc p) (bars_hl t) (XAroonosc p) [Mir 0 0]
| m_bop t : mirror XBop (bars_ohlc t) XBop [Mir 0 0]
(* volume: the prices are mirrored, the volume is not *)
| m_ad t : mirror XAd (bars_hlc t ++ [As 3]) XAd [Mir 0 0]
| m_adosc ma pf ps t : level ma = true -> mirror (XAdosc ma pf ps) (bars_hlc t ++ [As 3]) (XAdosc ma pf ps) [Mir 0 0]
| m_obv period t : mirror (XObv false period) [Mir t 0; As 1] (XObv false period) [Mir 0 0]
(* every indicator of lines that are not mirrored *)
| m_same x k : mirror x (map As (seq 0 k)) x (map As (seq 0 (outputs x))).

(** Two programs, step by step mirror images of each other: the second one starts from the
    views [vs] of the [k] lines of the first one and ends with the views [ws] of its lines.
    [chosen is v]: the view of the line that is input number [v] of the step; [later k v]: the
    view of the line that is output number [v] of the step, after the [k] earlier lines. *)
Definition chosen (is : list nat) (v : view) : option view :=
  match v with
  | As i => option_map As (nth_error is i)
  | Mir t i => option_map (Mir t) (nth_error is i)
  end.
Definition later (k : nat) (v : view) : view :=
  match v with As i => As (k + i) | Mir t i => Mir t (k + i) end.
Inductive session_mirror : nat -> list view -> list (step (ext R)) -> list (step (ext R)) -> list view -> Prop :=
| sm_end k vs : session_mirror k vs [] [] vs
| sm_step k vs x is x' is' ins outs r r' ws :
    mirror x ins x' outs ->
    Forall (fun i => (i < k)%nat) is -> length is = length ins ->
    map (nth_error vs) is' = map (chosen is) ins ->
    session_mirror (k + outputs x) (vs ++ map (later k) outs) r r' ws ->
    session_mirror k vs ((x, is) :: r) ((x', is') :: r') ws.
(** the views are of the first [k] lines *)
Definition inside (k : nat) (v : view) : Prop :=
  match v with As i | Mir _ i => (i < k)%nat end.

(** The first move of bars of high and low is definite: at the first two bars one of the
    extremes moves outwards, and further than the other one does. *)
Definition definite (h l : line (ext R)) : Prop :=
  exists i h1 l1 h2 l2,
    Z.of_nat i = (Z.max (lmp h) (lmp l) - 1)%Z /\
    nth_error (lser h) i = Some (Fin h1) /\ nth_error (lser l) i = Some (Fin l1) /\
    nth_error (lser h) (S i) = Some (Fin h2) /\ nth_error (lser l) (S i) = Some (Fin l2) /\
    h2 - h1 <> l1 - l2 /\ (h1 < h2 \/ l2 < l1).
