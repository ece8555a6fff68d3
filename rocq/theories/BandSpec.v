(** Vocabulary for C128: the same data with small differences, and how far the outputs of an
    indicator can be apart then.  A [gap] is an interval: the second of two values minus the
    first lies in it. *)
From Coq Require Import ZArith List Bool Reals.
From Verif Require Import Num Series Line Catalog.
Import ListNotations.
Local Open Scope R_scope.

Definition gap : Type := (R * R)%type.
(** [off g x y]: both values are numbers with [y - x] in [g], or both are missing, or both are
    the same infinity *)
Definition off (g : gap) (x y : ext R) : Prop :=
  match x, y with
  | Fin a, Fin b => fst g <= b - a <= snd g
  | Fin _, _ | _, Fin _ => False
  | _, _ => x = y
  end.
(** two lines with the same minimum period and number of bars which are [off] in every bar *)
Definition line_off (g : gap) (l l' : line (ext R)) : Prop :=
  lmp l' = lmp l /\ Forall2 (off g) (lser l) (lser l').
(** several lines, each with its own gap *)
Fixpoint lines_off (gs : list gap) (ls ls' : list (line (ext R))) : Prop :=
  match gs, ls, ls' with
  | [], [], [] => True
  | g :: gs', l :: r, l' :: r' => line_off g l l' /\ lines_off gs' r r'
  | _, _, _ => False
  end.
(** two calls end in the same way: both with results related by [P], or both with the same exception *)
Definition alike {A} (P : A -> A -> Prop) (r r' : res A) : Prop :=
  match r, r' with
  | Ok a, Ok b => P a b
  | Raise e, Raise f => e = f
  | _, _ => False
  end.

(** ** Differences of sums, multiples and extremes *)
Definition gadd (g h : gap) : gap := (fst g + fst h, snd g + snd h).
Definition gsub (g h : gap) : gap := (fst g - snd h, snd g - fst h).
Definition gscale (c : R) (g : gap) : gap := (Rmin (c * fst g) (c * snd g), Rmax (c * fst g) (c * snd g)).
Definition ghull (g h : gap) : gap := (Rmin (fst g) (fst h), Rmax (snd g) (snd h)).
(** a difference of both signs, as large as the gap is wide *)
Definition gspread (g : gap) : gap := (- (snd g - fst g), snd g - fst g).

(** ** Averages: the gap of the result, where there is one for all prices *)
Fixpoint avg_gap (a : avg (ext R)) (p : nat) (g : gap) : option gap :=
  match a with
  | ASma | AEwma _ | AWma | ATrima | AMax | AMin | AMidpoint => Some g
  | AEma sd | ASmma sd =>
      match sd with
      | SEED_AVG | SEED_LAST | SEED_NONE => Some g
      | SEED_ZERO | SEED_ZFILL => Some (ghull g (0, 0))
      | SEED_SUM => None
      end
  | ASum => Some (gscale (INR p) g)
  | AMom => Some (gsub g g)
  | AMad | AStddev 0 => Some (gspread g)
  | ADema a =>
      match avg_gap a p g with
      | None => None
      | Some h => match avg_gap a p h with None => None | Some k => Some (gsub (gscale 2 h) k) end
      end
  | ATema a =>
      match avg_gap a p g with
      | None => None
      | Some h =>
          match avg_gap a p h with
          | None => None
          | Some k => match avg_gap a p k with
                      | None => None
                      | Some m => Some (gadd (gsub (gscale 3 h) (gscale 3 k)) m)
                      end
          end
      end
  | AGdema a (Fin v) =>
      match avg_gap a p g with
      | None => None
      | Some h => match avg_gap a p h with None => None | Some k => Some (gsub (gscale (1 + v) h) (gscale v k)) end
      end
  | AT3 (Fin v) =>
      Some (gadd (gadd (gadd (gscale (- v ^ 3) g) (gscale (3 * v ^ 2 + 3 * v ^ 3) g))
                       (gscale (- 6 * v ^ 2 - 3 * v - 3 * v ^ 3) g))
                 (gscale (1 + 3 * v + v ^ 3 + 3 * v ^ 2) g))
  | _ => None
  end.

(** ** Indicators: [bands x gs hs]: if the inputs of [x] are off by [gs], its outputs are off
    by [hs] at most.  Left out are the indicators whose outputs can jump or grow without bound
    for a small change of a price: quotients, crossings, signs, positions and the like. *)
Inductive bands : ind (ext R) -> list gap -> list gap -> Prop :=
| b_avg a p g h : avg_gap a p g = Some h -> bands (XAvg a p) [g] [h]
| b_avgprice d g h l c : d <> 0 -> bands (XAvgprice (Fin d)) [g; h; l; c] [gscale (/ d) (gadd (gadd (gadd g h) l) c)]
| b_typprice d h l c : d <> 0 -> bands (XTypprice (Fin d)) [h; l; c] [gscale (/ d) (gadd (gadd h l) c)]
| b_wclprice w d h l c : d <> 0 ->
    bands (XWclprice (Fin w) (Fin d)) [h; l; c] [gscale (/ d) (gadd (gadd h l) (gscale w c))]
| b_medprice d h l : d <> 0 -> bands (XMedprice (Fin d)) [h; l] [gscale (/ d) (gadd h l)]
| b_add g h : bands XAdd [g; h] [gadd g h]
| b_sub g h : bands XSub [g; h] [gsub g h]
| b_minmax p g : bands (XMinmax p) [g] [g; g]
| b_midprice p h l : bands (XMidprice p) [h; l] [gscale (/ 2) (gadd h l)]
| b_macd ma masig pf ps psig g f s k :
    avg_gap ma pf g = Some f -> avg_gap ma ps g = Some s -> avg_gap masig psig (gsub f s) = Some k ->
    bands (XMacd ma masig pf ps psig) [g] [gsub f s; k; gsub (gsub f s) k]
| b_macd_talib pf ps psig g :
    bands (XMacdTalib pf ps psig) [g] [gsub g g; gsub g g; gsub (gsub g g) (gsub g g)]
| b_apo ma pf ps g f s :
    avg_gap ma pf g = Some f -> avg_gap ma ps g = Some s -> bands (XApo ma pf ps) [g] [gsub f s]
| b_bbands p d ma sd g m : avg_gap ma p g = Some m ->
    bands (XBbands p (Fin d) ma sd) [g] [m; gadd m (gscale d (gspread g)); gsub m (gscale d (gspread g))]
| b_truelow lb l c : bands (XTruelow lb) [l; c] [ghull c l]
| b_truerange lb h l c : bands (XTruerange lb) [h; l; c] [gsub (ghull c h) (ghull c l)]
| b_atr ma p lb h l c k : avg_gap ma p (gsub (ghull c h) (ghull c l)) = Some k -> bands (XAtr ma p lb) [h; l; c] [k].

(** a session: every step is covered, the gaps of its outputs are appended *)
Fixpoint chosen (gs : list gap) (is : list nat) : option (list gap) :=
  match is with
  | [] => Some []
  | i :: r => match nth_error gs i, chosen gs r with Some g, Some s => Some (g :: s) | _, _ => None end
  end.
Inductive session_bands : list gap -> list (step (ext R)) -> list gap -> Prop :=
| sb_nil gs : session_bands gs [] gs
| sb_step gs x is steps hs ks rs :
    chosen gs is = Some hs -> bands x hs ks -> session_bands (gs ++ ks) steps rs ->
    session_bands gs ((x, is) :: steps) rs.

(** ** A direction: no value of the second line is below the one of the first *)
Definition not_below (x y : ext R) : Prop :=
  match x, y with
  | Fin a, Fin b => a <= b
  | Fin _, _ | _, Fin _ => False
  | _, _ => x = y
  end.
Definition line_not_below (l l' : line (ext R)) : Prop :=
  lmp l' = lmp l /\ Forall2 not_below (lser l) (lser l').
(** averages which follow the direction of the prices: all weights are positive *)
Definition follows (a : avg (ext R)) : bool :=
  match a with
  | ASma | AEwma _ | AWma | ATrima | AMax | AMin | AMidpoint | ASum => true
  | AEma sd | ASmma sd => match sd with SEED_SUM => false | _ => true end
  | _ => false
  end.

(** ** The same in one number: no value differs by more than [e] *)
Definition line_close (e : R) : line (ext R) -> line (ext R) -> Prop := line_off (- e, e).
(** how much an average can enlarge such a difference *)
Fixpoint factor (a : avg (ext R)) (p : nat) : option R :=
  match a with
  | ASma | AEwma _ | AWma | ATrima | AMax | AMin | AMidpoint => Some 1
  | AEma sd | ASmma sd => match sd with SEED_SUM => None | _ => Some 1 end
  | ASum => Some (INR p)
  | AMom | AMad | AStddev 0 => Some 2
  | ADema a => match factor a p with None => None | Some f => Some (2 * f + f ^ 2) end
  | ATema a => match factor a p with None => None | Some f => Some (3 * f + 3 * f ^ 2 + f ^ 3) end
  | AGdema a (Fin v) => match factor a p with None => None | Some f => Some (Rabs (1 + v) * f + Rabs v * f ^ 2) end
  | AT3 (Fin v) =>
      Some (Rabs (v ^ 3) + Rabs (3 * v ^ 2 + 3 * v ^ 3) + Rabs (6 * v ^ 2 + 3 * v + 3 * v ^ 3) + Rabs (1 + 3 * v + v ^ 3 + 3 * v ^ 2))
  | _ => None
  end.
