(** Property theorems C128: small differences in the data give differences of a stated size in the
    results.  Models: Catalog.v and the indicators it names; specification: BandSpec.v. *)
From Coq Require Import ZArith QArith List Bool Reals Lra Lia.
From Verif Require Import Num Series Line Spec RSpec IndMA IndBasic Catalog CatalogSpec BandSpec BandFacts BandFacts2 BandFacts3
  Prop_Catalog Prop_Unit.
Import ListNotations.
Local Open Scope R_scope.

(** Averages: if no price differs by more than [e], no value of the average differs by more than
    [factor] times [e]; missing values and infinities are at the same bars, and a call that ends
    with an exception does so on both. *)
Theorem C128_average :
  forall a p f e (l l' : line (ext R)),
    factor a p = Some f -> 0 <= e -> (1 <= p)%nat -> line_close e l l' ->
    alike (line_close (f * e)) (avg_fun a p l) (avg_fun a p l').
Proof. exact factor_sound. Qed.
Print Assumptions C128_average.

(** further indicators, with one gap for each input and output *)
Theorem C128_indicator :
  forall x gs hs (ins ins' : list (line (ext R))),
    bands x gs hs -> valid x -> lines_off gs ins ins' ->
    alike (lines_off hs) (run x ins) (run x ins').
Proof. exact bands_sound. Qed.
Print Assumptions C128_indicator.

(** whole programs *)
Theorem C128_program :
  forall gs steps hs (env env' : list (line (ext R))),
    session_bands gs steps hs -> Forall (fun s => valid (fst s)) steps -> lines_off gs env env' ->
    alike (lines_off hs) (session env steps) (session env' steps).
Proof. intros gs steps hs env env' S F H. exact (session_band gs steps hs S env env' F H). Qed.
Print Assumptions C128_program.

(** A direction instead of a size: with prices nowhere lower the average is nowhere lower. *)
Theorem C128_direction :
  forall a p (l l' : line (ext R)),
    follows a = true -> (1 <= p)%nat -> line_not_below l l' ->
    alike line_not_below (avg_fun a p l) (avg_fun a p l').
Proof. exact avg_follows. Qed.
Print Assumptions C128_direction.

(** factors: the plain averages keep the difference, dema can make it three times as large, tema
    seven times, a momentum twice, a sum over 10 bars ten times *)
Example factors :
  factor ASma 10 = Some 1 /\ factor (AEma SEED_AVG) 10 = Some 1 /\ factor AWma 10 = Some 1 /\
  factor (ADema (AEma SEED_AVG)) 10 = Some 3 /\ factor (ATema (AEma SEED_AVG)) 10 = Some 7 /\
  factor AMom 10 = Some 2 /\ factor ASum 10 = Some 10.
Proof. repeat (apply conj); cbn; f_equal; lra. Qed.
(** prices with a missing value, rounded to whole numbers *)
Definition exact_prices : line (ext R) := raw [Fin 10.25; NaN; Fin 11.5; Fin 12.75; Fin 12].
Definition rounded_prices : line (ext R) := raw [Fin 10; NaN; Fin 12; Fin 13; Fin 12].
Example rounded_close : line_close (1 / 2) exact_prices rounded_prices.
Proof. split; [reflexivity|]. repeat constructor; cbn; lra. Qed.
Example rounded_dema : alike (line_close (3 * (1 / 2))) (dema ema 2 exact_prices) (dema ema 2 rounded_prices).
Proof.
  apply (C128_average (ADema (AEma SEED_AVG)) 2); [cbn; f_equal; lra|lra|lia|exact rounded_close].
Qed.
(** A program: the true range and its average, macd of the close and bands around the macd, with
    highs, lows and closes off by at most 1/2: true range and atr by 1, macd by 1, its signal by 1,
    the histogram by 2, the bands around the macd by 1 + 2 * 2. *)
Definition round_steps : list (step (ext R)) :=
  [ (XTruerange 1, [0; 1; 2]);
    (XAtr (ASmma SEED_AVG) 14 1, [0; 1; 2]);
    (XMacd (AEma SEED_AVG) (AEma SEED_AVG) 12 26 9, [2]);
    (XBbands 20 (Fin 2%R) ASma (AStddev 0), [5]) ]%nat.
Definition about (e : R) : gap := (- e, e).
Lemma about_sub e f : gsub (about e) (about f) = about (e + f).
Proof. unfold gsub, about. cbn [fst snd]. f_equal; lra. Qed.
Lemma about_add e f : gadd (about e) (about f) = about (e + f).
Proof. unfold gadd, about. cbn [fst snd]. f_equal; lra. Qed.
Lemma about_hull e : ghull (about e) (about e) = about e.
Proof. unfold ghull, about. cbn [fst snd]. now rewrite Rmin_left, Rmax_left by lra. Qed.
Lemma about_spread e : gspread (about e) = about (2 * e).
Proof. unfold gspread, about. cbn [fst snd]. f_equal; lra. Qed.
Lemma about_scale e : 0 <= e -> gscale 2 (about e) = about (2 * e).
Proof. intro E. unfold gscale, about. cbn [fst snd]. rewrite Rmin_left, Rmax_right by lra. f_equal; lra. Qed.
Example round_met :
  session_bands (map about [1 / 2; 1 / 2; 1 / 2]) round_steps (map about [1 / 2; 1 / 2; 1 / 2; 1; 1; 1; 1; 2; 1; 5; 5]).
Proof.
  assert (T : gsub (ghull (about (1 / 2)) (about (1 / 2))) (ghull (about (1 / 2)) (about (1 / 2))) = about 1).
  { rewrite !about_hull, about_sub. f_equal. lra. }
  assert (M : gsub (about (1 / 2)) (about (1 / 2)) = about 1) by (rewrite about_sub; f_equal; lra).
  assert (H : gsub (about 1) (about 1) = about 2) by (rewrite about_sub; f_equal; lra).
  unfold round_steps. cbn [map].
  apply (sb_step _ _ _ _ [about (1 / 2); about (1 / 2); about (1 / 2)] [about 1]); [reflexivity|rewrite <- T; apply b_truerange|cbn [app]].
  apply (sb_step _ _ _ _ [about (1 / 2); about (1 / 2); about (1 / 2)] [about 1]); [reflexivity|apply b_atr; rewrite T; reflexivity|cbn [app]].
  apply (sb_step _ _ _ _ [about (1 / 2)] [about 1; about 1; about 2]); [reflexivity| |cbn [app]].
  { rewrite <- H, <- M. apply b_macd with (f := about (1 / 2)) (s := about (1 / 2)); reflexivity. }
  apply (sb_step _ _ _ _ [about 1] [about 1; about 5; about 5]); [reflexivity| |cbn [app]; apply sb_nil].
  assert (U : gadd (about 1) (gscale 2 (gspread (about 1))) = about 5)
    by (rewrite about_spread, about_scale, about_add by lra; f_equal; lra).
  assert (D : gsub (about 1) (gscale 2 (gspread (about 1))) = about 5)
    by (rewrite about_spread, about_scale, about_sub by lra; f_equal; lra).
  rewrite <- U at 1. rewrite <- D. apply b_bbands. reflexivity.
Qed.
Example round_valid : Forall (fun s => valid (fst s)) round_steps.
Proof. unfold round_steps. repeat constructor; cbn; lia. Qed.
Example round_use (h l c h' l' c' : list R) :
  Forall2 (fun x y => - (1 / 2) <= y - x <= 1 / 2) h h' -> Forall2 (fun x y => - (1 / 2) <= y - x <= 1 / 2) l l' ->
  Forall2 (fun x y => - (1 / 2) <= y - x <= 1 / 2) c c' ->
  alike (lines_off (map about [1 / 2; 1 / 2; 1 / 2; 1; 1; 1; 1; 2; 1; 5; 5]))
    (session [raw (map (@Fin R) h); raw (map (@Fin R) l); raw (map (@Fin R) c)] round_steps)
    (session [raw (map (@Fin R) h'); raw (map (@Fin R) l'); raw (map (@Fin R) c')] round_steps).
Proof.
  assert (K : forall a a', Forall2 (fun x y => - (1 / 2) <= y - x <= 1 / 2) a a' ->
    line_off (about (1 / 2)) (raw (map (@Fin R) a)) (raw (map (@Fin R) a'))).
  { intros a a' F. split; [reflexivity|]. cbn [raw lser]. induction F; cbn [map]; constructor; auto. }
  intros H L C. apply (C128_program (map about [1 / 2; 1 / 2; 1 / 2])); [exact round_met|exact round_valid|].
  cbn [map lines_off]. auto.
Qed.
Example direction_met : follows (AEma SEED_AVG) = true /\ line_not_below exact_prices (raw [Fin 11; NaN; Fin 11.5; Fin 13; Fin 12]).
Proof. split; [reflexivity|]. split; [reflexivity|]. repeat constructor; cbn; lra. Qed.

(** No bound exists for a quotient: whatever size is asked for, two histories that differ by at
    most 1 have rates of change which differ by more. *)
Theorem C128_quotient_refuted :
  forall B : R, exists l l' : line (ext R),
    line_close 1 l l' /\ ~ alike (line_close B) (avg_fun ARocr 1%nat l) (avg_fun ARocr 1%nat l').
Proof.
  intro B. set (e := / (Rabs B + 1)). assert (P : 0 < Rabs B + 1) by (pose proof (Rabs_pos B); lra).
  assert (E : 0 < e) by now apply Rinv_0_lt_compat.
  exists (raw [Fin e; Fin 1]), (raw [Fin e; Fin 2]). split.
  - split; [reflexivity|]. repeat constructor; cbn; lra.
  - cbn [avg_fun rocr alike]. intros [_ F]. unfold rocr, rocbase in F.
    change (lser (ldiv (raw [Fin e; Fin 1]) (at_ago (raw [Fin e; Fin 1]) (- Z.of_nat 1)))) with [NaN; vdiv (Fin 1) (Fin e) : ext R] in F.
    change (lser (ldiv (raw [Fin e; Fin 2]) (at_ago (raw [Fin e; Fin 2]) (- Z.of_nat 1)))) with [NaN; vdiv (Fin 2) (Fin e) : ext R] in F.
    inversion F as [|? ? ? ? _ F1]; subst. assert (H : off (- B, B) (vdiv (Fin 1) (Fin e)) (vdiv (Fin 2) (Fin e))) by (inversion F1; assumption). clear F F1.
    rewrite !RFacts.vdiv_fin in H by lra. cbn in H. unfold e, Rdiv in H. rewrite Rinv_inv in H.
    pose proof (Rle_abs B). lra.
Qed.
Print Assumptions C128_quotient_refuted.

(** Nor does every average follow the direction of the prices: dema, tema and t3 give
    old prices a negative weight.  The first price raised from 0 to 4 lowers the third value. *)
Theorem C128_direction_refuted :
  let dema := @run _ _ demoT (XAvg (ADema ASma) 2) in
  let at2 r := match norm r with Ok [s] => nth_error s 2 | _ => None end in
  at2 (dema [raw [Fin 0; Fin 0; Fin 0]%Q]) = Some (Fin 0%Q) /\
  at2 (dema [raw [Fin 4; Fin 0; Fin 0]%Q]) = Some (Fin (-1)%Q).
Proof. cbv zeta. split; vm_compute; reflexivity. Qed.
Print Assumptions C128_direction_refuted.
