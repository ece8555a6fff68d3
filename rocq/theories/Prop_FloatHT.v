(** Property theorems C122 and C106_all: the Hilbert transform indicators on double precision numbers.
    Models: IndHT.v on the numbers of Float64.v; vocabulary: FloatSpec.v.  The functions sine,
    cosine and arc tangent are arbitrary here. *)
From Coq Require Import ZArith QArith List Bool Reals Lia Lra.
From Flocq Require Import Core IEEE754.BinarySingleNaN.
From Verif Require Import Num Series Line Spec Float64 FloatSpec IndHT Catalog CatalogSpec FloatHT FloatCycle Prop_Float.
Import ListNotations.
Local Open Scope R_scope.

(** the measured cycle is missing or between 0 and 50 bars, whatever the data (missing and
    infinite values included) *)
Theorem C122_dcperiod :
  forall (T : NumT float) inp,
    exists y, ht_dcperiod inp = Ok y /\ every (nan_or_within 0 50) y.
Proof. exact @dcperiod_float. Qed.
Print Assumptions C122_dcperiod.

(** at every turn the number of past bars taken into account is the measured cycle plus one
    half, rounded down, at most 50; a missing measure makes int() raise *)
Theorem C122_bars_used :
  forall (T : NumT float) prices,
    Forall (fun sp =>
      (missing sp /\ pyint (vadd sp (vofQ (5 # 10))) = Raise ValueError) \/
      (within 0 50 sp /\ exists d, pyint (vadd sp (vofQ (5 # 10))) = Ok d /\ (0 <= d <= 50)%Z /\
         IZR d <= val (vadd sp (vofQ (5 # 10))) < IZR d + 1)) (dcp_loop ht0 prices).
Proof. exact @bars_used. Qed.
Print Assumptions C122_bars_used.

(** the look-ups of past bars stay inside of the data: the only exception is the one for a
    missing measure *)
Theorem C122_exceptions :
  forall (T : NumT float) inp,
    ((exists y, ht_dcphase inp = Ok y) \/ ht_dcphase inp = Raise ValueError) /\
    ((exists y, ht_sine inp = Ok y) \/ ht_sine inp = Raise ValueError) /\
    ((exists y, ht_trendline inp = Ok y) \/ ht_trendline inp = Raise ValueError) /\
    ((exists y, ht_trendmode inp = Ok y) \/ ht_trendmode inp = Raise ValueError).
Proof. exact (fun T inp => conj (ov_dcphase inp) (conj (ov_sine inp) (conj (ov_trendline inp) (ov_trendmode inp)))). Qed.
Print Assumptions C122_exceptions.

(** the trend mode is 0 or 1 *)
Theorem C122_trendmode :
  forall (T : NumT float) inp y,
    ht_trendmode inp = Ok y -> every (fun x => missing x \/ x = v0 \/ x = v1) y.
Proof. exact @trendmode_float. Qed.
Print Assumptions C122_trendmode.

(** 75 bars going up and down *)
Definition htbars : line float := raw (map (fun i => fofZ (100 + Z.of_nat (Nat.modulo (i * i) 17))) (seq 0 75)).
Definition htgap : line float := raw (map (fun i => if Nat.eqb i 60 then B754_nan else fofZ (100 + Z.of_nat (Nat.modulo (i * i) 17))) (seq 0 75)).
Definition last_of (r : res (line float)) : res (list SpecFloat.spec_float) :=
  match r with Ok y => Ok (map B2SF (skipn 71 (lser y))) | Raise e => Raise e end.
Example htbars_cycle :
  last_of (@ht_dcperiod _ _ demoT (HLine htbars)) =
    Ok [SpecFloat.S754_finite false 5326209987093766 (-48); SpecFloat.S754_finite false 5246712110662490 (-48);
        SpecFloat.S754_finite false 5275627297484914 (-48); SpecFloat.S754_finite false 5329806615916930 (-48)] /\
  last_of (@ht_trendmode _ _ demoT (HLine htbars)) = Ok (repeat (B2SF (v1 : float)) 4) /\
  last_of (@ht_dcphase _ _ demoT (HLine htbars)) =
    Ok [SpecFloat.S754_finite false 5341524451975138 (-45); SpecFloat.S754_finite false 5353172505588007 (-45);
        SpecFloat.S754_finite false 5347625506073225 (-45); SpecFloat.S754_finite false 5339836706562416 (-45)].
Proof. repeat (apply conj); vm_compute; reflexivity. Qed.
(** one missing price in 75 bars: no measure any more, and no phase at any bar *)
Example htgap_fails :
  last_of (@ht_dcperiod _ _ demoT (HLine htgap)) = Ok (repeat SpecFloat.S754_nan 4) /\
  @ht_dcphase _ _ demoT (HLine htgap) = Raise ValueError /\ @ht_sine _ _ demoT (HLine htgap) = Raise ValueError /\
  @ht_trendline _ _ demoT (HLine htgap) = Raise ValueError /\ @ht_trendmode _ _ demoT (HLine htgap) = Raise ValueError.
Proof. repeat (apply conj); vm_compute; reflexivity. Qed.

(** ** C106 for the four indicators that index with the measured cycle *)
(** With rounding too, more bars leave the bars already delivered unchanged, for sessions with every
    indicator but mavp.  Both histories are accepted: a missing price makes these four indicators raise. *)
Theorem C106_all_partial :
  forall (T : NumT float) n n' (env env' : list (line float)) steps outs outs',
    (n <= n')%nat ->
    Forall2 (fun x x' => (1 <= lmp x)%Z /\ length (lser x) = n /\ length (lser x') = n' /\
                         extends x x') env env' ->
    Forall (fun s => valid (fst s)) steps ->
    session env steps = Ok outs -> session env' steps = Ok outs' ->
    Forall2 extends outs outs'.
Proof. exact float_agree. Qed.
Print Assumptions C106_all_partial.
Definition htsteps : list (step float) :=
  [ (XHtDcphase, [0]); (XHtSine, [0]); (XHtTrendline, [0]); (XHtTrendmode, [0]) ]%nat.
Definition outputs (r : res (list (line float))) : option (list Z) :=
  match r with Ok o => Some (map (@lmp _) o) | Raise _ => None end.
Example C106_all_met :
  let old := raw (firstn 70 (lser htbars)) in
  ((1 <= lmp old)%Z /\ length (lser old) = 70%nat /\ length (lser htbars) = 75%nat /\ extends old htbars) /\
  Forall (fun s => valid (fst s)) htsteps /\
  outputs (@session _ _ demoT [old] htsteps) = Some [1; 64; 64; 64; 64; 64]%Z /\
  outputs (@session _ _ demoT [htbars] htsteps) = Some [1; 64; 64; 64; 64; 64]%Z.
Proof.
  intro old. split; [|split; [repeat constructor|split; vm_compute; reflexivity]].
  split; [vm_compute; discriminate|]. split; [vm_compute; reflexivity|]. split; [vm_compute; reflexivity|].
  split; [reflexivity|]. exists (skipn 70 (lser htbars)). unfold old. cbn [raw lser]. symmetry. apply firstn_skipn.
Qed.
