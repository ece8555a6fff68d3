(** Model of the MESA adaptive moving average (btalib/indicators/mama.py). *)
From Coq Require Import ZArith QArith List Bool.
From Verif Require Import Num Series Line Apply IndBasic IndHT.
Import ListNotations.
Set Implicit Arguments.

Section Mama.
  Context {V : Type} {N : Num V} {T : NumT V}.
  Notation line := (line V).

  (** Line.mask(cond, v) with a boolean Line (linesops.py:101, standard_op lines.py:137-162
      with sargs): [v] where the condition holds *)
  Definition lmask (a : line) (cond : bline) (v : V) : line :=
    let mp := Z.max (Z.max (lmp a) (bmp cond)) 1 in
    let mi := (mp - 1)%Z in
    clone a (set_from (nans (bars a)) mi
               (map2 (fun x (b : bool) => if b then v else x)
                     (slice_from (lser a) mi) (slice_from (bser cond) mi))) mp.

  (** Line.fillna(v) (linesops.py:91) *)
  Definition lfillna (a : line) (v : V) : line := mapop (fun x => if visnan x then v else x) a.

  (** mama.py:62-76.  [i1], [q1] are the lines returned by _applymulti; arctan is the
      indicator of math.py:162-176 with its default degrees=False. *)
  Definition mama_phase (i1 q1 : line) : line :=
    let q1 := period_ q1 6 false None in
    let atanq1num := lmask q1 (cmpop_s veqb i1 v0) v0 in
    let phase := rbinop_s vmul RAD2DEG (lfillna (mathrad vatan false (ldiv atanq1num i1)) v0) in
    period_ phase (-1) false (Some v0).
  Definition mama_alpha (fastlimit slowlimit : V) (phase : line) : line :=
    let deltaphase := lclip_lo (lsub (at_ago phase (-1)) phase) v1 in
    lclip_lo (rbinop_s vdiv fastlimit deltaphase) slowlimit.

  (** mama.py:46-89; _periodize (mama.py:95-147) is the loop of ht_phasor.py:63-115, line by
      line, so [phasorize] is used.  The second _ewm has no span: _pval is 0
      (lines.py:221). *)
  Definition mama (fastlimit slowlimit : V) (inp : ht_in V) : res (line * line) :=
    let p0 := ht_p0 inp in
    let p0smooth := ht_p0smooth p0 in
    ls <- applymulti_ (fun price _ => Ok (phasorize price)) p0smooth
            [filled p0smooth v0; filled p0smooth v0] ;;
    match ls with
    | [i1; q1] =>
        let alpha := mama_alpha fastlimit slowlimit (mama_phase i1 q1) in
        m <- ewm_dyn 1 alpha SEED_ZERO p0 ;;
        f <- ewm_dyn 0 (binop_s vmul alpha (vofQ (1 # 2))) SEED_ZERO m ;;
        Ok (period_ m 20 false (Some vnan), period_ f 20 false (Some vnan))
    | _ => Raise ValueError
    end.
End Mama.
