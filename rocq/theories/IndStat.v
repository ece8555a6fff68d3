(** Models of the statistical indicators (var, stddev, bbands, linreg, correl, beta, madev,
    cci). *)
From Coq Require Import ZArith QArith List Bool.
From Verif Require Import Num Series Line IndMA IndBasic.
Import ListNotations.
Set Implicit Arguments.

Section Stat.
  Context {V : Type} {N : Num V} {T : NumT V}.
  Notation line := (line V).

  (** var.py:26-28; ddof 0 for var, 1 for var_s *)
  Definition var (p ddof : nat) (i0 : line) : line := rolling p (win_var ddof) i0.

  (** Rolling.std: the square root of the variance (pandas zsqrt) *)
  Definition win_std (ddof : nat) (l : list V) : V := vsqrt (win_var ddof l).
  (** stddev.py:26-28 *)
  Definition stddev (p ddof : nat) (i0 : line) : line := rolling p (win_std ddof) i0.

  (** bbands.py:33-38.  The parameter [_stdev] is accepted and not used: the code calls
      [stddev] (with its default ddof=0) *)
  Definition bbands (p : nat) (devs : V) (ma : ma_fun V) (stdev : ma_fun V) (i0 : line)
    : res (line * line * line) :=
    mid <- ma p i0 ;;
    let devdist := rbinop_s vmul devs (stddev p 0 i0) in
    Ok (mid, ladd mid devdist, lsub mid devdist).

  (** madev.py:27 np.fabs(x - x.mean()).mean() *)
  Definition win_mad (l : list V) : V :=
    let m := win_mean l in win_mean (map (fun x => vabs (vsub x m)) l).
  (** madev.py:29-31; the parameter [_ma] is accepted and not used *)
  Definition mad (p : nat) (ma : ma_fun V) (i0 : line) : line := rolling p win_mad i0.

  (** cci.py:37-41; the parameter [_dev] is accepted and not used *)
  Definition cci (p : nat) (factor : V) (ma dev : ma_fun V) (high low close : line) : res line :=
    let tp := binop_s vdiv (ladd (ladd high low) close) (vofZ 3) in
    tpmean <- ma p tp ;;
    let madev := mad p sma_ tp in
    Ok (ldiv (lsub tp tpmean) (binop_s vmul madev factor)).

  (** linreg.py:61-78 _linreg_base: slope m and intercept b; [pm1] is [_pminus1] *)
  Definition win_dot (p0 : Z) (l : list V) : V :=
    vsum (map2 vmul l (map (fun i => vofZ (p0 + Z.of_nat i)) (seq 0 (length l)))).
  Definition linreg_mb (pm1 : bool) (p : nat) (i0 : line) : line * line :=
    let p0 := (1 - (if pm1 then 1 else 0))%Z in
    let p1 := (Z.of_nat p - (if pm1 then 1 else 0))%Z in
    let s_x := vdiv (vofZ (p1 * (p1 + 1))) (vofZ 2) in
    let s_y := rolling p win_sum i0 in
    let s_xx := vdiv (vofZ (p1 * (p1 + 1) * (2 * p1 + 1))) (vofZ 6) in
    let s_xy := rolling p (win_dot p0) i0 in
    let vp := vofZ (Z.of_nat p) in
    let m := binop_s vdiv (lsub (rbinop_s vmul vp s_xy) (rbinop_s vmul s_x s_y))
                          (vsub (vmul vp s_xx) (vmul s_x s_x)) in
    let b := binop_s vdiv (lsub s_y (binop_s vmul m s_x)) vp in
    (m, b).
  (** linreg.py:99-100 *)
  Definition linearreg_slope (p : nat) (i0 : line) : line := fst (linreg_mb false p i0).
  (** linreg.py:121-122; atan is the math indicator on radians *)
  Definition linearreg_angle (p : nat) (i0 : line) : line :=
    binop_s vmul (mathrad vatan false (fst (linreg_mb false p i0))) (vdiv (vofZ 180) vpi).
  (** linreg.py:145-146; [talib] sets _pminus1 (linreg.py:148-166) *)
  Definition linearreg_intercept (talib : bool) (p : nat) (i0 : line) : line :=
    snd (linreg_mb talib p i0).
  (** linreg.py:187-191 *)
  Definition linearreg (p : nat) (i0 : line) : line :=
    let '(m, b) := linreg_mb true p i0 in
    ladd b (binop_s vmul m (vofZ (Z.of_nat p - 1))).
  (** linreg.py:232-236 *)
  Definition tsf (p : nat) (i0 : line) : line :=
    let '(m, b) := linreg_mb true p i0 in
    ladd b (binop_s vmul m (vofZ (Z.of_nat p))).

  (** pandas Rolling.corr: cov / (std * std), ddof 1 *)
  Definition win_corr (l m : list V) : V :=
    vdiv (win_cov l m) (vmul (win_std 1 l) (win_std 1 m)).
  (** correl.py:30-31; [_prets] and [_rets] are accepted and not used *)
  Definition correl (p : nat) (prets : Z) (rets : bool) (i0 i1 : line) : line :=
    rolling2 p win_corr i0 i1.

  (** beta.py:38-53 *)
  Definition beta (p : nat) (prets : Z) (rets : bool) (asset market : line) : line :=
    let x := if rets then pct_change asset prets else asset in
    let y := if rets then pct_change market prets else market in
    let s_x := rolling p win_sum x in
    let s_y := rolling p win_sum y in
    let s_xx := rolling p win_sum (pow2 x) in
    let s_xy := rolling p win_sum (lmul x y) in
    let vp := vofZ (Z.of_nat p) in
    ldiv (lsub (rbinop_s vmul vp s_xy) (lmul s_x s_y))
         (lsub (rbinop_s vmul vp s_xx) (pow2 s_x)).
End Stat.

(** Constructors with all their parameters, including those the code does not use. *)
Section Ignored.
  Context {V : Type} {N : Num V}.
  (** trima.py:26-39: the parameter [_ma] is declared and not used *)
  Definition trima_ind (ma : ma_fun V) (p : nat) (i0 : line V) : line V := trima p i0.
  (** t3.py:55-90: [_gd] selects the calculation; [_ma] is used with _gd=True only *)
  Definition t3_ind (gd : bool) (ma : ma_fun V) (p : nat) (vfactor : V) (i0 : line V) : res (line V) :=
    if gd then t3_gd ma p vfactor i0 else t3 p vfactor i0.
End Ignored.
