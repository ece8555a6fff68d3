(** Model of btalib/meta/lines.py: class Line and the operations installed in it
    (lines.py:108-397, 456-603; linesops.py). *)
From Coq Require Import ZArith List Bool.
From Verif Require Import Num Series.
Import ListNotations.
Set Implicit Arguments.
Local Open Scope Z_scope.

Section Line.
  Context {V : Type} {N : Num V}.

  (** lines.py:456-459 class Line: _minperiod, _series (float dtype).  _name is only
      used for display and not modelled here. *)
  Record line := mkLine { lmp : Z; lser : list V }.

  (** A Line whose _series has dtype bool (result of comparisons and logic). *)
  Record bline := mkBLine { bmp : Z; bser : list bool }.

  Definition bars (l : line) : nat := length (lser l).

  (** lines.py:419-449 MetaLine.__call__ with a Series: minimum period 1 *)
  Definition raw (s : list V) : line := mkLine 1 s.

  (** lines.py:501-504 _clone: [period or self._minperiod] (a period of 0 is falsy) *)
  Definition clone (self : line) (s : list V) (period : Z) : line :=
    mkLine (if period =? 0 then lmp self else period) s.

  Definition nans (n : nat) : list V := repeat vnan n.

  (** lines.py:108-134 binary_op, other being a Line *)
  Definition binop (op : V -> V -> V) (a b : line) : line :=
    let mp := Z.max (lmp a) (lmp b) in
    let mi := mp - 1 in
    let r := map2 op (slice_from (lser a) mi) (slice_from (lser b) mi) in
    clone a (set_from (nans (bars a)) mi r) mp.

  (** lines.py:108-134 binary_op, other being a scalar: its minimum period counts as 1 *)
  Definition binop_s (op : V -> V -> V) (a : line) (c : V) : line :=
    let mp := Z.max (lmp a) 1 in
    let mi := mp - 1 in
    clone a (set_from (nans (bars a)) mi (map (fun x => op x c) (slice_from (lser a) mi))) mp.

  (** the reflected operators (__radd__, __rsub__, ...): scalar op line *)
  Definition rbinop_s (op : V -> V -> V) (c : V) (a : line) : line :=
    let mp := Z.max (lmp a) 1 in
    let mi := mp - 1 in
    clone a (set_from (nans (bars a)) mi (map (fun x => op c x) (slice_from (lser a) mi))) mp.

  Definition bclone (smp : Z) (s : list bool) (period : Z) : bline :=
    mkBLine (if period =? 0 then smp else period) s.

  (** lines.py:108-134 for comparison operators: the result has dtype bool, and
      [result.astype(bool)] turns the leading NaN values into True *)
  Definition cmpop (op : V -> V -> bool) (a b : line) : bline :=
    let mp := Z.max (lmp a) (lmp b) in
    let mi := mp - 1 in
    let r := map2 op (slice_from (lser a) mi) (slice_from (lser b) mi) in
    bclone (lmp a) (set_from (repeat true (bars a)) mi r) mp.
  Definition cmpop_s (op : V -> V -> bool) (a : line) (c : V) : bline :=
    let mp := Z.max (lmp a) 1 in
    let mi := mp - 1 in
    bclone (lmp a)
      (set_from (repeat true (bars a)) mi (map (fun x => op x c) (slice_from (lser a) mi))) mp.

  (** logic operators on boolean lines (__and__, __or__, __xor__) *)
  Definition bbinop (op : bool -> bool -> bool) (a b : bline) : bline :=
    let mp := Z.max (bmp a) (bmp b) in
    let mi := mp - 1 in
    let r := map2 op (slice_from (bser a) mi) (slice_from (bser b) mi) in
    bclone (bmp a) (set_from (repeat true (length (bser a))) mi r) mp.

  Definition vofbool (b : bool) : V := if b then v1 else v0.

  (** scalar * boolean line and boolean line * line give float lines *)
  Definition rmul_b (c : V) (a : bline) : line :=
    let mp := Z.max (bmp a) 1 in
    let mi := mp - 1 in
    mkLine (if mp =? 0 then bmp a else mp)
      (set_from (nans (length (bser a))) mi
         (map (fun x => vmul c (vofbool x)) (slice_from (bser a) mi))).
  Definition mul_b (a : line) (b : bline) : line :=
    let mp := Z.max (lmp a) (bmp b) in
    let mi := mp - 1 in
    let r := map2 (fun x y => vmul x (vofbool y)) (slice_from (lser a) mi) (slice_from (bser b) mi) in
    clone a (set_from (nans (bars a)) mi r) mp.

  (** numpy refuses to subtract boolean arrays: bool line - bool line.  (Simplification: with
      no bar at all after the minimum period pandas does not notice.) *)
  Definition sub_bb (a b : bline) : res line := Raise TypeError.

  (** lines.py:137-162 standard_op without period argument *)
  Definition stdop (f : list V -> list V) (a : line) : line :=
    let mp := lmp a in
    let mi := mp - 1 in
    clone a (set_from (nans (bars a)) mi (f (slice_from (lser a) mi))) mp.

  Definition mapop (f : V -> V) (a : line) : line := stdop (map f) a.

  (** lines.py:137-162 standard_op with one further Line argument (sargs / skwargs) *)
  Definition stdop2 (f : list V -> list V -> list V) (a b : line) : line :=
    let mp := Z.max (lmp a) (lmp b) in
    let mi := mp - 1 in
    clone a (set_from (nans (bars a)) mi
               (f (slice_from (lser a) mi) (slice_from (lser b) mi))) mp.

  (** lines.py:137-162 standard_op with parg='periods'.  [kw] is the keyword argument
      periods=..., if given; [pos] the positional one.  Without the keyword
      [line._minperiod += None] raises. *)
  Definition stdop_p (f : list V -> Z -> list V) (a : line) (pos kw : option Z) : res line :=
    let mp := lmp a in
    let mi := mp - 1 in
    let p := match kw, pos with Some p, _ => p | None, Some p => p | None, None => 1 end in
    let l := clone a (set_from (nans (bars a)) mi (f (slice_from (lser a) mi) p)) mp in
    match kw with
    | Some p => Ok (mkLine (lmp l + p) (lser l))
    | None => Raise TypeError
    end.

  (** the keyword spelling, which never raises (used all over the library) *)
  Definition kwop_p (f : list V -> Z -> list V) (a : line) (p : Z) : line :=
    let l := clone a (set_from (nans (bars a)) (lmp a - 1) (f (slice_from (lser a) (lmp a - 1)) p))
                   (lmp a) in
    mkLine (lmp l + p) (lser l).

  Definition shift (a : line) (p : Z) : line := kwop_p ser_shift a p.
  Definition diff (a : line) (p : Z) : line := kwop_p ser_diff a p.
  Definition pct_change (a : line) (p : Z) : line := kwop_p ser_pct_change a p.

  (** lines.py:477-487 Line.__call__(val=c): a line filled with the scalar c *)
  Definition filled (a : line) (c : V) : line := mkLine (lmp a) (repeat c (bars a)).

  (** lines.py:477-487 Line.__call__(ago): look-back (ago < 0) or look-ahead.  With ago = 0 the default val=NaN is
      taken: the result is not the line but a line of NaN *)
  Definition at_ago (a : line) (ago : Z) : line :=
    if ago =? 0 then filled a vnan else shift a (- ago).

  (** arithmetic shorthands (operators in the source) *)
  Definition ladd := binop vadd.
  Definition lsub := binop vsub.
  Definition lmul := binop vmul.
  Definition ldiv := binop vdiv.
  Definition labs := mapop vabs.

  (** Series.clip(lower=scalar) etc. (standard_op clip, skwargs) *)
  Definition lclip_lo (a : line) (t : V) : line :=
    let mp := Z.max (lmp a) 1 in
    clone a (set_from (nans (bars a)) (mp - 1)
               (map (clip_lo t) (slice_from (lser a) (mp - 1)))) mp.
  Definition lclip_hi (a : line) (t : V) : line :=
    let mp := Z.max (lmp a) 1 in
    clone a (set_from (nans (bars a)) (mp - 1)
               (map (clip_hi t) (slice_from (lser a) (mp - 1)))) mp.
  (** Series.clip(lower=Line) / clip(upper=Line) *)
  Definition lclip_lo_l (a t : line) : line :=
    stdop2 (map2 (fun x y => clip_lo y x)) a t.
  Definition lclip_hi_l (a t : line) : line :=
    stdop2 (map2 (fun x y => clip_hi y x)) a t.

  (** lines.py:518-532 Line._period(period, rolling, val); in-place in the code,
      the updated line is returned *)
  Definition period_ (a : line) (period : Z) (rolling : bool) (val : option V) : line :=
    let inc := period - (if rolling then 1 else 0) in
    if inc =? 0 then a
    else
      let s :=
        match val with
        | None => lser a
        | Some v =>
            let idx0 := lmp a - 1 in
            let idx1 := idx0 + inc in
            if idx1 <? idx0 then set_slice (lser a) idx1 idx0 v
            else set_slice (lser a) idx0 idx1 v
        end in
      mkLine (lmp a + inc) s.

  (** lines.py:534-544 Line._setval(i0, i1, val) *)
  Definition setval_ (a : line) (i0 i1 : Z) (v : V) : line :=
    if (i0 =? 0) && (i1 =? 0) then
      mkLine (lmp a) (set_slice (lser a) (lmp a - 1) i1 v)
    else
      let j0 := lmp a - 1 + i0 in
      let j1 := if 0 <=? i1 then j0 + (if i1 =? 0 then 1 else i1) else i1 in
      mkLine (lmp a) (set_slice (lser a) j0 j1 v).

  (** ** Objects returned by rolling(...), ewm(...), _ewm(...): lines.py:207-397 *)

  Record mfo := mkMfo {
    mf_line   : line;            (* _line *)
    mf_mp     : Z;               (* _minperiod *)
    mf_pval   : option Z;        (* _pval *)
    mf_pearly : Z;               (* _pearly *)
    mf_alphap : Z;               (* _alpha_p *)
    mf_minidx : Z;               (* _minidx *)
    mf_trailer : list V          (* the Series given to pandas' rolling/ewm *)
  }.

  (** lines.py:299-308, 251: plain rolling / ewm; [pval] is the keyword argument *)
  Definition mf_plain (a : line) (pval : option Z) : mfo :=
    mkMfo a (lmp a) pval 0 1 (lmp a - 1) (slice_from (lser a) (lmp a - 1)).

  (** lines.py:359-383 __getattr__ and call_op: every attribute access increases
      _minperiod.  (_is_seeded is never set inside the library.)  [F] is the pandas
      method applied to the trailer. *)
  Definition mf_call (o : mfo) (F : list V -> res (list V)) : mfo * res line :=
    let mp :=
      match mf_pval o with
      | None => mf_mp o
      | Some p => Z.max (mf_mp o + (p - mf_pearly o - 1)) (mf_alphap o)
      end in
    let o' := mkMfo (mf_line o) mp (mf_pval o) (mf_pearly o) (mf_alphap o)
                    (mf_minidx o) (mf_trailer o) in
    (o', r <- F (mf_trailer o) ;;
         Ok (clone (mf_line o)
               (set_from (nans (bars (mf_line o))) (mf_minidx o) r) mp)).

  (** line.rolling(window=w).<G>() *)
  Definition rolling (w : nat) (G : list V -> V) (a : line) : line :=
    let mp := Z.max (lmp a + (Z.of_nat w - 0 - 1)) 1 in
    clone a (set_from (nans (bars a)) (lmp a - 1)
               (ser_rolling w G (slice_from (lser a) (lmp a - 1)))) mp.

  (** line.rolling(window=w).corr(other): the argument is sliced at the _minidx of the
      calling line only (lines.py:374-376); pandas: cov / (std * std) *)
  Definition rolling2 (w : nat) (G : list V -> list V -> V) (a b : line) : line :=
    let mp := Z.max (lmp a + (Z.of_nat w - 0 - 1)) 1 in
    let x := slice_from (lser a) (lmp a - 1) in
    let y := slice_from (lser b) (lmp a - 1) in
    let f i := if (S i <? w)%nat then vnan
               else
                 let wx := map prep (window x i w) in
                 let wy := map prep (window y i w) in
                 if existsb visnan wx || existsb visnan wy then vnan else G wx wy in
    clone a (set_from (nans (bars a)) (lmp a - 1) (map f (seq 0 (length x)))) mp.

  (** line.ewm(span=p, adjust=b).mean()  (lines.py:248-249, 299-303) *)
  Definition ewm_mean (span : nat) (adjust : bool) (a : line) : line :=
    let mp := Z.max (lmp a + (Z.of_nat span - 0 - 1)) 1 in
    clone a (set_from (nans (bars a)) (lmp a - 1)
               (ser_ewma (alpha_span (vofZ (Z.of_nat span))) adjust
                  (slice_from (lser a) (lmp a - 1)))) mp.

  (** utils.py:14-19 seeds *)
  Inductive seed := SEED_AVG | SEED_LAST | SEED_SUM | SEED_NONE | SEED_ZERO | SEED_ZFILL.

  (** lines.py:256-298 _ewm(...): [pval] period, [poffset], [pearly], [alphap] the minimum
      period of a dynamic alpha (1 if there is none) *)
  Definition mf_ewm (a : line) (pval poffset pearly alphap : Z) (sd : seed) : res mfo :=
    let po := if poffset =? 0 then pval else poffset in
    let po := if negb (pval =? 0) && (po <? alphap) then po + (alphap - po - 1) else po in
    let p2 := lmp a - 1 + po - pearly in
    let p1 := p2 - pval in
    let pidx := p2 - 1 in
    let s := lser a in
    let prefix := map (fun _ => vnan) (slice s pidx p2) in
    (* trailprefix[-1] = v *)
    let set_last (v : V) : res (list V) :=
      match rev prefix with
      | [] => Raise IndexError
      | _ :: r => Ok (rev (v :: r))
      end in
    pre <- match sd with
           | SEED_AVG => set_last (ser_mean (slice s p1 p2))
           | SEED_LAST => v <- getitem s pidx ;; set_last v
           | SEED_SUM => set_last (ser_sum (slice s p1 p2))
           | SEED_NONE => Ok prefix
           | SEED_ZERO => set_last v0
           | SEED_ZFILL => Ok (map (fun _ => v0) prefix)
           end ;;
    Ok (mkMfo a (lmp a) (Some pval) pearly alphap pidx (pre ++ slice_from s p2)).

  Definition ewm_call (a : line) (pval poffset pearly alphap : Z) (sd : seed)
             (F : list V -> res (list V)) : res line :=
    o <- mf_ewm a pval poffset pearly alphap sd ;; snd (mf_call o F).

  (** line._ewm(span=p, _seed=sd, _poffset=po).mean()   (ema.py:37-39) *)
  Definition ewm_span (p : nat) (po : Z) (sd : seed) (a : line) : res line :=
    ewm_call a (Z.of_nat p) po 0 1 sd
      (fun t => Ok (ser_ewma (alpha_span (vofZ (Z.of_nat p))) false t)).

  (** line._ewm(com=p-1, _seed=sd).mean()   (smma.py:39-41); _pval = com + 1 = p *)
  Definition ewm_com (p : nat) (sd : seed) (a : line) : res line :=
    ewm_call a (Z.of_nat p - 1 + 1) 0 0 1 sd
      (fun t => Ok (ser_ewma (alpha_com (vofZ (Z.of_nat p - 1))) false t)).

  (** lines.py:310-322 _mean_exp; [beta] None or 0 means 1 - alpha *)
  Definition eff_beta (alpha : V) (beta : option V) : V :=
    match beta with
    | None => vsub v1 alpha
    | Some b => if veqb b v0 then vsub v1 alpha else b
    end.
  Fixpoint mean_exp_from (alpha beta prev : V) (s : list V) : list V :=
    match s with
    | [] => []
    | x :: s' => let y := vadd (vmul beta prev) (vmul alpha x) in
                 y :: mean_exp_from alpha beta y s'
    end.
  Definition mean_exp (alpha : V) (beta : option V) (s : list V) : list V :=
    match map prep s with
    | [] => []
    | x :: s' => x :: mean_exp_from alpha (eff_beta alpha beta) x s'
    end.

  (** lines.py:324-343 _lfilter: x[0] /= alpha, then scipy.signal.lfilter([alpha], [1, -beta], x),
      i.e. y[i] = alpha x[i] + beta y[i-1] with y[-1] = 0 *)
  Fixpoint lfilter_from (alpha beta z : V) (s : list V) : list V :=
    match s with
    | [] => []
    | x :: s' => let y := vadd (vmul alpha x) z in
                 y :: lfilter_from alpha beta (vmul beta y) s'
    end.
  Definition lfilter (alpha : V) (beta : option V) (s : list V) : list V :=
    match map prep s with
    | [] => []
    | x :: s' => lfilter_from alpha (eff_beta alpha beta) v0 (vdiv x alpha :: s')
    end.

  (** lines.py:345-357 _mean: dynamic alpha.  Writing past the end of vals raises;
      values without an alpha are left as they are. *)
  Fixpoint dyn_from (prev : V) (alphas s : list V) : res (list V) :=
    match alphas, s with
    | [], _ => Ok s
    | _ :: _, [] => Raise IndexError
    | al :: alphas', x :: s' =>
        let y := vadd prev (vmul al (vsub x prev)) in
        r <- dyn_from y alphas' s' ;; Ok (y :: r)
    end.
  Definition dyn_mean (alphas : list V) (s : list V) : res (list V) :=
    match map prep s with
    | [] => Raise IndexError
    | x :: s' => r <- dyn_from x alphas s' ;; Ok (vnan :: r)
    end.

  (** line._ewm(span=p, alpha=al, _seed=sd)._mean() *)
  Definition ewm_dyn (p : Z) (al : line) (sd : seed) (a : line) : res line :=
    ewm_call a p 0 0 (lmp al) sd (dyn_mean (slice_from (lser al) (lmp al - 1))).
End Line.
Arguments line : clear implicits.
Arguments mfo : clear implicits.
