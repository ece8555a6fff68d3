(** Models of the parabolic stop and reverse indicators (btalib/indicators/sar.py,
    sarext.py). *)
From Coq Require Import ZArith QArith List Bool.
From Verif Require Import Num Series Line Apply.
Import ListNotations.
Set Implicit Arguments.

Section Sar.
  Context {V : Type} {N : Num V}.
  Notation line := (line V).

  (** Python's max and min of two floats: the first one unless the second is larger
      (smaller) *)
  Definition pymax (a b : V) : V := if vltb a b then b else a.
  Definition pymin (a b : V) : V := if vltb b a then b else a.

  (** the variables of the loop of sar.py:57-82; [s_hi], [s_lo] hold the last bar *)
  Record sarst := mkSar { s_trend : bool; s_ep : V; s_sar : V; s_af : V; s_hi : V; s_lo : V }.

  (** sar.py:48-50 (sarext.py:57-59) initial trend from the first two bars *)
  Definition start_trend (hi1 lo1 hi lo : V) : bool :=
    let upmove := vsub hi hi1 in
    let downmove := vsub lo1 lo in
    let minusdm := vmul (pymax downmove v0) (vofbool (vltb upmove downmove)) in
    negb (vltb v0 minusdm).

  (** sar.py:58-82 one turn of the loop: the new variables and the value written to the
      result buffer *)
  Definition sar_step (AF AFMAX : V) (st : sarst) (hi lo : V) : sarst * V :=
    let hi1 := s_hi st in
    let lo1 := s_lo st in
    let ep := s_ep st in
    let sar := s_sar st in
    let af := s_af st in
    if s_trend st then
      if vleb lo sar then
        let sar := ep in
        let ep := lo in
        let af := AF in
        (mkSar false ep (pymax (pymax (vadd sar (vmul af (vsub ep sar))) hi) hi1) af hi lo, sar)
      else
        let '(ep', af') := if vltb ep hi then (hi, pymin (vadd af AF) AFMAX) else (ep, af) in
        (mkSar true ep' (pymin (pymin (vadd sar (vmul af' (vsub ep' sar))) lo) lo1) af' hi lo, sar)
    else
      if vleb sar hi then
        let sar := ep in
        let ep := hi in
        let af := AF in
        (mkSar true ep (pymin (pymin (vadd sar (vmul af (vsub ep sar))) lo) lo1) af hi lo, sar)
      else
        let '(ep', af') := if vltb lo ep then (lo, pymin (vadd af AF) AFMAX) else (ep, af) in
        (mkSar false ep' (pymax (pymax (vadd sar (vmul af' (vsub ep' sar))) hi) hi1) af' hi lo, sar).

  Fixpoint sar_loop (AF AFMAX : V) (st : sarst) (high low : list V) : list V :=
    match high, low with
    | hi :: high', lo :: low' =>
        let '(st', v) := sar_step AF AFMAX st hi lo in v :: sar_loop AF AFMAX st' high' low'
    | _, _ => []
    end.

  (** sar.py:42-84; the result buffer holds NaN at its first bar; fewer than two bars raise *)
  Definition sarize (AF AFMAX : V) (high low : list V) : res (list V) :=
    match high, low with
    | hi1 :: (hi :: _) as h, lo1 :: (lo :: _) as l =>
        let trend := start_trend hi1 lo1 hi lo in
        let '(ep, sar) := if trend then (hi, lo1) else (lo, hi1) in
        Ok (vnan :: sar_loop AF AFMAX (mkSar trend ep sar AF hi lo) (tl high) (tl low))
    | _, _ => Raise IndexError
    end.

  (** sar.py:37-40.  The buffer argument has the minimum period of [high] and only NaN. *)
  Definition sar (AF AFMAX : V) (high low : line) : res line :=
    s <- apply_ (fun h args => match args with l :: _ => sarize AF AFMAX h l | [] => Raise TypeError end)
           high [low] ;;
    Ok (period_ s 1 false None).

  (** sarext.py:71-75 parameters of the loop *)
  Record sarpar := mkSarPar { AFL : V; AFXL : V; AFS : V; AFXS : V; OFFS : V }.
  Record sarxst := mkSarx { x_trend : bool; x_ep : V; x_sar : V; x_afl : V; x_afs : V; x_hi : V; x_lo : V }.

  Definition vneg (v : V) : V := vsub v0 v.

  (** sarext.py:78-104 *)
  Definition sarx_step (P : sarpar) (st : sarxst) (hi lo : V) : sarxst * V :=
    let hi1 := x_hi st in
    let lo1 := x_lo st in
    let ep := x_ep st in
    let sar := x_sar st in
    let aflong := x_afl st in
    let afshort := x_afs st in
    if x_trend st then
      if vleb lo sar then
        let sar := vadd ep (vmul sar (OFFS P)) in
        let out := vneg sar in
        let ep := lo in
        let afshort := AFS P in
        (mkSarx false ep (pymax (pymax (vadd sar (vmul afshort (vsub ep sar))) hi) hi1) aflong afshort hi lo, out)
      else
        let '(ep', aflong') := if vltb ep hi then (hi, pymin (vadd aflong (AFL P)) (AFXL P)) else (ep, aflong) in
        (mkSarx true ep' (pymin (pymin (vadd sar (vmul aflong' (vsub ep' sar))) lo) lo1) aflong' afshort hi lo, sar)
    else
      if vleb sar hi then
        let sar := vsub ep (vmul sar (OFFS P)) in
        let ep := hi in
        let aflong := AFL P in
        (mkSarx true ep (pymin (pymin (vadd sar (vmul aflong (vsub ep sar))) lo) lo1) aflong afshort hi lo, sar)
      else
        let '(ep', afshort') := if vltb lo ep then (lo, pymin (vadd afshort (AFS P)) (AFXS P)) else (ep, afshort) in
        (mkSarx false ep' (pymax (pymax (vadd sar (vmul afshort' (vsub ep' sar))) hi) hi1) aflong afshort' hi lo, vneg sar).

  Fixpoint sarx_loop (P : sarpar) (st : sarxst) (high low : list V) : list V :=
    match high, low with
    | hi :: high', lo :: low' =>
        let '(st', v) := sarx_step P st hi lo in v :: sarx_loop P st' high' low'
    | _, _ => []
    end.

  (** sarext.py:50-106; [startval] 0 selects the automatic start *)
  Definition sarxize (startval : V) (P : sarpar) (high low : list V) : res (list V) :=
    match high, low with
    | hi1 :: (hi :: _) as h, lo1 :: (lo :: _) as l =>
        let '(trend, ep, sar) :=
          if veqb startval v0 then
            let trend := start_trend hi1 lo1 hi lo in
            if trend then (trend, hi, lo1) else (trend, lo, hi1)
          else if vltb v0 startval then (true, hi, startval)
          else (false, lo, vabs startval) in
        Ok (vnan :: sarx_loop P (mkSarx trend ep sar (AFL P) (AFS P) hi lo) (tl high) (tl low))
    | _, _ => Raise IndexError
    end.

  (** sarext.py:45-48 *)
  Definition sarext (startval : V) (P : sarpar) (high low : line) : res line :=
    s <- apply_ (fun h args => match args with l :: _ => sarxize startval P h l | [] => Raise TypeError end)
           high [low] ;;
    Ok (period_ s 1 false None).
End Sar.
