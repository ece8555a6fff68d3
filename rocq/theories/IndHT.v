(** Models of the Hilbert transform indicators (btalib/indicators/ht_dcperiod.py, ht_phasor.py,
    ht_dcphase.py, ht_sine.py, ht_trendline.py, ht_trendmode.py).

    The loops of the six files share, word for word, the lines that measure the dominant
    cycle; they are modelled once ([ht_step]). *)
From Coq Require Import ZArith QArith List Bool.
From Verif Require Import Num Series Line Apply IndSar.
Import ListNotations.
Set Implicit Arguments.

(** collections.deque([0.0] * 7, maxlen=7): oldest value first (ht_dcperiod.py:68-70) *)
Record deque7 (V : Type) := D7 { x0 : V; x1 : V; x2 : V; x3 : V; x4 : V; x5 : V; x6 : V }.
Arguments D7 {V}.

Definition dappend {V} (d : deque7 V) (x : V) : deque7 V :=
  D7 (x1 d) (x2 d) (x3 d) (x4 d) (x5 d) (x6 d) x.

Section HT.
  Context {V : Type} {N : Num V} {T : NumT V}.
  Notation line := (line V).

  Definition dzero : deque7 V := D7 v0 v0 v0 v0 v0 v0 v0.

  (** ht_dcperiod.py:14 *)
  Definition RAD2DEG : V := vdiv (vofZ 180) (vmul (vofZ 4) (vatan (vofZ 1))).
  (** ht_dcphase.py:15, ht_sine.py:15 *)
  Definition DEG2RADBY360 : V := vdiv (vofZ 360) RAD2DEG.
  Definition DEG2RAD : V := vdiv (vofZ 1) RAD2DEG.

  (** ht_dcperiod.py:55-57 _ht at the newest position of a window of 7 values *)
  Definition ht_ (x : deque7 V) (adj : V) : V :=
    vmul (vsub (vsub (vadd (vmul (vofQ (962 # 10000)) (x6 x)) (vmul (vofQ (5769 # 10000)) (x4 x)))
                     (vmul (vofQ (5769 # 10000)) (x2 x)))
               (vmul (vofQ (962 # 10000)) (x0 x))) adj.

  (** variables of the loop.  [h_price] holds price[i-6 .. i]: the array price is 0.0 before
      the first turn (ht_dcperiod.py:74) and LOOKSTART >= 6, so this window starts as
      zeros, like the deques.  ht_phasor.py keeps i1 and q1 in arrays filled with 0.0
      instead of deques; the last 7 positions are the same. *)
  Record htst := mkHt {
    h_price : deque7 V; h_det : deque7 V; h_i1 : deque7 V; h_q1 : deque7 V;
    h_i2 : V; h_q2 : V; h_re : V; h_im : V; h_period : V; h_sp : V
  }.

  (** ht_dcperiod.py:77 *)
  Definition ht0 : htst := mkHt dzero dzero dzero dzero v0 v0 v0 v0 v0 v0.

  (** truth value of a float *)
  Definition truthy (v : V) : bool := negb (veqb v v0).

  (** [a*x + b*y] with decimal literals a, b *)
  Definition mix (a : Q) (x : V) (b : Q) (y : V) : V := vadd (vmul (vofQ a) x) (vmul (vofQ b) y).

  (** ht_dcperiod.py:108 *)
  Definition raw_period (re im period1 : V) : V :=
    if truthy re && truthy im then vdiv (vofZ 360) (vmul RAD2DEG (vatan (vdiv im re))) else period1.

  (** ht_dcperiod.py:109-112 *)
  Definition limit_period (period period1 : V) : V :=
    pymin (pymax (pymax (pymin period (vmul period1 (vofQ (15 # 10))))
                        (vmul period1 (vofQ (67 # 100)))) (vofZ 6)) (vofZ 50).

  (** ht_dcperiod.py:80-115 one turn of the loop (ht_phasor.py:81-112 without the last
      line; ht_dcphase.py:83-118, ht_sine.py:86-121, ht_trendline.py:88-123,
      ht_trendmode.py:92-127) *)
  Definition ht_step (st : htst) (p : V) : htst :=
    let adjperiod := vadd (vmul (vofQ (75 # 1000)) (h_period st)) (vofQ (54 # 100)) in
    let price := dappend (h_price st) p in
    let det := dappend (h_det st) (ht_ price adjperiod) in
    let i10 := x3 det in
    let q10 := ht_ det adjperiod in
    let i1 := dappend (h_i1 st) i10 in
    let q1 := dappend (h_q1 st) q10 in
    let ji := ht_ i1 adjperiod in
    let jq := ht_ q1 adjperiod in
    let i21 := h_i2 st in
    let q21 := h_q2 st in
    let i2 := mix (2 # 10) (vsub i10 jq) (8 # 10) i21 in
    let q2 := mix (2 # 10) (vadd q10 ji) (8 # 10) q21 in
    let re0 := vadd (vmul i2 i21) (vmul q2 q21) in
    let im0 := vsub (vmul i2 q21) (vmul q2 i21) in
    let re := mix (2 # 10) re0 (8 # 10) (h_re st) in
    let im := mix (2 # 10) im0 (8 # 10) (h_im st) in
    let period1 := h_period st in
    let period := limit_period (raw_period re im period1) period1 in
    let period := mix (2 # 10) period (8 # 10) period1 in
    let sp := mix (33 # 100) period (67 # 100) (h_sp st) in
    mkHt price det i1 q1 i2 q2 re im period sp.

  (** the input price: ht_dcperiod.py:40-42 (and the same line of the other files).  With one
      input the average of high and low is not taken. *)
  Inductive ht_in := HLine (i0 : line) | HHighLow (high low : line).

  Definition ht_p0 (inp : ht_in) : line :=
    match inp with
    | HLine i0 => i0
    | HHighLow high low => binop_s vdiv (ladd high low) (vofZ 2)
    end.

  (** ht_dcperiod.py:45-47 (ht_phasor.py:45 multiplies the last term by 1.0) *)
  Definition ht_p0smooth (p0 : line) : line :=
    period_ (binop_s vdiv
               (ladd (ladd (ladd (rbinop_s vmul (vofZ 4) p0)
                                 (rbinop_s vmul (vofZ 3) (at_ago p0 (-1))))
                           (rbinop_s vmul (vofZ 2) (at_ago p0 (-2))))
                     (at_ago p0 (-3)))
               (vofZ 10))
            3 false None.

  (** ht_dcperiod.py:59-118.  The buffer is 0.0 where the loop does not write. *)
  Fixpoint dcp_loop (st : htst) (price : list V) : list V :=
    match price with
    | [] => []
    | p :: price' => let st' := ht_step st p in h_sp st' :: dcp_loop st' price'
    end.
  Definition buffered (start : nat) (price : list V) (r : list V) : list V :=
    repeat v0 (Nat.min start (length price)) ++ r.

  Definition dcperiodize (price : list V) : list V :=
    buffered 6 price (dcp_loop ht0 (skipn 6 price)).

  (** ht_dcperiod.py:40-53.  The buffer argument of _apply has the index and the minimum
      period of p0smooth and is not passed on. *)
  Definition ht_dcperiod (inp : ht_in) : res line :=
    let p0smooth := ht_p0smooth (ht_p0 inp) in
    d <- apply_ (fun price _ => Ok (dcperiodize price)) p0smooth [filled p0smooth v0] ;;
    Ok (period_ d 26 false (Some vnan)).

  (** ht_phasor.py:63-115 *)
  Fixpoint phasor_loop (st : htst) (price : list V) : list (V * V) :=
    match price with
    | [] => []
    | p :: price' => let st' := ht_step st p in (x6 (h_i1 st'), x6 (h_q1 st')) :: phasor_loop st' price'
    end.
  Definition phasorize (price : list V) : list (list V) :=
    let r := phasor_loop ht0 (skipn 6 price) in
    [buffered 6 price (map fst r); buffered 6 price (map snd r)].

  (** ht_phasor.py:40-57 *)
  Definition ht_phasor (inp : ht_in) : res (line * line) :=
    let p0smooth := ht_p0smooth (ht_p0 inp) in
    ls <- applymulti_ (fun price _ => Ok (phasorize price)) p0smooth
            [filled p0smooth v0; filled p0smooth v0] ;;
    match ls with
    | [i1; q1] => Ok (period_ i1 26 false (Some vnan), period_ q1 26 false (Some vnan))
    | _ => Raise ValueError              (* i1, q1 = ...: wrong number of values *)
    end.

  (** int(x).  NaN raises ValueError (an infinity would raise OverflowError; the smoothed
      period is never infinite). *)
  Definition pyint (v : V) : res Z :=
    match vtrunc v with Some z => Ok z | None => Raise ValueError end.

  (** ht_dcphase.py:122-127: sums over the last [dcperiod] prices *)
  Fixpoint dft_from (price : list V) (i dcperiod : Z) (dcis : list nat) (realpart imagpart : V) : res (V * V) :=
    match dcis with
    | [] => Ok (realpart, imagpart)
    | dci :: dcis' =>
        let x := vdiv (vmul (vofZ (Z.of_nat dci)) DEG2RADBY360) (vofZ dcperiod) in
        y <- getitem price (i - Z.of_nat dci) ;;
        dft_from price i dcperiod dcis' (vadd realpart (vmul (vsin x) y)) (vadd imagpart (vmul (vcos x) y))
    end.
  Definition dft (price : list V) (i dcperiod : Z) : res (V * V) :=
    dft_from price i dcperiod (seq 0 (Z.to_nat dcperiod)) v0 v0.

  (** ht_dcphase.py:129-145 *)
  Definition next_phase (dcphase realpart imagpart smoothperiod : V) : V :=
    let abs_imagpart := vabs imagpart in
    let dcphase :=
      if vltb v0 abs_imagpart then vmul (vatan (vdiv realpart imagpart)) RAD2DEG
      else if vleb abs_imagpart (vofQ (1 # 100)) then
        (if vltb realpart v0 then vsub dcphase (vofZ 90)
         else if vltb v0 realpart then vadd dcphase (vofZ 90) else dcphase)
      else dcphase in
    let dcphase := vadd dcphase (vofZ 90) in
    let dcphase := vadd dcphase (vdiv (vofZ 360) smoothperiod) in
    let dcphase := if vltb imagpart v0 then vadd dcphase (vofZ 180) else dcphase in
    if vltb (vofZ 315) dcphase then vsub dcphase (vofZ 360) else dcphase.

  (** ht_dcphase.py:118-145; [price] is the whole array, [i] the position of the turn *)
  Definition phase_at (price : list V) (i : nat) (smoothperiod dcphase : V) : res V :=
    dcperiod <- pyint (vadd smoothperiod (vofQ (5 # 10))) ;;
    parts <- dft price (Z.of_nat i) dcperiod ;;
    Ok (next_phase dcphase (fst parts) (snd parts) smoothperiod).

  (** ht_dcphase.py:82-147: the turns from position [i] on *)
  Fixpoint phase_loop (price : list V) (i : nat) (st : htst) (dcphase : V) (rest : list V) : res (list V) :=
    match rest with
    | [] => Ok []
    | p :: rest' =>
        let st' := ht_step st p in
        ph <- phase_at price i (h_sp st') dcphase ;;
        r <- phase_loop price (S i) st' ph rest' ;;
        Ok (ph :: r)
    end.

  (** ht_dcphase.py:60-149: LOOKSTART = 31 *)
  Definition zeroed (start : nat) (price : list V) : list V := set_slice price 0 (Z.of_nat start) v0.

  Definition dcphasize (price : list V) : res (list V) :=
    r <- phase_loop (zeroed 31 price) 31 ht0 v0 (skipn 31 price) ;;
    Ok (buffered 31 price r).

  (** ht_dcphase.py:41-54 *)
  Definition ht_dcphase (inp : ht_in) : res line :=
    let p0smooth := ht_p0smooth (ht_p0 inp) in
    d <- apply_ (fun price _ => dcphasize price) p0smooth [filled p0smooth v0] ;;
    Ok (period_ d 57 false (Some vnan)).

  (** ht_sine.py:150-151 *)
  Definition sine_of (dcphase : V) : V := vsin (vmul dcphase DEG2RAD).
  Definition leadsine_of (dcphase : V) : V := vsin (vmul (vadd dcphase (vofZ 45)) DEG2RAD).

  (** ht_sine.py:63-153: the loop of ht_dcphase, storing the sines of the phase *)
  Definition sinize (price : list V) : res (list (list V)) :=
    r <- phase_loop (zeroed 31 price) 31 ht0 v0 (skipn 31 price) ;;
    Ok [buffered 31 price (map sine_of r); buffered 31 price (map leadsine_of r)].

  (** ht_sine.py:42-57 *)
  Definition ht_sine (inp : ht_in) : res (line * line) :=
    let p0smooth := ht_p0smooth (ht_p0 inp) in
    ls <- applymulti_ (fun price _ => sinize price) p0smooth [filled p0smooth v0; filled p0smooth v0] ;;
    match ls with
    | [s; ls] => Ok (period_ s 57 false (Some vnan), period_ ls 57 false (Some vnan))
    | _ => Raise ValueError
    end.

  (** ht_trendline.py:126-128: average of the last [dcperiod] unsmoothed prices; fsum is the
      exact sum *)
  Definition it_at (price0 : list V) (i : nat) (dcperiod : Z) : V :=
    let it0 := vsum (slice price0 (Z.of_nat i - (dcperiod - 1)) (Z.of_nat i + 1)) in
    if (0 <? dcperiod)%Z then vdiv it0 (vofZ dcperiod) else it0.

  (** ht_trendline.py:130 *)
  Definition trend4 (it0 it1 it2 it3 : V) : V :=
    vdiv (vadd (vadd (vadd (vmul (vofZ 4) it0) (vmul (vofZ 3) it1)) (vmul (vofZ 2) it2)) it3) (vofZ 10).

  (** ht_trendline.py:86-132 *)
  Fixpoint trend_loop (price0 : list V) (i : nat) (st : htst) (it1 it2 it3 : V) (rest : list V) : res (list V) :=
    match rest with
    | [] => Ok []
    | p :: rest' =>
        let st' := ht_step st p in
        dcperiod <- pyint (vadd (h_sp st') (vofQ (5 # 10))) ;;
        let it0 := it_at price0 i dcperiod in
        r <- trend_loop price0 (S i) st' it0 it1 it2 rest' ;;
        Ok (trend4 it0 it1 it2 it3 :: r)
    end.

  (** ht_trendline.py:63-134 *)
  Definition trendlinize (price price0 : list V) : res (list V) :=
    r <- trend_loop price0 31 ht0 v0 v0 v0 (skipn 31 price) ;;
    Ok (buffered 31 price r).

  (** ht_trendline.py:40-57 *)
  Definition ht_trendline (inp : ht_in) : res line :=
    let p0 := ht_p0 inp in
    let p0smooth := ht_p0smooth p0 in
    d <- apply_ (fun price args => match args with
                                   | price0 :: _ => trendlinize price price0
                                   | [] => Raise TypeError
                                   end) p0smooth [p0; filled p0smooth v0] ;;
    Ok (period_ d 57 false (Some vnan)).

  (** ht_trendmode.py:86-88 further variables of the loop *)
  Record tmst := mkTm {
    t_it1 : V; t_it2 : V; t_it3 : V; t_days : Z; t_phase : V; t_sine : V; t_lead : V
  }.
  Definition tm0 : tmst := mkTm v0 v0 v0 0 v0 v0 v0.

  (** ht_trendmode.py:174-193: trend and the new daysintrend *)
  Definition mode_at (sine leadsine sine1 leadsine1 smoothperiod dcphase dcphase1 trendline p : V) (days : Z)
    : V * Z :=
    let crossed := (vltb leadsine sine && vleb sine1 leadsine1) ||
                   (vltb sine leadsine && vleb leadsine1 sine1) in
    let '(trend, days) := if crossed then (false, 0%Z) else (true, days) in
    let days := (days + 1)%Z in
    let trend := if vltb (vofZ days) (vmul (vofQ (5 # 10)) smoothperiod) then false else trend in
    let trend :=
      if truthy smoothperiod then
        let phdiff := vsub dcphase dcphase1 in
        let sm360 := vdiv (vofZ 360) smoothperiod in
        if vltb (vmul (vofQ (67 # 100)) sm360) phdiff && vltb phdiff (vmul (vofQ (15 # 10)) sm360)
        then false else trend
      else trend in
    let trend :=
      if truthy trendline then
        if vleb (vofQ (15 # 1000)) (vabs (vsub (vdiv p trendline) (vofZ 1))) then true else trend
      else trend in
    (vofbool trend, days).

  (** ht_trendmode.py:129-195 the rest of one turn *)
  Definition tm_step (price price0 : list V) (i : nat) (smoothperiod p : V) (s : tmst) : res (tmst * V) :=
    ph <- phase_at price i smoothperiod (t_phase s) ;;
    dcperiod <- pyint (vadd smoothperiod (vofQ (5 # 10))) ;;
    let sine := sine_of ph in
    let leadsine := leadsine_of ph in
    let it0 := it_at price0 i dcperiod in
    let trendline := trend4 it0 (t_it1 s) (t_it2 s) (t_it3 s) in
    let '(m, days) := mode_at sine leadsine (t_sine s) (t_lead s) smoothperiod ph (t_phase s) trendline p (t_days s) in
    Ok (mkTm it0 (t_it1 s) (t_it2 s) days ph sine leadsine, m).

  Fixpoint tm_loop (price price0 : list V) (i : nat) (st : htst) (s : tmst) (rest : list V) : res (list V) :=
    match rest with
    | [] => Ok []
    | p :: rest' =>
        let st' := ht_step st p in
        sm <- tm_step price price0 i (h_sp st') p s ;;
        r <- tm_loop price price0 (S i) st' (fst sm) rest' ;;
        Ok (snd sm :: r)
    end.

  (** ht_trendmode.py:65-197.  (Without raw=True the loop indexes Series; their index is not
      made of integers, so the access is by position as well.) *)
  Definition trendmodize (price price0 : list V) : res (list V) :=
    r <- tm_loop (zeroed 31 price) price0 31 ht0 tm0 (skipn 31 price) ;;
    Ok (buffered 31 price r).

  (** ht_trendmode.py:42-59 *)
  Definition ht_trendmode (inp : ht_in) : res line :=
    let p0 := ht_p0 inp in
    let p0smooth := ht_p0smooth p0 in
    d <- apply_ (fun price args => match args with
                                   | price0 :: _ => trendmodize price price0
                                   | [] => Raise TypeError
                                   end) p0smooth [p0; filled p0smooth v0] ;;
    Ok (period_ d 57 false (Some vnan)).
End HT.
Arguments htst : clear implicits.
Arguments ht_in : clear implicits.
Arguments tmst : clear implicits.
