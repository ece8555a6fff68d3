(** Property theorems C01-C09: the line operators.

    Vocabulary: Spec.v ([feeds], [delivers], [win], [extends], [usable]) and, for
    C04/C05, the expression language of Expr.v.  Models: Series.v, Line.v. *)
From Coq Require Import ZArith QArith List Bool Reals Lra Lia.
From Verif Require Import Num Series Line Spec RSpec LineFacts OpFacts Expr WarmFacts
  PropLinesFacts.
Import ListNotations.

(** two sample input lines (rationals): one raw, one that starts at its third bar *)
Definition exA : line (ext Q) := raw (map Fin [1; 5; 2; 4; 3]%Q).
Definition exB : line (ext Q) := mkLine 3 [Fin 7; NaN; Fin 1; Fin 0; PInf]%Q.

Example exA_feeds : feeds exA 5 0 (fun i => nth i (lser exA) NaN).
Proof. exact (every_line_feeds _ exA ltac:(vm_compute; discriminate)). Qed.
Example exB_feeds : feeds exB 5 2 (fun i => nth i (lser exB) NaN).
Proof. exact (every_line_feeds _ exB ltac:(vm_compute; discriminate)). Qed.

(** C01: the result of [a op b]. *)
Theorem C01_elementwise :
  forall (V : Type) (N : Num V) (op : V -> V -> V) (a b : line V) n ka kb f g,
    feeds a n ka f -> feeds b n kb g ->
    delivers (binop op a b) n (Nat.max ka kb) (fun i => op (f i) (g i)).
Proof. exact @binop_delivers. Qed.
Print Assumptions C01_elementwise.
Example C01_elementwise_met := C01_elementwise _ _ vsub _ _ 5 0 2 _ _ exA_feeds exB_feeds.

Theorem C01_scalar_right :
  forall (V : Type) (N : Num V) (op : V -> V -> V) (a : line V) c n k f,
    feeds a n k f -> delivers (binop_s op a c) n k (fun i => op (f i) c).
Proof. exact @binop_s_delivers. Qed.
Print Assumptions C01_scalar_right.
Example C01_scalar_right_met := C01_scalar_right _ _ vdiv _ (Fin 2%Q) 5 2 _ exB_feeds.

Theorem C01_scalar_left :
  forall (V : Type) (N : Num V) (op : V -> V -> V) (a : line V) c n k f,
    feeds a n k f -> delivers (rbinop_s op c a) n k (fun i => op c (f i)).
Proof. exact @rbinop_s_delivers. Qed.
Print Assumptions C01_scalar_left.
Example C01_scalar_left_met := C01_scalar_left _ _ vdiv _ (Fin 2%Q) 5 2 _ exB_feeds.

(** comparisons; their warm-up bars hold True, not NaN ([bdelivers]) *)
Theorem C01_compare :
  forall (V : Type) (op : V -> V -> bool) (a b : line V) n ka kb f g,
    feeds a n ka f -> feeds b n kb g ->
    bdelivers (cmpop op a b) n (Nat.max ka kb) (fun i => op (f i) (g i)).
Proof. exact @cmpop_bdelivers. Qed.
Print Assumptions C01_compare.
Example C01_compare_met := C01_compare _ vltb _ _ 5 0 2 _ _ exA_feeds exB_feeds.

Theorem C01_compare_scalar :
  forall (V : Type) (op : V -> V -> bool) (a : line V) c n k f,
    feeds a n k f -> bdelivers (cmpop_s op a c) n k (fun i => op (f i) c).
Proof. exact @cmpop_s_bdelivers. Qed.
Print Assumptions C01_compare_scalar.

Example C01_run :
  lsub exA exB = mkLine 3 [NaN; NaN; Fin 1; Fin 4; NInf]%Q /\
  ldiv exA exB = mkLine 3 [NaN; NaN; Fin 2; PInf; Fin 0]%Q /\
  rbinop_s vsub (vofZ 10) exA = mkLine 1 (map Fin [9; 5; 8; 6; 7]%Q) /\
  cmpop vltb exA exB = mkBLine 3 [true; true; false; false; true].
Proof. vm_compute. repeat split; reflexivity. Qed.

(** C02: look-backs. *)
Theorem C02_lookback :
  forall (V : Type) (N : Num V) (a : line V) n k p f,
    feeds a n k f -> (1 <= p)%nat ->
    delivers (at_ago a (- Z.of_nat p)) n (k + p) (fun i => f (i - p)%nat).
Proof. exact @at_ago_delivers. Qed.
Print Assumptions C02_lookback.
Example C02_lookback_met := C02_lookback _ _ _ 5 2 1 _ exB_feeds ltac:(lia).

(** a look-back by 0 bars is not the line: [line(0)] is a line of NaN *)
Theorem C02_lookback_zero_refuted :
  forall (V : Type) (N : Num V) (a : line V) n k f,
    feeds a n k f -> delivers (at_ago a (- Z.of_nat 0)) n k (fun _ => vnan).
Proof. exact @at_ago_zero. Qed.
Print Assumptions C02_lookback_zero_refuted.
Example C02_lookback_zero_refuted_met := C02_lookback_zero_refuted _ _ _ 5 2 _ exB_feeds.

Theorem C02_shift :
  forall (V : Type) (N : Num V) (a : line V) n k p f,
    feeds a n k f -> delivers (shift a (Z.of_nat p)) n (k + p) (fun i => f (i - p)%nat).
Proof. exact @shift_delivers. Qed.
Print Assumptions C02_shift.
Example C02_shift_met := C02_shift _ _ _ 5 2 1 _ exB_feeds.

(** [nan_r vsub]: x - NaN = NaN, true of IEEE numbers and of [ext F] *)
Theorem C02_diff :
  forall (V : Type) (N : Num V) (a : line V) n k p f,
    nan_r vsub ->
    feeds a n k f ->
    delivers (diff a (Z.of_nat p)) n (k + p) (fun i => vsub (f i) (f (i - p)%nat)).
Proof. exact @diff_delivers. Qed.
Print Assumptions C02_diff.
Example C02_diff_met := C02_diff _ _ _ 5 2 1 _ (proj1 (nan_laws_ext BaseQ)) exB_feeds.

Theorem C02_pct_change :
  forall (V : Type) (N : Num V) (a : line V) n k p f,
    (forall x : V, vdiv x vnan = vnan) -> vsub vnan v1 = (vnan : V) ->
    (forall i, (k <= i < n)%nat -> visnan (f i) = false) ->
    feeds a n k f ->
    delivers (pct_change a (Z.of_nat p)) n (k + p)
      (fun i => vsub (vdiv (f i) (f (i - p)%nat)) v1).
Proof. exact @pct_change_delivers. Qed.
Print Assumptions C02_pct_change.

Example C02_nan_laws : nan_laws (NumExt (F:=Q)) /\ nan_laws (NumExt (F:=R)).
Proof. split; apply nan_laws_ext. Qed.
Example C02_run :
  diff exA 2 = mkLine 3 [NaN; NaN; Fin 1; Fin (-1); Fin 1]%Q /\
  at_ago exB (-1) = mkLine 4 [NaN; NaN; NaN; Fin 1; Fin 0]%Q /\
  pct_change exA 1 = mkLine 2 [NaN; Fin 4; Fin (-3#5); Fin 1; Fin (-1#4)]%Q.
Proof. vm_compute. repeat split; reflexivity. Qed.

(** C03: a window containing only usable numbers yields the window function of exactly the
    last [w] values; any NaN or infinity in it yields NaN. *)
Theorem C03_rolling :
  forall (V : Type) (N : Num V) w (G : list V -> V) (a : line V) n k f h,
    visnan (vnan : V) = true ->
    (1 <= w)%nat -> feeds a n k f ->
    (forall i, (k + w - 1 <= i < n)%nat ->
       (forall v, In v (win f i w) -> usable v) -> h i = G (win f i w)) ->
    (forall i, (k + w - 1 <= i < n)%nat ->
       (exists v, In v (win f i w) /\ ~ usable v) -> h i = vnan) ->
    delivers (rolling w G a) n (k + w - 1) h.
Proof. exact @rolling_full. Qed.
Print Assumptions C03_rolling.

Example C03_run :
  rolling 2 win_sum exA = mkLine 2 [NaN; Fin 6; Fin 7; Fin 6; Fin 7]%Q /\
  rolling 2 win_max exB = mkLine 4 [NaN; NaN; NaN; Fin 1; NaN]%Q /\
  rolling 9 win_sum exA = mkLine 9 [NaN; NaN; NaN; NaN; NaN]%Q.
Proof. vm_compute. repeat split; reflexivity. Qed.

(** C04: no repainting.  If the calculation succeeds on the short histories it succeeds on
    the extended ones, with the same values on all old bars and the same minimum period. *)
Theorem C04_no_repaint :
  forall (V : Type) (N : Num V) (env env' : list (line V)) n n' (e : expr V) l,
    (n <= n')%nat ->
    Forall2 (fun x x' => (1 <= lmp x)%Z /\ length (lser x) = n /\ length (lser x') = n' /\
                         extends x x') env env' ->
    eval env e = Ok l ->
    exists l', eval env' e = Ok l' /\ extends l l'.
Proof. exact @no_repaint. Qed.
Print Assumptions C04_no_repaint.

(** an oscillator-like expression mixing most operators *)
Definition exE : expr (ext Q) :=
  EBin vdiv (EBin vsub (EIn 0) (EEma 1 SEED_AVG (EIn 0)))
            (ERBinS vadd (vofZ 1) (ERoll 1 win_max (EMap vabs (EDiff (EIn 0) 1)))).
Example C04_run :
  eval [exA] exE = Ok (mkLine 3 [NaN; NaN; Fin (-1#15); Fin (5#36); Fin (-4#81)])%Q /\
  exists u v, eval [raw (map Fin [1; 5; 2; 4; 3; 9; 1]%Q)] exE
  = Ok (mkLine 3 [NaN; NaN; Fin (-1#15); Fin (5#36); Fin (-4#81); u; v])%Q.
Proof. vm_compute. split; [|do 2 eexists]; reflexivity. Qed.

(** C05: minimum period and warm-up. *)
Theorem C05_minperiod :
  forall (V : Type) (N : Num V) (env : list (line V)) n (mps : nat -> Z) (e : expr V) l,
    nan_laws N ->
    (forall v x, nth_error env v = Some x ->
       lmp x = mps v /\ (1 <= lmp x)%Z /\ length (lser x) = n) ->
    eval env e = Ok l ->
    lmp l = look mps e /\ length (lser l) = n /\
    (proper e = true -> forall i, (Z.of_nat i < lmp l - 1)%Z -> (i < n)%nat ->
        nth_error (lser l) i = Some vnan).
Proof. exact @minperiod_exact. Qed.
Print Assumptions C05_minperiod.

Example C05_run : look (fun _ => 1%Z) exE = 3%Z /\ proper exE = true.
Proof. split; reflexivity. Qed.

(** the exception made by [proper]: a bare unseeded ewm (the [ewma] indicator) declares a
    minimum period of span but already holds a number at its first bar *)
Theorem C05_unseeded_ewm_refuted :
  forall (V : Type) (N : Num V) (x : V) s p adj,
    lmp (ewm_mean (S p) adj (raw (x :: s))) = Z.of_nat (S p) /\
    nth_error (lser (ewm_mean (S p) adj (raw (x :: s)))) 0 = Some (prep x).
Proof. exact @unseeded_ewm_early. Qed.
Print Assumptions C05_unseeded_ewm_refuted.

Example C05_unseeded_run :
  ewm_mean 3 false exA = mkLine 3 [Fin 1; Fin 3; Fin (5#2); Fin (13#4); Fin (25#8)]%Q.
Proof. vm_compute. reflexivity. Qed.

(** C06: reuse of a rolling object.  The first call and the values of the second are as
    for fresh objects; the minimum period of the second call is [w - 1] too large (so the
    property fails for every w >= 2). *)
Theorem C06_reuse_partial :
  forall (V : Type) (N : Num V) w (G H : list V -> V) (a : line V) n k f,
    (1 <= w)%nat -> feeds a n k f ->
    let o := mf_plain a (Some (Z.of_nat w)) in
    let c1 := mf_call o (fun t => Ok (ser_rolling w G t)) in
    let c2 := mf_call (fst c1) (fun t => Ok (ser_rolling w H t)) in
    snd c1 = Ok (rolling w G a) /\
    exists l2, snd c2 = Ok l2 /\ lser l2 = lser (rolling w H a) /\
               lmp l2 = (lmp (rolling w H a) + (Z.of_nat w - 1))%Z.
Proof. exact @reuse_values. Qed.
Print Assumptions C06_reuse_partial.

Example C06_run :
  let c1 := mf_call (mf_plain exA (Some 3%Z)) (fun t => Ok (ser_rolling 3 win_max t)) in
  let c2 := mf_call (fst c1) (fun t => Ok (ser_rolling 3 win_min t)) in
  snd c2 = Ok (mkLine 5 [NaN; NaN; Fin 1; Fin 2; Fin 2]%Q) /\
  rolling 3 win_min exA = mkLine 3 [NaN; NaN; Fin 1; Fin 2; Fin 2]%Q.
Proof. vm_compute. split; reflexivity. Qed.

(** C07 is false: the positional spellings of diff/shift raise, the keyword one works; the
    positional spelling of rolling gives the same values but does not count the window in
    the minimum period. *)
Theorem C07_positional_refuted :
  forall (V : Type) (N : Num V) w (G : list V -> V) (a : line V) n k f p,
    (2 <= w)%nat -> feeds a n k f ->
    stdop_p ser_diff a (Some p) None = Raise TypeError /\
    stdop_p ser_shift a (Some p) None = Raise TypeError /\
    stdop_p ser_diff a None (Some p) = Ok (diff a p) /\
    exists l, snd (mf_call (mf_plain a None) (fun t => Ok (ser_rolling w G t))) = Ok l /\
              lser l = lser (rolling w G a) /\ lmp l = lmp a /\
              lmp (rolling w G a) = (lmp a + (Z.of_nat w - 1))%Z.
Proof. exact @positional. Qed.
Print Assumptions C07_positional_refuted.
Example C07_positional_refuted_met := C07_positional_refuted (ext Q) _ 2 win_max exB 5 2 _ 1%Z ltac:(lia) exB_feeds.

(** C08 holds for look-aheads by at most the warm-up of the line ... *)
Theorem C08_ahead_partial :
  forall (V : Type) (N : Num V) (a : line V) (h : V -> V) n k p f,
    feeds a n k f -> (1 <= p <= k)%nat ->
    forall i, (k <= i)%nat -> (i + p < n)%nat ->
      nth_error (lser (mapop h (at_ago a (Z.of_nat p)))) i = Some (h (f (i + p)%nat)).
Proof. exact @ahead_map. Qed.
Print Assumptions C08_ahead_partial.
Example C08_ahead_partial_met := C08_ahead_partial _ _ _ vabs 5 2 1 _ exB_feeds ltac:(lia).

(** ... and fails for every longer one: all but the last [p - k] bars become NaN. *)
Theorem C08_ahead_refuted :
  forall (V : Type) (N : Num V) (a : line V) (h : V -> V) n k p f,
    feeds a n k f -> (k + 1 <= p)%nat -> (p - k < n)%nat ->
    forall i, (i < n - (p - k))%nat ->
      nth_error (lser (mapop h (at_ago a (Z.of_nat p)))) i = Some vnan.
Proof. exact @ahead_broken. Qed.
Print Assumptions C08_ahead_refuted.

Example C08_run :
  at_ago exA 2 = mkLine (-1) [Fin 2; Fin 4; Fin 3; NaN; NaN]%Q /\
  labs (at_ago exA 2) = mkLine (-1) [NaN; NaN; NaN; NaN; NaN]%Q /\
  labs (at_ago exB 1) = mkLine 2 [NaN; NaN; Fin 0; PInf; NaN]%Q.
Proof. vm_compute. repeat split; reflexivity. Qed.

(** C09: the two filter implementations. *)
Theorem C09_filters_agree :
  forall (al : R) (be : option (ext R)) (s : list (ext R)),
    al <> 0%R -> lfilter (Fin al) be s = mean_exp (Fin al) be s.
Proof. exact lfilter_mean_exp. Qed.
Print Assumptions C09_filters_agree.

Example C09_run :
  lfilter (Fin (1#2)) (Some (Fin 2)) (lser exA) = mean_exp (Fin (1#2)) (Some (Fin 2)) (lser exA)
  /\ mean_exp (Fin (1#2)) (Some (Fin 2)) (lser exA) = map Fin [1; 9#2; 10; 22; 91#2]%Q.
Proof. vm_compute. split; reflexivity. Qed.
