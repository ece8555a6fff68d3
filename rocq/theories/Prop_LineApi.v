(** Property theorems C97 to C102: methods of a line that reduce, cut or expand it, and histories that are too short.
    Models: LineApi.v, Strict.v; vocabulary: Spec.v, RSpec.v, LineApiSpec.v. *)
From Coq Require Import ZArith QArith List Bool Reals Lra Lia Permutation.
From Verif Require Import Num Series Line Spec RSpec LineFacts OpFacts Expr WarmFacts PropLinesFacts LineApi LineApiSpec
  LineApiFacts Strict StrictFacts PropLineApiFacts.
Import ListNotations.

(** a line of five bars that starts at its third one; what it holds before is not NaN *)
Definition demo : line (ext R) := mkLine 3 (map Fin [100; 100; 4; 1; 7])%R.
Definition demo_x (i : nat) : R := nth i [100; 100; 4; 1; 7]%R 0%R.
Example demo_feeds : feeds demo 5 2 (fin demo_x).
Proof.
  split; [reflexivity|]. split; [reflexivity|]. intros i Hi.
  do 5 (destruct i as [|i]; [reflexivity|]). lia.
Qed.
Definition demoQ : line (ext Q) := mkLine 3 (map Fin [100; 100; 4; 1; 7])%Q.
Definition demoB : bline := mkBLine 3 [true; true; false; false; true].
Example demoB_feeds : bfeeds demoB 5 2 (fun i => nth i (bser demoB) true).
Proof.
  split; [reflexivity|]. split; [reflexivity|]. intros i Hi.
  do 5 (destruct i as [|i]; [reflexivity|]). lia.
Qed.

(** ** C97: a reduction sees the bars from the minimum period on, and only these *)
Theorem C97_reduction :
  forall (V A : Type) (F : list V -> A) (a : line V) n k f,
    feeds a n k f -> reduce F a = F (delivered f k n).
Proof. exact @reduce_feeds. Qed.
Print Assumptions C97_reduction.
(** with a second line both are cut at the larger minimum period *)
Theorem C97_reduction2 :
  forall (V A : Type) (F : list V -> list V -> A) (a b : line V) n ka kb f g,
    feeds a n ka f -> feeds b n kb g ->
    reduce2 F a b = F (delivered f (Nat.max ka kb) n) (delivered g (Nat.max ka kb) n).
Proof. exact @reduce2_feeds. Qed.
Print Assumptions C97_reduction2.
Theorem C97_sum : forall a n k x, feeds a n k (fin x) -> line_sum a = Fin (Rsum (delivered x k n)).
Proof. exact line_sum_fin. Qed.
Print Assumptions C97_sum.
Theorem C97_mean : forall a n k x,
  feeds a n k (fin x) -> (k < n)%nat -> line_mean a = Fin (Rmean (delivered x k n)).
Proof. exact line_mean_fin. Qed.
Print Assumptions C97_mean.
Theorem C97_max : forall a n k x,
  feeds a n k (fin x) -> (k < n)%nat -> exists m, line_max a = Fin m /\ is_max m (delivered x k n).
Proof. exact line_max_fin. Qed.
Print Assumptions C97_max.
Theorem C97_min : forall a n k x,
  feeds a n k (fin x) -> (k < n)%nat -> exists m, line_min a = Fin m /\ is_min m (delivered x k n).
Proof. exact line_min_fin. Qed.
Print Assumptions C97_min.
Theorem C97_count : forall (V : Type) (N : Num V) (a : line V) n k f,
  feeds a n k f -> line_count a = number_of (fun i => negb (visnan (f i))) k n.
Proof. exact @line_count_feeds. Qed.
Print Assumptions C97_count.
Theorem C97_dot : forall a b n ka kb x y,
  feeds a n ka (fin x) -> feeds b n kb (fin y) ->
  line_dot a b = Fin (Rdot (delivered x (Nat.max ka kb) n) (delivered y (Nat.max ka kb) n)).
Proof. exact line_dot_fin. Qed.
Print Assumptions C97_dot.
Theorem C97_equals : forall a b n ka kb x y,
  feeds a n ka (fin x) -> feeds b n kb (fin y) ->
  (line_equals a b = true <-> forall i, (Nat.max ka kb <= i < n)%nat -> x i = y i).
Proof. exact line_equals_fin. Qed.
Print Assumptions C97_equals.
(** the True values a comparison holds before its minimum period do not count *)
Theorem C97_all : forall b n k g,
  bfeeds b n k g -> (line_all b = true <-> forall i, (k <= i < n)%nat -> g i = true).
Proof. exact @line_all_iff. Qed.
Print Assumptions C97_all.
Theorem C97_any : forall b n k g,
  bfeeds b n k g -> (line_any b = true <-> exists i, (k <= i < n)%nat /\ g i = true).
Proof. exact @line_any_iff. Qed.
Print Assumptions C97_any.
Example C97_met := (C97_sum _ _ _ _ demo_feeds, C97_mean _ _ _ _ demo_feeds ltac:(lia), C97_max _ _ _ _ demo_feeds ltac:(lia),
  C97_dot _ _ _ _ _ _ _ demo_feeds demo_feeds, C97_all _ _ _ _ demoB_feeds).
Example C97_run :
  line_sum demoQ = Fin 12%Q /\ line_max demoQ = Fin 7%Q /\ line_min demoQ = Fin 1%Q /\ line_count demoQ = 3%nat /\
  line_dot demoQ (raw (map Fin [1; 1; 1; 2; 3]%Q)) = Fin 27%Q /\ line_all demoB = false /\ line_any demoB = true /\
  line_any (mkBLine 3 [true; true; false; false; false]) = false.
Proof. vm_compute. repeat split; reflexivity. Qed.

(** ** C98: a method that gives another number of values than the line has delivered bars fails; a method with the same
    number delivers its values by position *)
Theorem C98_same_length :
  forall (V : Type) (N : Num V) F (a : line V) n k f r,
    feeds a n k f -> (k < n)%nat -> F (delivered f k n) = Ok r -> length r = (n - k)%nat ->
    exists y, std_any F a = Ok y /\ delivers y n k (fun i => nth (i - k) r vnan).
Proof. exact @std_any_ok. Qed.
Print Assumptions C98_same_length.
Theorem C98_other_length :
  forall (V : Type) (N : Num V) F (a : line V) n k f r,
    feeds a n k f -> (k < n)%nat -> F (delivered f k n) = Ok r -> length r <> (n - k)%nat ->
    std_any F a = Raise ValueError.
Proof. exact @std_any_bad. Qed.
Print Assumptions C98_other_length.
(** so head, tail, dropna and drop_duplicates work only where they change nothing, and append never *)
Theorem C98_head_refuted :
  forall (V : Type) (N : Num V) (a : line V) n k f m, feeds a n k f -> (k < n)%nat ->
    ((n - k <= m)%nat -> exists y, line_head (Z.of_nat m) a = Ok y /\ delivers y n k f) /\
    ((m < n - k)%nat -> line_head (Z.of_nat m) a = Raise ValueError).
Proof.
  exact (fun V N a n k f m H Hk => conj (fun Hm => line_head_ok H Hk Hm) (fun Hm => line_head_bad H Hm)).
Qed.
Print Assumptions C98_head_refuted.
Theorem C98_tail_refuted :
  forall (V : Type) (N : Num V) (a : line V) n k f m, feeds a n k f -> (k < n)%nat ->
    ((n - k <= m)%nat -> exists y, line_tail (Z.of_nat m) a = Ok y /\ delivers y n k f) /\
    ((m < n - k)%nat -> line_tail (Z.of_nat m) a = Raise ValueError).
Proof.
  exact (fun V N a n k f m H Hk => conj (fun Hm => line_tail_ok H Hk Hm) (fun Hm => line_tail_bad H Hm)).
Qed.
Print Assumptions C98_tail_refuted.
Theorem C98_dropna_refuted :
  forall (V : Type) (N : Num V) (a : line V) n k f, feeds a n k f -> (k < n)%nat ->
    ((forall i, (k <= i < n)%nat -> visnan (f i) = false) -> exists y, line_dropna a = Ok y /\ delivers y n k f) /\
    (forall i, (k <= i < n)%nat -> visnan (f i) = true -> line_dropna a = Raise ValueError).
Proof.
  exact (fun V N a n k f H Hk => conj (fun Hf => line_dropna_ok H Hk Hf) (fun i Hi E => line_dropna_bad H Hi E)).
Qed.
Print Assumptions C98_dropna_refuted.
Theorem C98_drop_duplicates_refuted :
  forall (V : Type) (N : Num V) (a : line V) n k f, feeds a n k f -> (k < n)%nat ->
    ((forall i j, (k <= i < j)%nat -> (j < n)%nat -> same (f j) (f i) = false) ->
       exists y, line_drop_duplicates a = Ok y /\ delivers y n k f) /\
    (forall i j, (k <= i < j)%nat -> (j < n)%nat -> same (f j) (f i) = true ->
       line_drop_duplicates a = Raise ValueError).
Proof.
  exact (fun V N a n k f H Hk => conj (fun Hf => line_dedup_ok H Hk Hf) (fun i j Hi Hj E => line_dedup_bad H Hi Hj E)).
Qed.
Print Assumptions C98_drop_duplicates_refuted.
Theorem C98_append_refuted :
  forall (V : Type) (N : Num V) (a b : line V) n ka kb f g,
    feeds a n ka f -> feeds b n kb g -> (Nat.max ka kb < n)%nat -> line_append a b = Raise ValueError.
Proof. exact @line_append_bad. Qed.
Print Assumptions C98_append_refuted.
(** nlargest and nsmallest either fail or show the values of all bars, later ones included, in order of size: the first
    delivered bar holds the largest (smallest) value of the whole history *)
Theorem C98_nlargest_refuted :
  forall (a : line (ext R)) n k x m, feeds a n k (fin x) -> (k < n)%nat -> (n - k <= m)%nat ->
    exists y g, line_nlargest (Z.of_nat m) a = Ok y /\ delivers y n k (fin g) /\
      Permutation (delivered g k n) (delivered x k n) /\
      forall i j, (k <= i <= j)%nat -> (j < n)%nat -> (g j <= g i)%R.
Proof. exact line_nlargest_ok. Qed.
Print Assumptions C98_nlargest_refuted.
Theorem C98_nsmallest_refuted :
  forall (a : line (ext R)) n k x m, feeds a n k (fin x) -> (k < n)%nat -> (n - k <= m)%nat ->
    exists y g, line_nsmallest (Z.of_nat m) a = Ok y /\ delivers y n k (fin g) /\
      Permutation (delivered g k n) (delivered x k n) /\
      forall i j, (k <= i <= j)%nat -> (j < n)%nat -> (g i <= g j)%R.
Proof. exact line_nsmallest_ok. Qed.
Print Assumptions C98_nsmallest_refuted.
Theorem C98_nlargest_few :
  forall (a : line (ext R)) n k x m, feeds a n k (fin x) -> (m < n - k)%nat ->
    line_nlargest (Z.of_nat m) a = Raise ValueError /\ line_nsmallest (Z.of_nat m) a = Raise ValueError.
Proof. exact line_nlargest_bad. Qed.
Print Assumptions C98_nlargest_few.
Example C98_met := (C98_head_refuted _ _ _ _ _ _ 2 demo_feeds ltac:(lia), C98_tail_refuted _ _ _ _ _ _ 2 demo_feeds ltac:(lia),
  C98_dropna_refuted _ _ _ _ _ _ demo_feeds ltac:(lia), C98_drop_duplicates_refuted _ _ _ _ _ _ demo_feeds ltac:(lia),
  C98_append_refuted _ _ _ _ _ _ _ _ _ demo_feeds demo_feeds ltac:(cbn; lia),
  C98_nlargest_refuted _ _ _ _ 3 demo_feeds ltac:(lia) ltac:(lia), C98_nlargest_few _ _ _ _ 2 demo_feeds ltac:(lia)).
Example C98_run :
  line_head 5 demoQ = Ok (mkLine 3 [NaN; NaN; Fin 4; Fin 1; Fin 7])%Q /\ line_head 2 demoQ = Raise ValueError /\
  line_tail 2 demoQ = Raise ValueError /\ line_append demoQ demoQ = Raise ValueError /\
  line_dropna (mkLine 1 [Fin 1; NaN; Fin 2])%Q = Raise ValueError /\
  line_dropna (mkLine 3 [Fin 1; NaN; Fin 2])%Q = Ok (mkLine 3 [NaN; NaN; Fin 2])%Q /\
  line_nlargest 3 demoQ = Ok (mkLine 3 [NaN; NaN; Fin 7; Fin 4; Fin 1])%Q /\
  line_nsmallest 3 demoQ = Ok (mkLine 3 [NaN; NaN; Fin 1; Fin 4; Fin 7])%Q /\
  line_drop_duplicates (raw (map Fin [1; 2; 1]%Q)) = Raise ValueError.
Proof. vm_compute. repeat split; reflexivity. Qed.

(** on a line that looks ahead beyond its warm-up (minimum period [1 - d]) only the last [d] bars are seen: the method
    must give [d] values, which are delivered there, and nothing is delivered before; with more than all bars ahead every
    method that keeps the number of values fails *)
Theorem C98_ahead_refuted :
  forall (V : Type) (N : Num V) F (a : line V) d r,
    (1 <= d <= length (lser a))%nat -> lmp a = (1 - Z.of_nat d)%Z ->
    F (skipn (length (lser a) - d) (lser a)) = Ok r ->
    std_any F a = if Nat.eqb (length r) d then Ok (mkLine (lmp a) (repeat vnan (length (lser a) - d)%nat ++ r))
                  else Raise ValueError.
Proof. exact @std_any_ahead. Qed.
Print Assumptions C98_ahead_refuted.
Theorem C98_far_ahead_refuted :
  forall (V : Type) (N : Num V) F (a : line V) d r,
    (1 <= length (lser a) < d)%nat -> lmp a = (1 - Z.of_nat d)%Z -> F (lser a) = Ok r -> length r = length (lser a) ->
    std_any F a = Raise ValueError.
Proof. exact @std_any_far. Qed.
Print Assumptions C98_far_ahead_refuted.
Definition aheadQ : line (ext Q) := at_ago (raw (map Fin [3; 1; 4; 1; 5]%Q)) 2.
Example C98_ahead_met := C98_ahead_refuted _ _ (fun s => Ok (ser_head 2 s)) aheadQ 2 _
  ltac:(vm_compute; auto) eq_refl eq_refl.
Example C98_ahead_run :
  aheadQ = mkLine (-1) [Fin 4; Fin 1; Fin 5; NaN; NaN]%Q /\
  line_head 5 aheadQ = Ok (mkLine (-1) [NaN; NaN; NaN; NaN; NaN])%Q /\ line_head 1 aheadQ = Raise ValueError /\
  line_head 5 (mkLine (-1) (map Fin [3; 1; 4; 1; 5]%Q)) = Ok (mkLine (-1) [NaN; NaN; NaN; Fin 1; Fin 5])%Q /\
  line_head 5 (mkLine (-5) (map Fin [3; 1; 4; 1; 5]%Q)) = Raise ValueError.
Proof. vm_compute. repeat split; reflexivity. Qed.

(** ** C99: expanding windows *)
Theorem C99_expanding :
  forall m pos G (a : line (ext R)) n k x, (1 <= m)%nat -> feeds a n k (fin x) ->
    exists y, expanding (Some m) pos G a = Ok y /\ delivers y n (k + m - 1) (fun i => G (map Fin (since x k i))).
Proof. exact expanding_fin. Qed.
Print Assumptions C99_expanding.
(** missing and infinite values do not count, neither as values nor as the [m] values needed *)
Theorem C99_missing :
  forall m pos G (a : line (ext R)) n k f, (1 <= m)%nat -> feeds a n k f ->
    exists y, expanding (Some m) pos G a = Ok y /\
      delivers y n (k + m - 1) (fun i =>
        let numbers := flat_map (fun v => match v with Fin r => [r] | _ => [] end) (since f k i) in
        if (length numbers <? m)%nat then NaN else G (map Fin numbers)).
Proof. exact expanding_missing. Qed.
Print Assumptions C99_missing.
Example C99_missing_met :
  let s := [Fin 1%R; NaN; Fin 2%R; PInf; Fin 4%R] : list (ext R) in
  exists y, expanding (Some 2%nat) 1 win_sum (raw s) = Ok y /\ nth_error (lser y) 1 = Some NaN /\
    nth_error (lser y) 4 = Some (Fin (0 + 1 + 2 + 4)%R).
Proof.
  intro s. destruct (@C99_missing 2 1 win_sum (raw s) 5 0 (fun i => nth i s NaN) ltac:(lia) (raw_feeds s NaN)) as (y & E & (_ & L & F) & _).
  exists y. split; [exact E|]. split; [apply (F 1%nat); lia|]. apply (F 4%nat). lia.
Qed.
Theorem C99_mean :
  forall m pos a n k x, (1 <= m)%nat -> feeds a n k (fin x) ->
    exists y, expanding (Some m) pos win_mean a = Ok y /\ delivers y n (k + m - 1) (fin (fun i => Rmean (since x k i))).
Proof. exact expanding_mean. Qed.
Print Assumptions C99_mean.
Theorem C99_sum :
  forall m pos a n k x, (1 <= m)%nat -> feeds a n k (fin x) ->
    exists y, expanding (Some m) pos win_sum a = Ok y /\ delivers y n (k + m - 1) (fin (fun i => Rsum (since x k i))).
Proof. exact expanding_sum. Qed.
Print Assumptions C99_sum.
Theorem C99_max :
  forall m pos a n k x, (1 <= m)%nat -> feeds a n k (fin x) ->
    exists y h, expanding (Some m) pos win_max a = Ok y /\ delivers y n (k + m - 1) (fin h) /\
      forall i, (k <= i)%nat -> is_max (h i) (since x k i).
Proof. exact expanding_max. Qed.
Print Assumptions C99_max.
(** without an argument one value is enough *)
Theorem C99_default :
  forall G (a : line (ext R)) n k x, feeds a n k (fin x) ->
    exists y, expanding None 1 G a = Ok y /\ delivers y n k (fun i => G (map Fin (since x k i))).
Proof. exact expanding_default. Qed.
Print Assumptions C99_default.
(** with the argument given by position the minimum period is not increased: m - 1 missing values are delivered *)
Theorem C99_positional_refuted :
  forall G (a : line (ext R)) n k (x : nat -> R) m, feeds a n k (fin x) ->
    exists y, expanding None m G a = Ok y /\
      delivers y n k (fun i => if (i <? k + m - 1)%nat then NaN else G (map Fin (since x k i))).
Proof. exact expanding_positional. Qed.
Print Assumptions C99_positional_refuted.
Example C99_met := (C99_mean 2 1 _ _ _ _ ltac:(lia) demo_feeds, C99_positional_refuted win_mean _ _ _ _ 3 demo_feeds).
Example C99_run :
  expanding (Some 2%nat) 1 win_sum demoQ = Ok (mkLine 4 [NaN; NaN; NaN; Fin 5; Fin 12])%Q /\
  expanding None 2 win_sum demoQ = Ok (mkLine 3 [NaN; NaN; NaN; Fin 5; Fin 12])%Q.
Proof. vm_compute. split; reflexivity. Qed.

(** ** C100: in-place changes of a line touch exactly the named bars *)
Theorem C100_setval :
  forall (V : Type) (a : line V) k i0 (c : nat) v,
    lmp a = Z.of_nat (S k) -> (0 <= Z.of_nat k + i0)%Z -> (i0 <> 0 \/ c <> 0%nat)%Z ->
    lmp (setval_ a i0 (Z.of_nat c) v) = lmp a /\
    length (lser (setval_ a i0 (Z.of_nat c) v)) = length (lser a) /\
    forall m, (m < length (lser a))%nat ->
      nth_error (lser (setval_ a i0 (Z.of_nat c) v)) m =
      if ((Z.of_nat k + i0 <=? Z.of_nat m) && (Z.of_nat m <? Z.of_nat k + i0 + Z.of_nat (Nat.max c 1)))%Z
      then Some v else nth_error (lser a) m.
Proof. exact @setval_exact. Qed.
Print Assumptions C100_setval.
Theorem C100_setval_to_end :
  forall (V : Type) (a : line V) k i0 (c : nat) v,
    lmp a = Z.of_nat (S k) -> (0 <= Z.of_nat k + i0)%Z -> (1 <= c <= length (lser a))%nat ->
    lmp (setval_ a i0 (- Z.of_nat c) v) = lmp a /\
    length (lser (setval_ a i0 (- Z.of_nat c) v)) = length (lser a) /\
    forall m, (m < length (lser a))%nat ->
      nth_error (lser (setval_ a i0 (- Z.of_nat c) v)) m =
      if ((Z.of_nat k + i0 <=? Z.of_nat m)%Z && (m <? length (lser a) - c)%nat)
      then Some v else nth_error (lser a) m.
Proof. exact @setval_back. Qed.
Print Assumptions C100_setval_to_end.
(** the default arguments, which should mean the first delivered bar, change nothing *)
Theorem C100_setval_default_refuted :
  forall (V : Type) (a : line V) k v, lmp a = Z.of_nat (S k) -> setval_ a 0 0 v = a.
Proof. exact @setval_default. Qed.
Print Assumptions C100_setval_default_refuted.
Theorem C100_period :
  forall (V : Type) (a : line V) k p (rolling : bool) v,
    let inc := (p - (if rolling then 1 else 0))%Z in
    lmp a = Z.of_nat (S k) -> (0 <= Z.of_nat k + inc)%Z ->
    lmp (period_ a p rolling (Some v)) = (lmp a + inc)%Z /\
    length (lser (period_ a p rolling (Some v))) = length (lser a) /\
    forall m, (m < length (lser a))%nat ->
      nth_error (lser (period_ a p rolling (Some v))) m =
      if ((Z.of_nat k + Z.min inc 0 <=? Z.of_nat m) && (Z.of_nat m <? Z.of_nat k + Z.max inc 0))%Z
      then Some v else nth_error (lser a) m.
Proof. exact @period_exact. Qed.
Print Assumptions C100_period.
Example C100_met := (C100_setval _ demo 2 (-1) 3 (Fin 0%R) eq_refl ltac:(lia) ltac:(lia),
  C100_setval_to_end _ demo 2 0 1 (Fin 0%R) eq_refl ltac:(lia) ltac:(cbn; lia),
  C100_setval_default_refuted _ demo 2 (Fin 0%R) eq_refl, C100_period _ demo 2 (-1) false (Fin 0%R) eq_refl ltac:(lia)).
Example C100_run :
  setval_ demoQ (-1) 2 NaN = mkLine 3 [Fin 100; NaN; NaN; Fin 1; Fin 7]%Q /\
  setval_ demoQ 1 0 NaN = mkLine 3 [Fin 100; Fin 100; Fin 4; NaN; Fin 7]%Q /\
  setval_ demoQ 1 (-1) NaN = mkLine 3 [Fin 100; Fin 100; Fin 4; NaN; Fin 7]%Q /\
  period_ demoQ 2 true (Some NaN) = mkLine 4 [Fin 100; Fin 100; NaN; Fin 1; Fin 7]%Q /\
  period_ demoQ (-1) false (Some NaN) = mkLine 2 [Fin 100; NaN; Fin 4; Fin 1; Fin 7]%Q.
Proof. vm_compute. repeat split; reflexivity. Qed.

(** ** C02: calling a line with both arguments.  A look-back ignores the value; a value fills every bar; without
    either (None) the line itself is copied *)
Theorem C02_call :
  forall (V : Type) (N : Num V) (a : line V) n k f p val,
    feeds a n k f -> (1 <= p)%nat ->
    delivers (line_call (Some (- Z.of_nat p)%Z) val a) n (k + p) (fun i => f (i - p)%nat).
Proof. exact @line_call_back. Qed.
Print Assumptions C02_call.
Theorem C02_call_fill :
  forall (V : Type) (N : Num V) (a : line V) n k f v,
    feeds a n k f -> feeds (line_call (Some 0%Z) (Some v) a) n k (fun _ => v) /\
    (forall i, (i < n)%nat -> nth_error (lser (line_call (Some 0%Z) (Some v) a)) i = Some v) /\
    (forall val, feeds (line_call None val a) n k f) /\ feeds (line_call (Some 0%Z) None a) n k f.
Proof. exact @line_call_fill. Qed.
Print Assumptions C02_call_fill.
Example C02_call_met := (C02_call _ _ _ _ _ _ 2 (Some (Fin 1%R)) demo_feeds ltac:(lia), C02_call_fill _ _ _ _ _ _ (Fin 9%R) demo_feeds).
Example C02_call_run :
  line_call (Some (-1)%Z) (Some NaN) demoQ = mkLine 4 [NaN; NaN; NaN; Fin 4; Fin 1]%Q /\
  line_call (Some 0%Z) (Some (Fin 2)) demoQ = mkLine 3 [Fin 2; Fin 2; Fin 2; Fin 2; Fin 2]%Q /\
  line_call None (Some (Fin 2)) demoQ = demoQ /\
  line_call (Some 1%Z) None demoQ = mkLine 2 [NaN; NaN; Fin 1; Fin 7; NaN]%Q.
Proof. vm_compute. repeat split; reflexivity. Qed.

(** ** C101: a slice of a line keeps the minimum period of the line, so the first bars of the slice are skipped again *)
Theorem C101_slice_refuted :
  forall (V A : Type) (F : list V -> A) (a : line V) n k f i j,
    feeds a n k f -> (i <= j <= n)%nat ->
    reduce F (line_slice a (Z.of_nat i) (Z.of_nat j)) = F (delivered f (i + k) j).
Proof. exact @line_slice_reduce. Qed.
Print Assumptions C101_slice_refuted.
(** a slice from the first bar on is the shorter history *)
Theorem C101_prefix_partial :
  forall (V : Type) (a : line V) n k f j, feeds a n k f -> (j <= n)%nat ->
    feeds (line_slice a 0 (Z.of_nat j)) j k f.
Proof.
  exact (fun V a n k f j H Hj =>
    eq_rect _ (fun m => feeds (line_slice a 0 (Z.of_nat j)) m k f)
      (@line_slice_feeds V a n k f 0 j H (conj (Nat.le_0_l j) Hj) f (fun m _ => f_equal f (Nat.sub_0_r m))) _ (Nat.sub_0_r j)).
Qed.
Print Assumptions C101_prefix_partial.
Example C101_met := (C101_slice_refuted _ _ vsum _ _ _ _ 2 5 demo_feeds ltac:(lia),
  C101_prefix_partial _ _ _ _ _ 4 demo_feeds ltac:(lia)).
Example C101_run : line_sum demoQ = Fin 12%Q /\ line_sum (line_slice demoQ 2 5) = Fin 7%Q.
Proof. vm_compute. split; reflexivity. Qed.

(** ** C102: histories that are too short.  [seval] evaluates with the length check of pandas. *)
(** with as many bars as the operators skip, nothing fails that does not fail in [eval] *)
Theorem C102_enough :
  forall (V : Type) (N : Num V) (env : list (line V)) n (mps : nat -> Z), nan_laws N ->
    (forall v l, nth_error env v = Some l -> lmp l = mps v /\ (1 <= lmp l)%Z /\ length (lser l) = n) ->
    forall e, (n = 0%nat \/ (needs mps e <= Z.of_nat n)%Z) -> seval env e = eval env e.
Proof. exact @long_enough. Qed.
Print Assumptions C102_enough.
(** and with fewer bars the calculation always fails *)
Theorem C102_too_short :
  forall (V : Type) (N : Num V) (env : list (line V)) n (mps : nat -> Z), nan_laws N ->
    (forall v l, nth_error env v = Some l -> lmp l = mps v /\ (1 <= lmp l)%Z /\ length (lser l) = n) ->
    forall e, (1 <= n)%nat -> (Z.of_nat n < needs mps e)%Z -> exists x, seval env e = Raise x.
Proof. exact @too_short. Qed.
Print Assumptions C102_too_short.
(** the declared minimum period less one is always enough *)
Theorem C102_declared :
  forall (V : Type) (N : Num V) (env : list (line V)) n (mps : nat -> Z), nan_laws N ->
    (forall v l, nth_error env v = Some l -> lmp l = mps v /\ (1 <= lmp l)%Z /\ length (lser l) = n) ->
    forall e, (forall v, (1 <= mps v)%Z) -> (look mps e - 1 <= Z.of_nat n)%Z -> seval env e = eval env e.
Proof. exact @declared_enough. Qed.
Print Assumptions C102_declared.
(** so a short history is not simply all NaN: a window alone is, a combination of two windows fails *)
Theorem C102_all_nan_refuted :
  forall (V : Type) (N : Num V) (s : list V) w G H op, (1 <= length s < w)%nat ->
    seval [raw s] (ERoll w G (EIn 0)) = Ok (mkLine (Z.of_nat (S w)) (repeat vnan (length s))) /\
    seval [raw s] (EBin op (ERoll w G (EIn 0)) (ERoll w H (EIn 0))) = Raise ValueError.
Proof. exact @window_short. Qed.
Print Assumptions C102_all_nan_refuted.
Definition shortenv : list (line (ext Q)) := [raw (map Fin [1; 2; 3]%Q)].
Definition bands : expr (ext Q) := EBin vadd (ERoll 4 win_mean (EIn 0)) (ERoll 4 win_max (EIn 0)).
Example C102_met :
  (forall v l, nth_error shortenv v = Some l -> lmp l = 1%Z /\ (1 <= lmp l)%Z /\ length (lser l) = 3%nat) /\
  needs (fun _ => 1%Z) bands = 4%Z /\ look (fun _ => 1%Z) bands = 5%Z /\
  needs (fun _ => 1%Z) (ERoll 2 win_mean (EIn 0) : expr (ext Q)) = 0%Z.
Proof.
  split; [|vm_compute; auto]. intros v l E. destruct v as [|v]; [|destruct v; discriminate E].
  inversion E; subst. vm_compute. repeat split; discriminate.
Qed.
Example C102_run :
  seval shortenv bands = Raise ValueError /\
  seval shortenv (ERoll 4 win_mean (EIn 0)) = Ok (mkLine 5 [NaN; NaN; NaN])%Q /\
  seval shortenv (EBin vadd (ERoll 2 win_mean (EIn 0)) (EDiff (EIn 0) 1)) = Ok (mkLine 3 [NaN; NaN; Fin 3])%Q.
Proof. vm_compute. repeat split; reflexivity. Qed.
