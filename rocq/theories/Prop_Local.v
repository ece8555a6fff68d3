(** C123: indicators that look at a fixed number of bars do not depend on how much older history
    was loaded. *)
From Coq Require Import ZArith QArith List Bool Lia.
From Verif Require Import Num Series Line Spec Expr IndMA IndBasic IndStat IndVol Catalog CatalogSpec
  LocalSpec PropLocalFacts Prop_Catalog.
Import ListNotations.

(** Any chain of such indicators over any table of columns, with the first [k] rows removed: every
    output has the same minimum period and, from its first bar on, the same values as before; and the
    chain raises without the rows exactly when it raises with them, with the same exception. *)
Theorem C123_columns :
  forall (V : Type) (N : Num V) (T : NumT V) k n (cols : list (list V)) steps,
    Forall (fun s => length s = n) cols -> (k <= n)%nat ->
    Forall (fun s => valid (fst s) /\ windowed (fst s) = true) steps ->
    same_outcome (Forall2 (drops k)) (session (map raw cols) steps)
                 (session (map (fun s => raw (skipn k s)) cols) steps).
Proof. exact @columns_local. Qed.
Print Assumptions C123_columns.

Definition local_steps : list (step (ext Q)) :=
  [ (XRsi ASma 2 1, [2]);
    (XBbands 2 (Fin 2%Q) AWma AMad, [3]);
    (XMacd ASma AMidpoint 2 3 2, [5]);
    (XPlusDi true true ASma 2 1, [0; 1; 2]);
    (XMfi 2, [0; 1; 2; 2]);
    (XCrossup true, [0; 11]);
    (XSub, [10; 12]) ]%nat.
Example local_steps_ok :
  Forall (fun s => valid (fst s) /\ windowed (fst s) = true) local_steps.
Proof. repeat constructor; cbn; auto with arith. Qed.
Definition local_cols : list (list (ext Q)) :=
  [map Fin [9; 5; 7; 9; 8; 8; 11; 12; 10; 9]; map Fin [2; 3; 4; 6; 5; 7; 9; 9; 7; 5];
   map Fin [5; 4; 6; 8; 5; 8; 10; 9; 8; 7]]%Q.
Example local_cols_ok : Forall (fun s => length s = 10%nat) local_cols.
Proof. repeat constructor. Qed.
Example local_runs : exists outs outs',
  @session _ _ demoT (map raw local_cols) local_steps = Ok outs /\
  @session _ _ demoT (map (fun s => raw (skipn 2 s)) local_cols) local_steps = Ok outs' /\
  map (@lmp _) outs = [1; 1; 1; 3; 4; 4; 4; 6; 7; 7; 4; 3; 4; 4]%Z.
Proof. do 2 eexists. split; [vm_compute; reflexivity|]. split; vm_compute; reflexivity. Qed.

(** The same for one call, on inputs that are themselves results of earlier calls. *)
Theorem C123_one :
  forall (V : Type) (N : Num V) (T : NumT V) k n x (ins ins' : list (line V)),
    Forall2 (fun x x' => (1 <= lmp x)%Z /\ length (lser x') = n /\ drops k x x') ins ins' ->
    valid x -> windowed x = true ->
    same_outcome (Forall2 (drops k)) (run x ins) (run x ins').
Proof. exact @run_local. Qed.
Print Assumptions C123_one.

(** Two lines with a minimum period of 3 that differ before it. *)
Example C123_one_met :
  let x := mkLine 3 (map Fin [1; 2; 3; 4; 5; 6]%Q) in
  let x' := mkLine 3 [NaN; NaN; Fin 5%Q; Fin 6%Q] in
  ((1 <= lmp x)%Z /\ length (lser x') = 4%nat /\ drops 2 x x') /\
  valid (XAvg (V := ext Q) AWma 2) /\ windowed (XAvg (V := ext Q) AWma 2) = true.
Proof.
  cbv zeta. repeat (apply conj); try (cbn; lia); try reflexivity; try (cbn; auto with arith; fail).
  intros [|[|[|[|i]]]] Hi; cbn in Hi; try lia; reflexivity.
Qed.

(** correl takes its minimum period from its first input: it is unaffected by dropped rows as long as
    the second input is ready no later than the first. *)
Theorem C123_correl :
  forall (V : Type) (N : Num V) (T : NumT V) k n p prets rets (a a' b b' : line V),
    (1 <= p)%nat ->
    ((1 <= lmp a)%Z /\ length (lser a') = n /\ drops k a a') ->
    ((1 <= lmp b)%Z /\ length (lser b') = n /\ drops k b b') ->
    (lmp b <= lmp a)%Z ->
    drops k (correl p prets rets a b) (correl p prets rets a' b').
Proof. exact @correl_local. Qed.
Print Assumptions C123_correl.
Example C123_correl_met :
  let s := map Fin [1; 2; 4; 3]%Q in
  ((1 <= lmp (raw s))%Z /\ length (lser (raw (skipn 1 s))) = 3%nat /\ drops 1 (raw s) (raw (skipn 1 s))) /\
  (lmp (raw s) <= lmp (raw s))%Z.
Proof.
  cbv zeta. repeat (apply conj); try reflexivity; try (cbn; lia).
Qed.

(** If the second input is ready later, the bar at which correl claims to start depends on the rows
    that were dropped: with them it is a number, without them it is missing. *)
Theorem C123_correl_refuted :
  exists a a' b b' : line (ext Q),
    ((1 <= lmp a)%Z /\ length (lser a') = 3%nat /\ drops 1 a a') /\
    ((1 <= lmp b)%Z /\ length (lser b') = 3%nat /\ drops 1 b b') /\
    lmp (@correl _ _ demoT 2 1 false a b) = 2%Z /\
    nth_error (lser (@correl _ _ demoT 2 1 false a' b')) 1 = Some NaN /\
    nth_error (lser (@correl _ _ demoT 2 1 false a b)) 2 <> Some NaN.
Proof.
  exists (raw (map Fin [1; 2; 4; 3]%Q)), (raw (map Fin [2; 4; 3]%Q)),
    (mkLine 2 (map Fin [9; 2; 4; 7]%Q)), (mkLine 2 [NaN; Fin 4%Q; Fin 7%Q]).
  repeat (apply conj); try reflexivity; try (cbn; lia).
  - intros [|[|[|i]]] Hi; cbn in Hi; try lia; reflexivity.
  - vm_compute. discriminate.
Qed.
Print Assumptions C123_correl_refuted.

(** Returns, and beta on returns, carry the last value over gaps.  Dropped rows do not matter if the
    first bar that is kept holds a number. *)
Theorem C123_returns :
  forall (V : Type) (N : Num V) k n p (a a' : line V),
    ((1 <= lmp a)%Z /\ length (lser a') = n /\ drops k a a') ->
    (forall x, nth_error (lser a') (Z.to_nat (lmp a' - 1)) = Some x -> visnan x = false) ->
    drops k (pct_change a (Z.of_nat p)) (pct_change a' (Z.of_nat p)).
Proof. exact @returns_local. Qed.
Print Assumptions C123_returns.
Theorem C123_beta_returns :
  forall (V : Type) (N : Num V) k n p prets (a a' b b' : line V),
    (1 <= p)%nat ->
    ((1 <= lmp a)%Z /\ length (lser a') = n /\ drops k a a') ->
    ((1 <= lmp b)%Z /\ length (lser b') = n /\ drops k b b') ->
    (forall x, nth_error (lser a') (Z.to_nat (lmp a' - 1)) = Some x -> visnan x = false) ->
    (forall x, nth_error (lser b') (Z.to_nat (lmp b' - 1)) = Some x -> visnan x = false) ->
    drops k (beta p (Z.of_nat prets) true a b) (beta p (Z.of_nat prets) true a' b').
Proof. exact @beta_local. Qed.
Print Assumptions C123_beta_returns.
Example C123_returns_met :
  let s := map Fin [1; 2; 4; 3]%Q in
  (forall x, nth_error (lser (raw (skipn 1 s))) (Z.to_nat (lmp (raw (skipn 1 s)) - 1)) = Some x ->
     visnan x = false) /\
  ((1 <= lmp (raw s))%Z /\ length (lser (raw (skipn 1 s))) = 3%nat /\ drops 1 (raw s) (raw (skipn 1 s))).
Proof.
  cbv zeta. repeat (apply conj); try reflexivity; try (cbn; lia).
  intros x [= <-]. reflexivity.
Qed.
(** ... and if it is missing they do. *)
Theorem C123_returns_refuted :
  exists s : list (ext Q),
    nth_error (lser (pct_change (raw s) 1)) 2 <> Some NaN /\
    nth_error (lser (pct_change (raw (skipn 1 s)) 1)) 1 = Some NaN.
Proof.
  exists [Fin 2%Q; NaN; Fin 3%Q]. split; vm_compute; [discriminate|reflexivity].
Qed.
Print Assumptions C123_returns_refuted.

(** The property does not extend to the exponential averages, to running totals, or to crossings that
    are not strict: one dropped row changes a value the shorter history presents as ready. *)
Theorem C123_memory_refuted :
  exists s v : list (ext Q),
    (exists o o', ema 2%nat (raw s) = Ok o /\ ema 2%nat (raw (skipn 1%nat s)) = Ok o' /\ lmp o' = 2%Z /\
       nth_error (lser o') 1%nat <> nth_error (lser o) 2%nat) /\
    (let o := obv false 1%nat (raw s) (raw v) in let o' := obv false 1%nat (raw (skipn 1%nat s)) (raw (skipn 1%nat v)) in
     lmp o' = 2%Z /\ nth_error (lser o') 1%nat <> nth_error (lser o) 2%nat) /\
    (let o := crossup false (raw s) (raw v) in
     let o' := crossup false (raw (skipn 1%nat s)) (raw (skipn 1%nat v)) in
     lmp o' = 2%Z /\ nth_error (lser o') 1%nat <> nth_error (lser o) 2%nat).
Proof.
  exists (map Fin [1; 3; 6]%Q), (map Fin [2; 3; 4]%Q).
  split; [|split].
  - do 2 eexists. split; [vm_compute; reflexivity|]. split; [vm_compute; reflexivity|].
    split; [reflexivity|]. vm_compute. discriminate.
  - cbv zeta. split; [reflexivity|]. vm_compute. discriminate.
  - cbv zeta. split; [reflexivity|]. vm_compute. discriminate.
Qed.
Print Assumptions C123_memory_refuted.
