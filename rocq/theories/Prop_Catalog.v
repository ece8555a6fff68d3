(** Property theorems C103 to C105: every indicator of the catalogue and every chain of them.
    Models: Catalog.v (on top of the Ind*.v files); vocabulary: Spec.v, CatalogSpec.v. *)
From Coq Require Import ZArith QArith List Bool Lia Reals.
From Verif Require Import Num Series Line Spec LineFacts Expr WarmFacts IndMA IndBasic IndRange Apply IndSar IndHT
  HTSpec PropLinesFacts PropHTFacts Catalog CatalogSpec PropCatalogFacts CatalogHTFacts.
Import ListNotations.

(** ** C103: no indicator repaints *)
Theorem C103_no_repaint_partial :
  forall (V : Type) (N : Num V) (T : NumT V) n n' (env env' : list (line V)) steps outs,
    (n <= n')%nat ->
    Forall2 (fun x x' => (1 <= lmp x)%Z /\ length (lser x) = n /\ length (lser x') = n' /\
                         extends x x') env env' ->
    Forall (fun s => valid (fst s) /\ ~ cyclic (fst s)) steps ->
    session env steps = Ok outs ->
    exists outs', session env' steps = Ok outs' /\ Forall2 extends outs outs'.
Proof. exact @session_no_repaint. Qed.
Print Assumptions C103_no_repaint_partial.

(** A program of seven steps on bars high, low, close: the rsi of the closing prices, its
    bands, a macd of the upper band, the directional index in its ta-lib form, a kama, the
    parabolic sar and the difference of both. *)
Section Demo.
  (** not used by the steps below *)
  Definition no_fun : ext Q -> ext Q := fun x => x.
  Definition demoT : NumT (ext Q) :=
    {| vsqrt := no_fun; vexp := no_fun; vln := no_fun; vsin := no_fun; vcos := no_fun;
       vtan := no_fun; vatan := no_fun; vasin := no_fun; vacos := no_fun; vpi := Fin 0%Q |}.
End Demo.
Definition demo_steps : list (step (ext Q)) :=
  [ (XRsi (ASmma SEED_AVG) 3 1, [2]);
    (XBbands 2 (Fin 2%Q) ASma AMad, [3]);
    (XMacd (AEma SEED_AVG) (AWma) 2 3 2, [5]);
    (XPlusDi false true ASma 2 1, [0; 1; 2]);
    (XAvg (AKama 2 (Fin 2%Q) (Fin 30%Q) SEED_LAST) 2, [2]);
    (XSar (Fin (2 # 100)%Q) (Fin (2 # 10)%Q), [0; 1]);
    (XSub, [11; 12]) ]%nat.
Example demo_ok : Forall (fun s => valid (fst s) /\ ~ cyclic (fst s)) demo_steps.
Proof. repeat constructor; cbn; auto with arith. Qed.
Definition px (l : list Q) : line (ext Q) := raw (map Fin l).
Definition demo_env := [px [5; 7; 9; 8; 8; 11; 12; 10; 9]; px [3; 4; 6; 5; 7; 9; 9; 7; 5];
                        px [4; 6; 8; 5; 8; 10; 9; 8; 7]]%Q.
Definition demo_env' := [px [5; 7; 9; 8; 8; 11; 12; 10; 9; 7]; px [3; 4; 6; 5; 7; 9; 9; 7; 5; 1];
                         px [4; 6; 8; 5; 8; 10; 9; 8; 7; 2]]%Q.
Example demo_extends : Forall2 (fun x x' => (1 <= lmp x)%Z /\ length (lser x) = 9%nat /\
    length (lser x') = 10%nat /\ extends x x') demo_env demo_env'.
Proof. repeat constructor; cbn; try lia; eexists; reflexivity. Qed.
Example demo_runs : exists outs, @session _ _ demoT demo_env demo_steps = Ok outs /\
  map (@lmp _) outs = [1; 1; 1; 4; 5; 5; 5; 7; 8; 8; 3; 4; 2; 4]%Z.
Proof. eexists. split; [vm_compute; reflexivity|reflexivity]. Qed.

(** With the four indicators that use the measured cycle as an index: values are real numbers,
    NaN or infinite, and both histories are accepted. *)
Theorem C103_all_partial :
  forall n n' (env env' : list (line (ext R))) steps outs outs',
    (n <= n')%nat ->
    Forall2 (fun x x' => (1 <= lmp x)%Z /\ length (lser x) = n /\ length (lser x') = n' /\
                         extends x x') env env' ->
    Forall (fun s => valid (fst s)) steps ->
    session env steps = Ok outs -> session env' steps = Ok outs' ->
    Forall2 extends outs outs'.
Proof. exact session_agree. Qed.
Print Assumptions C103_all_partial.
Example C103_all_met :
  let a := raw (map Fin (map INR (seq 0 80))) in
  let a' := raw (map Fin (map INR (seq 0 80)) ++ map Fin [1; 2]%R) in
  Forall2 (fun x x' => (1 <= lmp x)%Z /\ length (lser x) = 80%nat /\ length (lser x') = 82%nat /\
                       extends x x') [a] [a'] /\
  exists outs outs', session [a] [(XHtDcphase, [0%nat])] = Ok outs /\
                     session [a'] [(XHtDcphase, [0%nat])] = Ok outs'.
Proof.
  intros a a'. split.
  - constructor; [|constructor]. split; [cbn; lia|]. unfold a, a', raw; cbn [lser].
    rewrite app_length, !map_length, seq_length. repeat split. eexists; reflexivity.
  - pose proof (raw_fin_feeds (map INR (seq 0 80))) as H. pose proof (raw_fin_feeds (map INR (seq 0 80) ++ [1; 2]%R)) as H'.
    destruct (phase_all (HLine _) _ _ _ H) as (y & _ & _ & E & _).
    destruct (phase_all (HLine _) _ _ _ H') as (y' & _ & _ & E' & _).
    exists [a; y], [a'; y']. unfold a', raw. rewrite <- map_app. fold (raw (map Fin (map INR (seq 0 80) ++ [1; 2]%R))).
    cbn [session pick nth_error bind run inht]. unfold a. rewrite E, E'. split; reflexivity.
Qed.
(** "Accepted" cannot be left out: one missing price after the first 37 bars and these four
    indicators raise an exception. *)
Theorem C103_missing_refuted :
  forall (a : line (ext R)) n k f i,
    feeds a n k f -> (k + 37 <= i < n)%nat -> f i = NaN ->
    ht_dcphase (HLine a) = Raise ValueError /\ ht_sine (HLine a) = Raise ValueError /\
    ht_trendline (HLine a) = Raise ValueError /\ ht_trendmode (HLine a) = Raise ValueError.
Proof. exact missing_all. Qed.
Print Assumptions C103_missing_refuted.
Example C103_missing_met :
  feeds (raw (repeat (Fin 1%R) 70 ++ [NaN; Fin 1%R])) 72 0
        (fun i => nth i (repeat (Fin 1%R) 70 ++ [NaN; Fin 1%R]) NaN) /\
  nth 70 (repeat (Fin 1%R) 70 ++ [NaN; Fin 1%R]) NaN = NaN.
Proof.
  split; [|reflexivity]. split; [reflexivity|]. split; [reflexivity|]. intros i Hi. cbn [raw lser].
  apply nth_error_nth'. rewrite app_length, repeat_length. cbn. lia.
Qed.

(** Outside the parameters allowed: a smoothed accumulation that starts early has, on a line
    without warm-up and as many bars as period minus 1, a value that changes with the next bar. *)
Theorem C103_early_refuted :
  exists a a' : line (ext Q), lmp a = 1%Z /\ extends a a' /\
  exists o o', smacc 3 true SEED_SUM a = Ok o /\ smacc 3 true SEED_SUM a' = Ok o' /\
    (lmp o = 2%Z) /\ nth_error (lser o) 1 = Some (Fin 7%Q) /\ nth_error (lser o') 1 = Some (Fin 0%Q).
Proof.
  exists (px [5; 7]%Q), (px [5; 7; 9]%Q). split; [reflexivity|].
  split; [split; [reflexivity|]; eexists; reflexivity|].
  do 2 eexists. repeat split; vm_compute; reflexivity.
Qed.
Print Assumptions C103_early_refuted.

(** ** C104: the minimum periods of all outputs, as a table *)
Theorem C104_minperiods :
  forall (V : Type) (N : Num V) (T : NumT V) n (env : list (line V)) steps outs,
    nan_laws N ->
    Forall (fun x => (1 <= lmp x)%Z /\ length (lser x) = n) env ->
    Forall (fun s => valid (fst s)) steps ->
    session env steps = Ok outs ->
    map (@lmp V) outs = session_mps (map (@lmp V) env) steps /\
    Forall (fun l => length (lser l) = n) outs /\
    exists new, outs = env ++ new.
Proof. exact @session_minperiods. Qed.
Print Assumptions C104_minperiods.
Theorem C104_one :
  forall (V : Type) (N : Num V) (T : NumT V) n x (ins outs : list (line V)),
    nan_laws N ->
    Forall (fun x => (1 <= lmp x)%Z /\ length (lser x) = n) ins -> valid x ->
    run x ins = Ok outs ->
    map (@lmp V) outs = mps x (map (@lmp V) ins) /\
    Forall (fun l => length (lser l) = n /\
              (plain x = true -> forall i, (Z.of_nat i < lmp l - 1)%Z -> (i < n)%nat ->
                 nth_error (lser l) i = Some vnan)) outs.
Proof. exact @run_minperiods. Qed.
Print Assumptions C104_one.
Example demo_table : session_mps [1; 1; 1]%Z demo_steps
  = [1; 1; 1; 4; 5; 5; 5; 7; 8; 8; 3; 4; 2; 4]%Z.
Proof. reflexivity. Qed.
(** the entries for the default parameters, on prices *)
Example default_table :
  map (fun x => mps x [1; 1; 1]%Z)
    [XAdx false false (ASmma SEED_AVG : avg (ext Q)) 14 1;
     XAdxr false 0 false false (ASmma SEED_AVG) 14 1;
     XStochastic ASma ASma 14 3 3; XUltosc 7 14 28 (Fin 4%Q) (Fin 2%Q) (Fin 1%Q)]%nat
  = [[29]; [43]; [16; 18]; [29]]%Z.
Proof. reflexivity. Qed.

(** ** C105: nothing is delivered before the minimum period *)
Theorem C105_warm_up :
  forall (V : Type) (N : Num V) (T : NumT V) n (env : list (line V)) steps outs,
    nan_laws N ->
    Forall (fun x => (1 <= lmp x)%Z /\ length (lser x) = n) env ->
    Forall (fun s => valid (fst s) /\ plain (fst s) = true) steps ->
    session env steps = Ok outs ->
    forall j l, (length env <= j)%nat -> nth_error outs j = Some l ->
    forall i, (Z.of_nat i < lmp l - 1)%Z -> (i < n)%nat -> nth_error (lser l) i = Some vnan.
Proof. exact @session_warm. Qed.
Print Assumptions C105_warm_up.
Example demo_plain : Forall (fun s => valid (fst s) /\ plain (fst s) = true) demo_steps.
Proof. repeat constructor; cbn; auto with arith. Qed.
(** the exception: [ewma] delivers before its minimum period *)
Theorem C105_ewma_refuted :
  exists (a : line (ext Q)) o, lmp a = 1%Z /\
    @run _ _ demoT (XAvg (AEwma true) 3) [a] = Ok [o] /\ lmp o = 3%Z /\
    nth_error (lser o) 0 = Some (Fin 5%Q).
Proof.
  exists (px [5; 7; 9]%Q). eexists. split; [reflexivity|].
  split; [vm_compute; reflexivity|]. split; reflexivity.
Qed.
Print Assumptions C105_ewma_refuted.
