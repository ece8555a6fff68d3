(** Property theorems C33-C38, C82 and C83: moving averages.

    [feeds a n k (fin x)]: the input line has n bars and delivers the real numbers x i from
    bar k on.  [lastp x i p] are the last p values up to bar i.  Models: IndMA.v. *)
From Coq Require Import ZArith QArith List Bool Reals Lra Lia.
From Verif Require Import Num Series Line Spec RSpec LineFacts OpFacts IndMA MAFacts
  EwmaFacts PropLinesFacts PropMAFacts.
Import ListNotations.
Local Open Scope R_scope.

(** a concrete finite input, used to meet the hypotheses of the theorems below *)
Definition exR : lineR := raw (map Fin [1; 5; 2; 4; 3; 7; 6; 9]).
Definition exx (i : nat) : R := nth i [1; 5; 2; 4; 3; 7; 6; 9] 0.
Example exR_feeds : feeds exR 8 0 (fin exx).
Proof. exact (raw_fin_feeds [1; 5; 2; 4; 3; 7; 6; 9]). Qed.
(** and one with a warm-up: the 3-bar average of it *)
Example exR3_feeds : feeds (sma 3 exR) 8 2 (fin (fun i => Rmean (lastp exx i 3))).
Proof. exact (delivers_feeds (@sma_fin exR 8 0 exx 3 exR_feeds ltac:(lia))). Qed.
(** a constant price *)
Example flat_feeds : feeds (raw (map Fin [4; 4; 4])) 3 0 (fin (fun _ => 4)).
Proof. repeat split. intros i Hi. do 3 (destruct i as [|i]; [reflexivity|]). cbn in Hi. lia. Qed.
Definition exQ : line (ext Q) := raw (map Fin [1; 5; 2; 4; 3; 7; 6; 9]%Q).

(** C33 *)
Theorem C33_sma :
  forall (a : lineR) n k x p,
    feeds a n k (fin x) -> (1 <= p)%nat ->
    delivers (sma p a) n (k + p - 1) (fin (fun i => Rmean (lastp x i p))).
Proof. exact sma_fin. Qed.
Print Assumptions C33_sma.
Example C33_run :
  sma 3 exQ = mkLine 3 [NaN; NaN; Fin (8#3); Fin (11#3); Fin 3; Fin (14#3); Fin (16#3); Fin (22#3)]%Q.
Proof. vm_compute. reflexivity. Qed.

(** C34: weights 1..p, newest heaviest; the value lies within the window *)
Theorem C34_wma :
  forall (a : lineR) n k x p,
    feeds a n k (fin x) -> (1 <= p)%nat ->
    delivers (wma p a) n (k + p - 1)
      (fin (fun i => wmean (map INR (seq 1 p)) (lastp x i p))) /\
    forall i lo hi, (forall v, In v (lastp x i p) -> lo <= v <= hi) ->
      lo <= wmean (map INR (seq 1 p)) (lastp x i p) <= hi.
Proof. exact wma_convex. Qed.
Print Assumptions C34_wma.
Example C34_run :
  wma 3 exQ = mkLine 3 [NaN; NaN; Fin (17#6); Fin (7#2); Fin (19#6); Fin (31#6); Fin (35#6); Fin (23#3)]%Q.
Proof. vm_compute. reflexivity. Qed.

(** C35 *)
Theorem C35_ema :
  forall (a : lineR) n k x p,
    feeds a n k (fin x) -> (1 <= p)%nat -> (k + p <= n)%nat ->
    exists y e, ema p a = Ok y /\ is_ema p k x e /\ delivers y n (k + p - 1) (fin e) /\
      forall i lo hi, (k + p - 1 <= i)%nat -> within x k i lo hi -> lo <= e i <= hi.
Proof. exact ema_full_spec. Qed.
Print Assumptions C35_ema.
Example C35_ema_met := C35_ema _ 8 2 _ 3 exR3_feeds ltac:(lia) ltac:(lia).
(** the recurrence leaves no freedom: there is only one such average *)
Theorem C35_ema_unique :
  forall p k x e e', is_ema p k x e -> is_ema p k x e' ->
    forall i, (k + p - 1 <= i)%nat -> e i = e' i.
Proof. exact is_ema_unique. Qed.
Print Assumptions C35_ema_unique.
Example C35_run :
  ema 3%nat exQ = Ok (mkLine 3 [NaN; NaN; Fin (8#3); Fin (10#3); Fin (19#6); Fin (61#12); Fin (133#24); Fin (349#48)]%Q).
Proof. vm_compute. reflexivity. Qed.

(** C36 *)
Theorem C36_smma :
  forall (a : lineR) n k x p,
    feeds a n k (fin x) -> (1 <= p)%nat -> (k + p <= n)%nat ->
    exists y e, smma p a = Ok y /\ is_smma p k x e /\ delivers y n (k + p - 1) (fin e) /\
      forall i lo hi, (k + p - 1 <= i)%nat -> within x k i lo hi -> lo <= e i <= hi.
Proof. exact smma_full_spec. Qed.
Print Assumptions C36_smma.
Example C36_smma_met := C36_smma _ 8 2 _ 3 exR3_feeds ltac:(lia) ltac:(lia).
Theorem C36_smma_unique :
  forall p k x e e', is_smma p k x e -> is_smma p k x e' ->
    forall i, (k + p - 1 <= i)%nat -> e i = e' i.
Proof. exact is_smma_unique. Qed.
Print Assumptions C36_smma_unique.
Example C36_run :
  smma 2%nat (raw (map Fin [2; 4; 7; 1]%Q)) = Ok (mkLine 2 [NaN; Fin 3; Fin 5; Fin 3]%Q).
Proof. vm_compute. reflexivity. Qed.

(** C37: formulas over the component averages *)
Theorem C37_dema :
  forall (a : lineR) n k x p,
    feeds a n k (fin x) -> (1 <= p)%nat -> (k + 2 * (p - 1) + 1 <= n)%nat ->
    exists y e1 e2, dema ema p a = Ok y /\
      is_ema p k x e1 /\ is_ema p (k + (p - 1)) e1 e2 /\
      delivers y n (k + 2 * (p - 1)) (fin (fun i => 2 * e1 i - e2 i)).
Proof. exact dema_fin. Qed.
Print Assumptions C37_dema.
Example C37_dema_met := C37_dema _ 8 2 _ 3 exR3_feeds ltac:(lia) ltac:(lia).

Theorem C37_tema :
  forall (a : lineR) n k x p,
    feeds a n k (fin x) -> (1 <= p)%nat -> (k + 3 * (p - 1) + 1 <= n)%nat ->
    exists y e1 e2 e3, tema ema p a = Ok y /\
      is_ema p k x e1 /\ is_ema p (k + (p - 1)) e1 e2 /\ is_ema p (k + 2 * (p - 1)) e2 e3 /\
      delivers y n (k + 3 * (p - 1)) (fin (fun i => 3 * e1 i - 3 * e2 i + e3 i)).
Proof. exact tema_fin. Qed.
Print Assumptions C37_tema.
Example C37_tema_met := C37_tema _ 8 2 _ 2 exR3_feeds ltac:(lia) ltac:(lia).

Theorem C37_gdema :
  forall (a : lineR) n k x p v,
    feeds a n k (fin x) -> (1 <= p)%nat -> (k + 2 * (p - 1) + 1 <= n)%nat ->
    exists y e1 e2, gdema ema p (Fin v) a = Ok y /\
      is_ema p k x e1 /\ is_ema p (k + (p - 1)) e1 e2 /\
      delivers y n (k + 2 * (p - 1)) (fin (fun i => (1 + v) * e1 i - v * e2 i)).
Proof. exact gdema_fin. Qed.
Print Assumptions C37_gdema.
Example C37_gdema_met := C37_gdema _ 8 2 _ 3 1 exR3_feeds ltac:(lia) ltac:(lia).

Theorem C37_t3 :
  forall (a : lineR) n k x p v,
    feeds a n k (fin x) -> (1 <= p)%nat -> (k + 6 * (p - 1) + 1 <= n)%nat ->
    exists y e1 e2 e3 e4 e5 e6, t3 p (Fin v) a = Ok y /\
      is_ema p k x e1 /\ is_ema p (k + (p - 1)) e1 e2 /\ is_ema p (k + 2 * (p - 1)) e2 e3 /\
      is_ema p (k + 3 * (p - 1)) e3 e4 /\ is_ema p (k + 4 * (p - 1)) e4 e5 /\
      is_ema p (k + 5 * (p - 1)) e5 e6 /\
      delivers y n (k + 6 * (p - 1)) (fin (fun i =>
        - v ^ 3 * e6 i + (3 * v ^ 2 + 3 * v ^ 3) * e5 i
        + (- 6 * v ^ 2 - 3 * v - 3 * v ^ 3) * e4 i
        + (1 + 3 * v + v ^ 3 + 3 * v ^ 2) * e3 i)).
Proof. exact t3_fin. Qed.
Print Assumptions C37_t3.
Example C37_t3_met := C37_t3 _ 8 0 _ 2 (7 / 10) exR_feeds ltac:(lia) ltac:(lia).

(** t3 with _gd=True: three times gdema *)
Theorem C37_t3_gd :
  forall (a : lineR) n k x p v,
    feeds a n k (fin x) -> (1 <= p)%nat -> (k + 6 * (p - 1) + 1 <= n)%nat ->
    exists y g1 g2 g3, t3_gd ema p (Fin v) a = Ok y /\
      is_gdema p k v x g1 /\ is_gdema p (k + 2 * (p - 1)) v g1 g2 /\ is_gdema p (k + 4 * (p - 1)) v g2 g3 /\
      delivers y n (k + 6 * (p - 1)) (fin g3).
Proof. exact t3_gd_fin. Qed.
Print Assumptions C37_t3_gd.
(** because of the seeds the two forms of t3 are not the same numbers *)
Example C37_t3_gd_run :
  (exists l, t3_gd ema 1%nat (Fin (7#10)%Q) exQ = Ok l /\ lmp l = 1%Z) /\
  (exists l l' u u', t3_gd ema 2%nat (Fin (7#10)%Q) exQ = Ok l /\ t3 2%nat (Fin (7#10)%Q) exQ = Ok l' /\
    lmp l = 7%Z /\ lmp l' = 7%Z /\ nth_error (lser l) 6 = Some (Fin u) /\ nth_error (lser l') 6 = Some (Fin u') /\
    Qeq_bool u u' = false).
Proof.
  split; [eexists; split; [vm_compute; reflexivity|reflexivity]|].
  do 4 eexists. split; [vm_compute; reflexivity|]. split; [vm_compute; reflexivity|].
  split; [reflexivity|]. split; [reflexivity|]. split; [reflexivity|]. split; [reflexivity|].
  vm_compute. reflexivity.
Qed.

Theorem C37_trix :
  forall (a : lineR) n k x p,
    feeds a n k (fin x) -> (1 <= p)%nat -> (k + 3 * (p - 1) + 1 <= n)%nat ->
    exists y e1 e2 e3, trix ema p a = Ok y /\
      is_ema p k x e1 /\ is_ema p (k + (p - 1)) e1 e2 /\ is_ema p (k + 2 * (p - 1)) e2 e3 /\
      ((forall i, (k + 3 * (p - 1) <= i)%nat -> e3 i <> 0) ->
       delivers y n (k + 3 * (p - 1) + 1)
         (fin (fun i => 100 * ((e3 i - e3 (i - 1)%nat) / e3 (i - 1)%nat)))).
Proof. exact trix_fin. Qed.
Print Assumptions C37_trix.
Example C37_trix_met := C37_trix _ 8 2 _ 2 exR3_feeds ltac:(lia) ltac:(lia).
(** without the restriction: after a zero the change is an infinity with the sign of the average, or NaN *)
Theorem C37_trix_any :
  forall (a : lineR) n k x p,
    feeds a n k (fin x) -> (1 <= p)%nat -> (k + 3 * (p - 1) + 1 <= n)%nat ->
    exists y e1 e2 e3, trix ema p a = Ok y /\
      is_ema p k x e1 /\ is_ema p (k + (p - 1)) e1 e2 /\ is_ema p (k + 2 * (p - 1)) e2 e3 /\
      delivers y n (k + 3 * (p - 1) + 1) (fun i =>
        if Req_EM_T (e3 (i - 1)%nat) 0 then quot (e3 i) 0
        else Fin (100 * ((e3 i - e3 (i - 1)%nat) / e3 (i - 1)%nat))).
Proof. exact trix_any. Qed.
Print Assumptions C37_trix_any.
Example C37_trix_any_met := C37_trix_any _ 8 2 _ 2 exR3_feeds ltac:(lia) ltac:(lia).

(** trima: a mean of means whose two windows overlap to exactly the last [p] bars *)
Theorem C37_trima :
  forall (a : lineR) n k x p,
    feeds a n k (fin x) -> (1 <= p)%nat ->
    exists p1 p2, (1 <= p1)%nat /\ (1 <= p2)%nat /\ (p1 + p2 = p + 1)%nat /\ (p2 <= p1 <= p2 + 1)%nat /\
      delivers (trima p a) n (k + p - 1)
        (fin (fun i => Rmean (lastp (fun j => Rmean (lastp x j p2)) i p1))).
Proof. exact trima_fin. Qed.
Print Assumptions C37_trima.
Example C37_trima_met := C37_trima _ 8 2 _ 4 exR3_feeds ltac:(lia).
Theorem C37_trima_within :
  forall (a : lineR) n k x p,
    feeds a n k (fin x) -> (1 <= p)%nat ->
    exists t, delivers (trima p a) n (k + p - 1) (fin t) /\
      forall i lo hi, (k + p - 1 <= i)%nat ->
        (forall v, In v (lastp x i p) -> lo <= v <= hi) -> lo <= t i <= hi.
Proof. exact trima_within. Qed.
Print Assumptions C37_trima_within.
Example C37_trima_within_met := C37_trima_within _ 8 2 _ 4 exR3_feeds ltac:(lia).

(** every average reproduces a constant series *)
Theorem C37_constant :
  forall (a : lineR) n k x p c,
    feeds a n k (fin x) -> (1 <= p)%nat -> (forall j, (k <= j)%nat -> x j = c) ->
    delivers (sma p a) n (k + p - 1) (fin (fun _ => c)) /\
    delivers (wma p a) n (k + p - 1) (fin (fun _ => c)) /\
    delivers (trima p a) n (k + p - 1) (fin (fun _ => c)).
Proof.
  exact (fun a n k x p c H1 H2 H3 =>
    conj (sma_const H1 H2 H3) (conj (wma_const H1 H2 H3) (trima_const H1 H2 H3))).
Qed.
Print Assumptions C37_constant.
Example C37_constant_met := C37_constant _ 3 0 _ 2 4 flat_feeds ltac:(lia) (fun _ _ => eq_refl).
Theorem C37_constant_exponential :
  forall (a : lineR) n k x p c v,
    feeds a n k (fin x) -> (1 <= p)%nat -> (forall j, (k <= j)%nat -> x j = c) ->
    ((k + p <= n)%nat ->
       exists y, ema p a = Ok y /\ delivers y n (k + p - 1) (fin (fun _ => c))) /\
    ((k + p <= n)%nat ->
       exists y, smma p a = Ok y /\ delivers y n (k + p - 1) (fin (fun _ => c))) /\
    ((k + 2 * (p - 1) + 1 <= n)%nat ->
       exists y, dema ema p a = Ok y /\ delivers y n (k + 2 * (p - 1)) (fin (fun _ => c))) /\
    ((k + 3 * (p - 1) + 1 <= n)%nat ->
       exists y, tema ema p a = Ok y /\ delivers y n (k + 3 * (p - 1)) (fin (fun _ => c))) /\
    ((k + 2 * (p - 1) + 1 <= n)%nat ->
       exists y, gdema ema p (Fin v) a = Ok y /\ delivers y n (k + 2 * (p - 1)) (fin (fun _ => c))) /\
    ((k + 6 * (p - 1) + 1 <= n)%nat ->
       exists y, t3 p (Fin v) a = Ok y /\ delivers y n (k + 6 * (p - 1)) (fin (fun _ => c))).
Proof.
  exact (fun a n k x p c v H1 H2 H3 =>
    conj (ema_const H1 H2 H3) (conj (smma_const H1 H2 H3) (conj (dema_const H1 H2 H3)
    (conj (tema_const H1 H2 H3) (conj (gdema_const H1 H2 H3 v) (t3_const H1 H2 H3 v)))))).
Qed.
Print Assumptions C37_constant_exponential.

Example C37_run :
  dema ema 2%nat exQ = Ok (mkLine 3 [NaN; NaN; Fin 2; Fin (100#27); Fin (254#81); Fin (532#81); Fin (4558#729); Fin (19184#2187)]%Q) /\
  trima 4 exQ = mkLine 4 [NaN; NaN; NaN; Fin (19#6); Fin (10#3); Fin (23#6); Fin 5; Fin (19#3)]%Q /\
  (exists l, t3 2%nat (Fin (7#10)%Q) exQ = Ok l /\ lmp l = 7%Z) /\
  (exists l, trix ema 2%nat exQ = Ok l /\ lmp l = 5%Z).
Proof.
  split; [vm_compute; reflexivity|]. split; [vm_compute; reflexivity|].
  split; eexists; (split; [vm_compute; reflexivity|reflexivity]).
Qed.

(** C38 holds for the window averages: a history shorter than the minimum period gives NaN *)
Theorem C38_short_window_partial :
  forall (V : Type) (N : Num V) (a : line V) n k f p,
    feeds a n k f -> (1 <= p)%nat -> (n < k + p)%nat ->
    lser (sma p a) = repeat vnan n /\ lser (wma p a) = repeat vnan n.
Proof. exact (fun V N a n k f p H1 H2 H3 => conj (sma_short H1 H2 H3) (wma_short H1 H2 H3)). Qed.
Print Assumptions C38_short_window_partial.
Example C38_short_window_partial_met := C38_short_window_partial _ _ _ 8 2 _ 7 exR3_feeds ltac:(lia) ltac:(lia).
(** ... and fails for every exponential one: the seed is written through index -1 of an
    empty slice, which raises *)
Theorem C38_short_exponential_refuted :
  forall (V : Type) (N : Num V) (a : line V) n k f p,
    feeds a n k f -> (1 <= p)%nat -> (n < k + p)%nat ->
    ema p a = Raise IndexError /\ smma p a = Raise IndexError.
Proof. exact @ema_short. Qed.
Print Assumptions C38_short_exponential_refuted.
Example C38_run :
  lser (sma 9 exQ) = repeat NaN 8 /\ ema 9%nat exQ = Raise IndexError.
Proof. vm_compute. split; reflexivity. Qed.

(** C82: ewma declares the warm-up of the input plus p - 1 bars, but holds values from the first usable bar on *)
Theorem C82_ewma :
  forall (a : lineR) n k x p, feeds a n k (fin x) -> (1 <= p)%nat ->
    exists e, is_ewm p k x e /\ lmp (ewma p false a) = Z.of_nat (k + p) /\
      length (lser (ewma p false a)) = n /\
      forall i, (i < n)%nat ->
        nth_error (lser (ewma p false a)) i = Some (if (i <? k)%nat then NaN else Fin (e i)).
Proof. exact ewma_plain. Qed.
Print Assumptions C82_ewma.
Example C82_ewma_met := C82_ewma _ 8 2 _ 3 exR3_feeds ltac:(lia).
Theorem C82_ewma_adjusted :
  forall (a : lineR) n k x p, feeds a n k (fin x) -> (1 <= p)%nat ->
    exists e, is_weighted_history p k x e /\ lmp (ewma p true a) = Z.of_nat (k + p) /\
      length (lser (ewma p true a)) = n /\
      forall i, (i < n)%nat ->
        nth_error (lser (ewma p true a)) i = Some (if (i <? k)%nat then NaN else Fin (e i)).
Proof. exact ewma_adjusted. Qed.
Print Assumptions C82_ewma_adjusted.
Example C82_ewma_adjusted_met := C82_ewma_adjusted _ 8 2 _ 3 exR3_feeds ltac:(lia).
Theorem C82_within :
  forall p k x e, (1 <= p)%nat -> is_ewm p k x e \/ is_weighted_history p k x e ->
    forall i lo hi, (k <= i)%nat -> within x k i lo hi -> lo <= e i <= hi.
Proof.
  exact (fun p k x e Hp H => match H with
    | or_introl E => @ewm_within p k x e Hp E
    | or_intror E => @weighted_within p k x e Hp E end).
Qed.
Print Assumptions C82_within.
Example C82_run :
  ewma 3%nat false (raw (map Fin [1; 5; 2]%Q)) = mkLine 3 [Fin 1; Fin 3; Fin (5#2)]%Q /\
  (exists l, ewma 3%nat true (raw (map Fin [1; 5; 2]%Q)) = l /\
     map (fun v => match v with Fin q => Fin (Qred q) | _ => v end) (lser l) = [Fin 1; Fin (11#3); Fin (19#7)]%Q).
Proof. split; [vm_compute; reflexivity|]. eexists. split; [vm_compute; reflexivity|vm_compute; reflexivity]. Qed.

(** C83: two histories with the same prices after bar m (bar m + q of the other) *)
Theorem C83_ema_fades :
  forall (a a' : lineR) n n' k k' x x' p m q,
    feeds a n k (fin x) -> feeds a' n' k' (fin x') -> (1 <= p)%nat -> (k + p <= n)%nat -> (k' + p <= n')%nat ->
    (k' + p - 1 <= m)%nat -> (k + p - 1 <= m + q)%nat -> (forall i, (m < i < n')%nat -> x' i = x (i + q)%nat) ->
    exists y y' e e', ema p a = Ok y /\ ema p a' = Ok y' /\
      delivers y n (k + p - 1) (fin e) /\ delivers y' n' (k' + p - 1) (fin e') /\
      (forall i, (m <= i < n')%nat ->
         e' i - e (i + q)%nat = (1 - 2 / (INR p + 1)) ^ (i - m) * (e' m - e (m + q)%nat)) /\
      (forall lo hi, (forall j, lo <= x j <= hi) -> (forall j, lo <= x' j <= hi) ->
         forall i, (m <= i < n')%nat -> Rabs (e' i - e (i + q)%nat) <= (1 - 2 / (INR p + 1)) ^ (i - m) * (hi - lo)).
Proof. exact ema_fades. Qed.
Print Assumptions C83_ema_fades.
Example C83_ema_fades_met := C83_ema_fades _ _ 8 7 0 0 _ _ 3 2 1 exR_feeds (raw_fin_feeds [5; 2; 4; 3; 7; 6; 9])
  ltac:(lia) ltac:(lia) ltac:(cbn; lia) ltac:(lia) ltac:(lia) ltac:(intros i Hi; do 8 (destruct i as [|i]; [try reflexivity|]); cbn in Hi; lia).
Theorem C83_smma_fades :
  forall (a a' : lineR) n n' k k' x x' p m q,
    feeds a n k (fin x) -> feeds a' n' k' (fin x') -> (1 <= p)%nat -> (k + p <= n)%nat -> (k' + p <= n')%nat ->
    (k' + p - 1 <= m)%nat -> (k + p - 1 <= m + q)%nat -> (forall i, (m < i < n')%nat -> x' i = x (i + q)%nat) ->
    exists y y' e e', smma p a = Ok y /\ smma p a' = Ok y' /\
      delivers y n (k + p - 1) (fin e) /\ delivers y' n' (k' + p - 1) (fin e') /\
      (forall i, (m <= i < n')%nat ->
         e' i - e (i + q)%nat = (1 - 1 / INR p) ^ (i - m) * (e' m - e (m + q)%nat)) /\
      (forall lo hi, (forall j, lo <= x j <= hi) -> (forall j, lo <= x' j <= hi) ->
         forall i, (m <= i < n')%nat -> Rabs (e' i - e (i + q)%nat) <= (1 - 1 / INR p) ^ (i - m) * (hi - lo)).
Proof. exact smma_fades. Qed.
Print Assumptions C83_smma_fades.
Example C83_smma_fades_met := C83_smma_fades _ _ 8 7 0 0 _ _ 3 2 1 exR_feeds (raw_fin_feeds [5; 2; 4; 3; 7; 6; 9])
  ltac:(lia) ltac:(lia) ltac:(cbn; lia) ltac:(lia) ltac:(lia) ltac:(intros i Hi; do 8 (destruct i as [|i]; [try reflexivity|]); cbn in Hi; lia).
Theorem C83_vanishes : forall b eps, 0 <= b < 1 -> 0 < eps -> exists d, forall d', (d <= d')%nat -> b ^ d' < eps.
Proof. exact fade_vanishes. Qed.
Print Assumptions C83_vanishes.
(** dropping the first bar of [exR]: m = 2, q = 1 for the period 3 *)
Example C83_ex : feeds exR 8 0 (fin exx) /\
  feeds (raw (map Fin [5; 2; 4; 3; 7; 6; 9])) 7 0 (fin (fun i => nth i [5; 2; 4; 3; 7; 6; 9] 0)) /\
  forall i, (2 < i < 7)%nat -> nth i [5; 2; 4; 3; 7; 6; 9] 0 = exx (i + 1).
Proof.
  split; [exact exR_feeds|]. split; [exact (raw_fin_feeds [5; 2; 4; 3; 7; 6; 9])|].
  intros i [H1 H2]. do 7 (destruct i as [|i]; [try lia; reflexivity|]). lia.
Qed.
