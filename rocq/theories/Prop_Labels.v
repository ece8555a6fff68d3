(** Property theorems C129: data whose index is made of integers.  Model: Labels.v.  In pandas an integer in
    brackets is a position on an index of dates, and a label on an index of integers - which every Series
    built from a list and every csv file read without [index_col] has.  The property - numbered bars work like
    dated ones - holds for the smoothings without a seed value and fails for the others. *)
From Coq Require Import ZArith QArith List Bool Lia.
From Verif Require Import Num Series Line LineApi Strict IndMA IndBasic IndRange IndOsc IndVol IndHT IndMama Labels LabelsFacts LabelsFacts2.
Import ListNotations.
Local Open Scope Z_scope.

(** With dates the exponential averages are the ones proved about elsewhere in this development (here [lmp a]
    is the minimum period of the input, [first_bar] the bar of the first result). *)
Theorem C129_dates :
  forall (V : Type) (N : Num V) (a : line V) (pval po pe alp : Z) (sd : seed) (F : list V -> res (list V)),
    1 <= lmp a -> pe + 1 <= pval -> 0 <= pe -> po = 0 \/ pe + 1 <= po ->
    first_bar a pval po pe alp < Z.of_nat (bars a) ->
    (forall s r, F s = Ok r -> length r = length s) ->
    ewm_any Dates a pval po pe alp sd F = ewm_call a pval po pe alp sd F.
Proof. exact @ewm_dates. Qed.
Print Assumptions C129_dates.

(** With integers and no bar labelled -1, no seeded exponential smoothing gives a result, whatever the
    prices, the periods, the number of bars and the smoothing: ValueError, or KeyError if the seed is the
    last value and no bar carries the label of the first result. *)
Theorem C129_integers_refuted :
  forall (V : Type) (N : Num V) (a : line V) (pval po pe alp : Z) (sd : seed) (F : list V -> res (list V)) (ls : list Z),
    1 <= lmp a -> pe + 1 <= pval -> 0 <= pe -> po = 0 \/ pe + 1 <= po ->
    length ls = bars a -> ~ In (-1) ls -> (1 <= bars a)%nat ->
    sd <> SEED_NONE -> sd <> SEED_ZFILL ->
    (forall s, exists r, F s = Ok r /\ length r = length s) ->
    ewm_any (Ints ls) a pval po pe alp sd F =
      Raise (match sd with
             | SEED_LAST => if existsb (Z.eqb (first_bar a pval po pe alp)) ls then ValueError else KeyError
             | _ => ValueError
             end).
Proof.
  intros V N a pval po pe alp sd F ls H1 H2 H3 H4 H5 H6 H7 S1 S2 HF.
  apply ewm_ints; auto. now destruct sd.
Qed.
Print Assumptions C129_integers_refuted.

(** Without a seed value the index does not matter. *)
Theorem C129_unseeded :
  forall (V : Type) (N : Num V) (a : line V) (pval po pe alp : Z) (sd : seed) (F : list V -> res (list V)) (ix : index),
    1 <= lmp a -> pe + 1 <= pval -> 0 <= pe -> po = 0 \/ pe + 1 <= po ->
    sd = SEED_NONE \/ sd = SEED_ZFILL ->
    ewm_any ix a pval po pe alp sd F = ewm_any Dates a pval po pe alp sd F.
Proof.
  intros V N a pval po pe alp sd F ix H1 H2 H3 H4 S.
  apply ewm_unseeded. destruct S as [-> | ->]; reflexivity.
Qed.
Print Assumptions C129_unseeded.

(** ... so on data with the default index - bars numbered from 0 - every indicator that starts from such an
    average fails, for every data with at least one bar and all periods. *)
Definition fails_on (n : nat) (V : Type) (N : Num V) (ma : ma_fun V) : Prop :=
  forall (h l c v : line V) (p q r k : nat) (sig : ma_fun V), (1 <= p)%nat ->
    Forall (fun x => bars x = n /\ 1 <= lmp x) [h; l; c; v] ->
    ma p c = Raise ValueError /\ dema ma p c = Raise ValueError /\ tema ma p c = Raise ValueError /\
    trix ma p c = Raise ValueError /\ macd ma sig p q r c = Raise ValueError /\
    apo ma p q c = Raise ValueError /\ ppo ma sig p q r c = Raise ValueError /\
    rsi ma p k c = Raise ValueError /\ atr ma p k h l c = Raise ValueError /\ natr ma p k h l c = Raise ValueError /\
    adosc ma p q h l c v = Raise ValueError.
Theorem C129_indicators_refuted :
  forall (V : Type) (N : Num V) (n : nat), (1 <= n)%nat ->
    fails_on n V N (ema_any (default_index n) SEED_AVG 0) /\ fails_on n V N (smma_any (default_index n) SEED_AVG).
Proof.
  intros V N n Hn.
  assert (K : forall ma : ma_fun V, (forall p, (1 <= p)%nat -> refuses ma p n) -> fails_on n V N ma).
  { intros ma R h l c v p q r k sig Hp F. pose proof (R p Hp) as Rp.
    inversion F as [|? ? Fh F1]; subst. inversion F1 as [|? ? Fl F2]; subst. inversion F2 as [|? ? Fc F3]; subst. inversion F3 as [|? ? Fv F4]; subst.
    pose proof Fc as [Bc Mc]. pose proof (refuses_atr ma p k n h l c Rp Fh Fl Fc) as [A1 A2].
    repeat (apply conj); auto.
    - now apply (refuses_dema ma p n).
    - now apply (refuses_tema ma p n).
    - now apply (refuses_trix ma p n).
    - now apply (refuses_macd ma sig p q r n).
    - now apply (refuses_apo ma p q n).
    - now apply (refuses_ppo ma sig p q r n).
    - now apply (refuses_rsi ma p k n).
    - now apply (refuses_adosc ma p q n). }
  split; apply K; intros p Hp.
  - apply ema_refuses; auto.
  - apply smma_refuses; auto.
Qed.
Print Assumptions C129_indicators_refuted.

Definition closes : line (ext Q) := raw [Fin 3%Q; Fin 5%Q; Fin 4%Q; Fin 8%Q].
(** the same four prices: an average with dates, an error with numbers *)
Example C129_met :
  ema_any Dates SEED_AVG 0 3%nat closes = Ok (mkLine 3 [NaN; NaN; Fin 4%Q; Fin 6%Q]) /\
  ema_any (default_index 4) SEED_AVG 0 3%nat closes = Raise ValueError /\
  bars closes = 4%nat /\ lmp closes = 1 /\ first_bar closes 3 0 0 1 = 2 /\ ~ In (-1) (map Z.of_nat (seq 0 4)).
Proof. repeat (apply conj); try (vm_compute; reflexivity). intro C. apply default_In in C. lia. Qed.

(** The directional movement family with its default accumulation, on every frame with numbered bars. *)
Theorem C129_directional_refuted :
  forall (V : Type) (N : Num V) (n : nat), (1 <= n)%nat ->
  forall (p k r q : nat) (early t : bool) (ma : ma_fun V) (h l c : line V),
    (1 <= p)%nat -> (early = true -> (2 <= p)%nat) -> Forall (fun x => bars x = n /\ 1 <= lmp x) [h; l; c] ->
    let sm := smacc_any (default_index n) p early SEED_SUM in
    plus_dm sm k h l = Raise ValueError /\ minus_dm sm k h l = Raise ValueError /\ dm sm k h l = Raise ValueError /\
    plus_di sm k h l c = Raise ValueError /\ minus_di sm k h l c = Raise ValueError /\ di sm k h l c = Raise ValueError /\
    dx sm k h l c = Raise ValueError /\ adx ma q sm k h l c = Raise ValueError /\ adxr t r ma q sm k h l c = Raise ValueError.
Proof.
  intros V N n Hn p k r q early t ma h l c Hp He F sm. inversion F as [|? ? H F1]; subst. inversion F1 as [|? ? L F2]; subst.
  inversion F2 as [|? ? C _]; subst. apply (refuses_dm sm k n); try assumption. intros a [A A'].
  apply (smacc_refuses SEED_SUM early n p); auto.
Qed.
Print Assumptions C129_directional_refuted.

(** kama with each of its two documented seeds, and mama. *)
Theorem C129_adaptive_refuted :
  forall (V : Type) (N : Num V) (T : NumT V) (n : nat), (1 <= n)%nat ->
  (forall (p q : nat) (fast slow : V) (a : line V), (1 <= p)%nat -> bars a = n -> lmp a = 1 ->
     kama_any (default_index n) p q fast slow SEED_AVG a = Raise ValueError /\
     kama_any (default_index n) p q fast slow SEED_LAST a =
       Raise (if Z.max (Z.of_nat p) (Z.of_nat q + Z.of_nat p - 1) - 1 <? Z.of_nat n then ValueError else KeyError)) /\
  (forall (fast slow : V) (a : line V), bars a = n -> lmp a = 1 -> mama_any (default_index n) fast slow (HLine a) = Raise ValueError) /\
  (forall (fast slow : V) (h l : line V), bars h = n -> lmp h = 1 -> bars l = n -> lmp l = 1 ->
     mama_any (default_index n) fast slow (HHighLow h l) = Raise ValueError).
Proof.
  intros V N T n Hn. split; [|split].
  - intros p q fast slow a Hp B M. split; now rewrite kama_refuses.
  - intros fast slow a B M. now apply mama_refuses.
  - intros fast slow h l B M B' M'. now apply mama_refuses.
Qed.
Print Assumptions C129_adaptive_refuted.

(** With dates and enough bars all of these are the indicators of the other files. *)
Theorem C129_same :
  forall (V : Type) (N : Num V) (p q : nat) (a : line V), 1 <= lmp a -> (1 <= p)%nat ->
    (forall sd, lmp a + Z.of_nat p - 2 < Z.of_nat (bars a) ->
       ema_any Dates sd 0 p a = ema_full p sd 0 a /\ smma_any Dates sd p a = smma_seed p sd a /\
       smacc_any Dates p false sd a = smacc p false sd a) /\
    (forall sd fast slow, lmp a = 1 -> Z.max (Z.of_nat p) (Z.of_nat q + Z.of_nat p - 1) <= Z.of_nat (bars a) ->
       kama_any Dates p q fast slow sd a = kama p q fast slow sd a).
Proof. exact @dates_same. Qed.
Print Assumptions C129_same.
Theorem C129_same_mama :
  forall (V : Type) (N : Num V) (T : NumT V) (fast slow : V) (n : nat) (inp : ht_in V), (12 <= n)%nat ->
    match inp with
    | HLine a => bars a = n /\ lmp a = 1
    | HHighLow h l => (bars h = n /\ lmp h = 1) /\ (bars l = n /\ lmp l = 1)
    end ->
    mama_any Dates fast slow inp = mama fast slow inp.
Proof. exact @mama_dates. Qed.
Print Assumptions C129_same_mama.
Example C129_same_mama_met (T : NumT (ext Q)) := C129_same_mama _ _ T (Fin (1 # 2)%Q) (Fin (1 # 20)%Q) 12
  (HHighLow (raw (map (fun i => Fin (inject_Z (Z.of_nat i) + 2)%Q) (seq 0 12))) (raw (map (fun i => Fin (inject_Z (Z.of_nat i))) (seq 0 12))))
  ltac:(lia) (conj (conj eq_refl eq_refl) (conj eq_refl eq_refl)).

Definition highs : line (ext Q) := raw [Fin 4%Q; Fin 6%Q; Fin 7%Q; Fin 9%Q].
Definition lows : line (ext Q) := raw [Fin 2%Q; Fin 3%Q; Fin 4%Q; Fin 5%Q].
Example C129_directional_met :
  plus_dm (smacc_any Dates 2 false SEED_SUM) 1 highs lows = Ok (mkLine 3 [NaN; NaN; Fin 3%Q; Fin (7 # 2)%Q]) /\
  plus_dm (smacc_any (default_index 4) 2 false SEED_SUM) 1 highs lows = Raise ValueError /\
  Forall (fun x => bars x = 4%nat /\ 1 <= lmp x) [highs; lows; closes] /\
  kama_any Dates 2 1 (Fin 2%Q) (Fin 30%Q) SEED_AVG closes <> Raise ValueError /\
  kama_any (default_index 4) 2 1 (Fin 2%Q) (Fin 30%Q) SEED_AVG closes = Raise ValueError.
Proof.
  split; [vm_compute; reflexivity|]. split; [vm_compute; reflexivity|]. split; [|split].
  - repeat constructor; cbn; lia.
  - vm_compute. discriminate.
  - vm_compute. reflexivity.
Qed.

(** ** assigning to an item: [line[i] = v] *)

(** With dates it replaces the bar at that position, counted from the end if negative, and nothing else;
    outside the data it raises. *)
Theorem C129_set_dates :
  forall (V : Type) (a : line V) (i : Z) (v : V),
    (forall k, (k < bars a)%nat -> i = Z.of_nat k \/ i = Z.of_nat k - Z.of_nat (bars a) ->
       exists b, line_set Dates a i v = Ok (Dates, b) /\ lmp b = lmp a /\ bars b = bars a /\
         forall j, nth_error (lser b) j = if (j =? k)%nat then Some v else nth_error (lser a) j) /\
    (i < - Z.of_nat (bars a) \/ Z.of_nat (bars a) <= i -> line_set Dates a i v = Raise IndexError).
Proof. intros V a i v. split; [intro k; apply set_dates|apply set_dates_out]. Qed.
Print Assumptions C129_set_dates.

(** With integers it replaces the bar with that label; without one it adds a bar at the end, under that label. *)
Theorem C129_set_integers :
  forall (V : Type) (a : line V) (ls : list Z) (i : Z) (v : V), length ls = bars a -> NoDup ls ->
    (forall k, nth_error ls k = Some i ->
       exists b, line_set (Ints ls) a i v = Ok (Ints ls, b) /\ lmp b = lmp a /\ bars b = bars a /\
         forall j, nth_error (lser b) j = if (j =? k)%nat then Some v else nth_error (lser a) j) /\
    (~ In i ls -> line_set (Ints ls) a i v = Ok (Ints (ls ++ [i]), mkLine (lmp a) (lser a ++ [v]))).
Proof. intros V a ls i v L D. split; [intros k E; now apply set_label|now apply set_label_new]. Qed.
Print Assumptions C129_set_integers.

(** Writing the last bar as [line[-1] = v]: with dates [line[-1]] then reads [v] and the line is as long as
    before; with the default index it also reads [v], but it is a new bar: every old one keeps its value. *)
Theorem C129_last_refuted :
  forall (V : Type) (a : line V) (v : V), (1 <= bars a)%nat ->
    (exists b, line_set Dates a (-1) v = Ok (Dates, b) /\ bars b = bars a /\ line_get b (-1) = Ok v) /\
    (exists ix b, line_set (default_index (bars a)) a (-1) v = Ok (ix, b) /\ bars b = S (bars a) /\ line_get b (-1) = Ok v /\
       forall j, (j < bars a)%nat -> nth_error (lser b) j = nth_error (lser a) j).
Proof. exact set_last_bar. Qed.
Print Assumptions C129_last_refuted.

Example C129_set_met :
  line_set Dates closes (-1) (Fin 9%Q) = Ok (Dates, raw [Fin 3%Q; Fin 5%Q; Fin 4%Q; Fin 9%Q]) /\
  line_set (default_index 4) closes (-1) (Fin 9%Q) = Ok (Ints [0; 1; 2; 3; -1], raw [Fin 3%Q; Fin 5%Q; Fin 4%Q; Fin 8%Q; Fin 9%Q]) /\
  line_set (Ints [10; 20; 30; 40]) closes 20 (Fin 9%Q) = Ok (Ints [10; 20; 30; 40], raw [Fin 3%Q; Fin 9%Q; Fin 4%Q; Fin 8%Q]) /\
  line_set Dates closes 20 (Fin 9%Q) = Raise IndexError /\ length [10; 20; 30; 40] = bars closes /\ NoDup [10; 20; 30; 40].
Proof.
  repeat (apply conj); try (vm_compute; reflexivity).
  repeat (constructor; [cbn; lia|]). constructor.
Qed.
