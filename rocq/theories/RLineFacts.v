(** Line operations on finite (real-valued) lines. *)
From Coq Require Import ZArith List Bool Lia Arith Reals Lra.
From Verif Require Import Num Series Line Spec RSpec LineFacts ScanFacts RFacts OpFacts IndMA MAFacts.
Import ListNotations.
Set Implicit Arguments.
Local Open Scope R_scope.

Lemma vdiv_quot a b : vdiv (Fin a) (Fin b) = quot a b.
Proof.
  unfold quot. destruct (Req_EM_T b 0) as [->|Hb].
  - rewrite vdiv_fin0. destruct (Rlt_dec 0 a) as [H|H].
    + now apply inf_signed_pos.
    + destruct (Rlt_dec a 0) as [H'|H'].
      * now apply inf_signed_neg.
      * replace a with 0 by lra. apply inf_signed0.
  - now apply vdiv_fin.
Qed.

Lemma quot_fin a b : b <> 0 -> quot a b = Fin (a / b).
Proof. intro H. unfold quot. destruct (Req_EM_T b 0); [contradiction|reflexivity]. Qed.
Lemma quot_00 : quot 0 0 = NaN.
Proof.
  unfold quot. destruct (Req_EM_T 0 0); [|lra].
  destruct (Rlt_dec 0 0); [lra|]. destruct (Rlt_dec 0 0); [lra|reflexivity].
Qed.
Lemma quot_pos0 a : 0 < a -> quot a 0 = PInf.
Proof.
  intro H. unfold quot. destruct (Req_EM_T 0 0); [|lra]. now destruct (Rlt_dec 0 a).
Qed.
Lemma quot_neg0 a : a < 0 -> quot a 0 = NInf.
Proof.
  intro H. unfold quot. destruct (Req_EM_T 0 0); [|lra]. destruct (Rlt_dec 0 a); [lra|].
  now destruct (Rlt_dec a 0).
Qed.

Section Fin.
  Variables (n : nat).

  Lemma ladd_fin (a b : lineR) ka kb x y :
    feeds a n ka (fin x) -> feeds b n kb (fin y) ->
    delivers (ladd a b) n (Nat.max ka kb) (fin (fun i => x i + y i)).
  Proof.
    intros Ha Hb. eapply delivers_ext; [|apply binop_delivers; eauto]. reflexivity.
  Qed.
  Lemma lsub_fin (a b : lineR) ka kb x y :
    feeds a n ka (fin x) -> feeds b n kb (fin y) ->
    delivers (lsub a b) n (Nat.max ka kb) (fin (fun i => x i - y i)).
  Proof.
    intros Ha Hb. eapply delivers_ext; [|apply binop_delivers; eauto]. reflexivity.
  Qed.
  Lemma lmul_fin (a b : lineR) ka kb x y :
    feeds a n ka (fin x) -> feeds b n kb (fin y) ->
    delivers (lmul a b) n (Nat.max ka kb) (fin (fun i => x i * y i)).
  Proof.
    intros Ha Hb. eapply delivers_ext; [|apply binop_delivers; eauto]. reflexivity.
  Qed.
  Lemma ldiv_quot (a b : lineR) ka kb x y :
    feeds a n ka (fin x) -> feeds b n kb (fin y) ->
    delivers (ldiv a b) n (Nat.max ka kb) (fun i => quot (x i) (y i)).
  Proof.
    intros Ha Hb. eapply delivers_ext; [|apply binop_delivers; eauto].
    intros i _. apply vdiv_quot.
  Qed.
  Lemma ldiv_fin (a b : lineR) ka kb x y :
    feeds a n ka (fin x) -> feeds b n kb (fin y) ->
    (forall i, (Nat.max ka kb <= i < n)%nat -> y i <> 0) ->
    delivers (ldiv a b) n (Nat.max ka kb) (fin (fun i => x i / y i)).
  Proof.
    intros Ha Hb Hy. eapply delivers_ext; [|apply ldiv_quot; eauto].
    intros i Hi. apply quot_fin. now apply Hy.
  Qed.

  Lemma adds_fin (a : lineR) k x c :
    feeds a n k (fin x) -> delivers (binop_s vadd a (Fin c)) n k (fin (fun i => x i + c)).
  Proof. intro H. eapply delivers_ext; [|apply binop_s_delivers; eauto]. reflexivity. Qed.
  Lemma subs_fin (a : lineR) k x c :
    feeds a n k (fin x) -> delivers (binop_s vsub a (Fin c)) n k (fin (fun i => x i - c)).
  Proof. intro H. eapply delivers_ext; [|apply binop_s_delivers; eauto]. reflexivity. Qed.
  Lemma muls_fin (a : lineR) k x c :
    feeds a n k (fin x) -> delivers (binop_s vmul a (Fin c)) n k (fin (fun i => x i * c)).
  Proof. intro H. eapply delivers_ext; [|apply binop_s_delivers; eauto]. reflexivity. Qed.
  Lemma divs_fin (a : lineR) k x c :
    c <> 0 ->
    feeds a n k (fin x) -> delivers (binop_s vdiv a (Fin c)) n k (fin (fun i => x i / c)).
  Proof.
    intros Hc H. eapply delivers_ext; [|apply binop_s_delivers; eauto].
    intros i _. now apply vdiv_fin.
  Qed.
  Lemma rmuls_fin (a : lineR) k x c :
    feeds a n k (fin x) -> delivers (rbinop_s vmul (Fin c) a) n k (fin (fun i => c * x i)).
  Proof. intro H. eapply delivers_ext; [|apply rbinop_s_delivers; eauto]. reflexivity. Qed.
  Lemma rsubs_fin (a : lineR) k x c :
    feeds a n k (fin x) -> delivers (rbinop_s vsub (Fin c) a) n k (fin (fun i => c - x i)).
  Proof. intro H. eapply delivers_ext; [|apply rbinop_s_delivers; eauto]. reflexivity. Qed.

  Lemma labs_fin (a : lineR) k x :
    feeds a n k (fin x) -> delivers (labs a) n k (fin (fun i => Rabs (x i))).
  Proof.
    intro H. eapply delivers_ext; [|apply mapop_delivers; eauto].
    intros i _. apply vabs_fin.
  Qed.

  Lemma diff_fin (a : lineR) k x p :
    feeds a n k (fin x) ->
    delivers (diff a (Z.of_nat p)) n (k + p) (fin (fun i => x i - x (i - p)%nat)).
  Proof.
    intro H. eapply delivers_ext; [|apply diff_delivers; eauto]; [reflexivity|apply nan_sub].
  Qed.

  Lemma ago_fin (a : lineR) k x p :
    feeds a n k (fin x) -> (1 <= p)%nat ->
    delivers (at_ago a (- Z.of_nat p)) n (k + p) (fin (fun i => x (i - p)%nat)).
  Proof. intros H Hp. now apply (@at_ago_delivers _ _ a n k p (fin x)). Qed.

  Lemma shift_fin (a : lineR) k x p :
    feeds a n k (fin x) ->
    delivers (shift a (Z.of_nat p)) n (k + p) (fin (fun i => x (i - p)%nat)).
  Proof. intros H. now apply (@shift_delivers _ _ a n k p (fin x)). Qed.

  Lemma clip_lo_fin t v : clip_lo (Fin t) (Fin v) = Fin (Rmax v t).
  Proof.
    unfold clip_lo. rewrite visnan_fin, vleb_fin. destruct (Rltb_spec v t); simpl; f_equal.
    - rewrite Rmax_right; lra.
    - rewrite Rmax_left; lra.
  Qed.
  Lemma clip_hi_fin t v : clip_hi (Fin t) (Fin v) = Fin (Rmin v t).
  Proof.
    unfold clip_hi. rewrite visnan_fin, vleb_fin. destruct (Rltb_spec t v); simpl; f_equal.
    - rewrite Rmin_right; lra.
    - rewrite Rmin_left; lra.
  Qed.
  Lemma lclip_lo_fin (a : lineR) k x t :
    feeds a n k (fin x) -> delivers (lclip_lo a (Fin t)) n k (fin (fun i => Rmax (x i) t)).
  Proof.
    intro H. eapply delivers_ext; [|apply lclip_lo_delivers; eauto]. intros i _. apply clip_lo_fin.
  Qed.
  Lemma lclip_hi_fin (a : lineR) k x t :
    feeds a n k (fin x) -> delivers (lclip_hi a (Fin t)) n k (fin (fun i => Rmin (x i) t)).
  Proof.
    intro H. eapply delivers_ext; [|apply lclip_hi_delivers; eauto]. intros i _. apply clip_hi_fin.
  Qed.
  Lemma lclip_lo_l_fin (a b : lineR) ka kb x y :
    feeds a n ka (fin x) -> feeds b n kb (fin y) ->
    delivers (lclip_lo_l a b) n (Nat.max ka kb) (fin (fun i => Rmax (x i) (y i))).
  Proof.
    intros Ha Hb. eapply stdop2_delivers; eauto. cbv zeta. rewrite map2_map_seq.
    apply map_ext_seq. intros i _. apply clip_lo_fin.
  Qed.
  Lemma lclip_hi_l_fin (a b : lineR) ka kb x y :
    feeds a n ka (fin x) -> feeds b n kb (fin y) ->
    delivers (lclip_hi_l a b) n (Nat.max ka kb) (fin (fun i => Rmin (x i) (y i))).
  Proof.
    intros Ha Hb. eapply stdop2_delivers; eauto. cbv zeta. rewrite map2_map_seq.
    apply map_ext_seq. intros i _. apply clip_hi_fin.
  Qed.

  (** change of the delivered function and of the bar expression *)
  Lemma fin_ext (a : lineR) k k' x y :
    k = k' -> (forall i, (k' <= i < n)%nat -> x i = y i) ->
    delivers a n k (fin x) -> delivers a n k' (fin y).
  Proof.
    intros -> H D. eapply delivers_ext; [|exact D]. intros i Hi. unfold fin. f_equal. auto.
  Qed.
  Lemma del_ext {V} {N : Num V} (a : line V) k k' f g :
    k = k' -> (forall i, (k' <= i < n)%nat -> f i = g i) ->
    delivers a n k f -> delivers a n k' g.
  Proof. intros -> H D. eapply delivers_ext; eauto. Qed.
End Fin.

(** ** Maximum and minimum of lists *)

Lemma fold_max l a :
  (fold_left Rmax l a = a \/ In (fold_left Rmax l a) l) /\
  a <= fold_left Rmax l a /\ forall v, In v l -> v <= fold_left Rmax l a.
Proof.
  revert a. induction l as [|b l IH]; intro a; simpl.
  - repeat split; auto; [lra|tauto].
  - destruct (IH (Rmax a b)) as (H1 & H2 & H3). pose proof (Rmax_l a b). pose proof (Rmax_r a b).
    split; [|split].
    + destruct H1 as [->|]; auto. unfold Rmax. destruct (Rle_dec a b); auto.
    + lra.
    + intros v [->|Hv]; [lra|]. auto.
Qed.
Lemma fold_min l a :
  (fold_left Rmin l a = a \/ In (fold_left Rmin l a) l) /\
  fold_left Rmin l a <= a /\ forall v, In v l -> fold_left Rmin l a <= v.
Proof.
  revert a. induction l as [|b l IH]; intro a; simpl.
  - repeat split; auto; [lra|tauto].
  - destruct (IH (Rmin a b)) as (H1 & H2 & H3). pose proof (Rmin_l a b). pose proof (Rmin_r a b).
    split; [|split].
    + destruct H1 as [->|]; auto. unfold Rmin. destruct (Rle_dec a b); auto.
    + lra.
    + intros v [->|Hv]; [lra|]. auto.
Qed.
Lemma lmax_is l : l <> [] -> is_max (lmax l) l.
Proof.
  destruct l as [|a l]; [congruence|]. intros _. unfold lmax.
  destruct (fold_max l a) as (H1 & H2 & H3). split.
  - destruct H1 as [->|]; simpl; auto.
  - intros v [<-|Hv]; auto.
Qed.
Lemma lmin_is l : l <> [] -> is_min (lmin l) l.
Proof.
  destruct l as [|a l]; [congruence|]. intros _. unfold lmin.
  destruct (fold_min l a) as (H1 & H2 & H3). split.
  - destruct H1 as [->|]; simpl; auto.
  - intros v [<-|Hv]; auto.
Qed.
Lemma is_max_unique m m' l : is_max m l -> is_max m' l -> m = m'.
Proof. intros [H1 H2] [H3 H4]. apply Rle_antisym; auto. Qed.
Lemma is_min_unique m m' l : is_min m l -> is_min m' l -> m = m'.
Proof. intros [H1 H2] [H3 H4]. apply Rle_antisym; auto. Qed.

Lemma vmax2_fin a b : vmax2 (Fin a) (Fin b) = Fin (Rmax a b).
Proof.
  unfold vmax2. rewrite vltb_fin. destruct (Rltb_spec a b); f_equal.
  - rewrite Rmax_right; lra.
  - rewrite Rmax_left; lra.
Qed.
Lemma vmin2_fin a b : vmin2 (Fin a) (Fin b) = Fin (Rmin a b).
Proof.
  unfold vmin2. rewrite vltb_fin. destruct (Rltb_spec b a); f_equal.
  - rewrite Rmin_right; lra.
  - rewrite Rmin_left; lra.
Qed.
Lemma win_max_fin l : l <> [] -> win_max (map (@Fin R) l) = Fin (lmax l).
Proof.
  destruct l as [|a l]; [congruence|]. intros _. unfold win_max, lmax. simpl. revert a.
  induction l as [|b l IH]; intro a; simpl; auto. now rewrite vmax2_fin, IH.
Qed.
Lemma win_min_fin l : l <> [] -> win_min (map (@Fin R) l) = Fin (lmin l).
Proof.
  destruct l as [|a l]; [congruence|]. intros _. unfold win_min, lmin. simpl. revert a.
  induction l as [|b l IH]; intro a; simpl; auto. now rewrite vmin2_fin, IH.
Qed.

(** a rolling function of a finite line *)
Lemma rolling_fin G (g : list R -> R) (a : lineR) n k x p :
  (forall l, length l = p -> G (map Fin l) = Fin (g l)) ->
  feeds a n k (fin x) -> (1 <= p)%nat ->
  delivers (rolling p G a) n (k + p - 1) (fin (fun i => g (lastp x i p))).
Proof.
  intros HG Ha Hp. eapply delivers_ext; [|apply rolling_delivers; eauto].
  intros i Hi. cbv beta. rewrite win_fin, guard_win_fin, HG; auto. apply win_length.
Qed.
