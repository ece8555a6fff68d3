(** Lemmas behind Prop_LinesGen. *)
From Coq Require Import List String Bool Arith Lia.
From Verif Require Import Series Py PyFacts LinesGen LinesGenFacts Table Registry RegistryFacts.
Import ListNotations.
Set Implicit Arguments.
Local Open Scope string_scope.
Local Open Scope list_scope.

Lemma last_rename : forall (ms : dict string), ms <> [] -> exists ms' n o, ms = ms' ++ [(n, o)].
Proof.
  intros ms H. destruct (exists_last H) as [ms' [[n o] E]]. eauto.
Qed.

(** every renamed name goes to the new name declared last, provided no new name is itself renamed *)
Lemma generated_resolve : forall bases decl ext c, NoDup (names_of decl) ->
  lgenerate bases decl ext = Ok c ->
  (forall new old new' old', In (new, old) (lmaps c) -> In (new', old') (lmaps c) -> new <> old') ->
  forall new old, In (new, old) (lmaps c) ->
  exists final, last_name c = Some final /\ resolve c old = Slot final /\
    (resolve c old = Slot new <-> new = final).
Proof.
  intros bases decl ext c Hn H Hd new old Hin.
  assert (Hne : names_of decl <> []).
  { intro Q. rewrite lgenerate_inherit in H by exact Q.
    destruct ext; try discriminate; injection H as <-; destruct Hin. }
  destruct (@own_names bases decl ext Hne Hn) as [c' [Hc' [Hm [_ Hl]]]].
  assert (c' = c) by congruence. subst c'.
  assert (Hms : lmaps c <> []) by (intro Q; rewrite Q in Hin; destruct Hin).
  destruct (last_rename Hms) as [ms [n [o E]]].
  assert (Hlast : In (n, o) (lmaps c)) by (rewrite E; apply in_or_app; right; now left).
  assert (Hns : ~ In n (map snd (lmaps c))).
  { intro Q. apply in_map_iff in Q. destruct Q as [[n' o'] [Q1 Q2]]. cbn in Q1. subst o'. exact (Hd _ _ _ _ Hlast Q2 eq_refl). }
  assert (Hnl : In n (lnames c)).
  { apply Hl. split.
    - apply Hm in Hlast. destruct Hlast as [Hr|[_ [i [Hi _]]]]; [eapply maps_names; eauto|eapply nth_error_In; eauto].
    - intros [x Hx]. apply Hm in Hx. apply Hns. apply (in_map snd) in Hx. exact Hx. }
  exists n. split.
  - unfold last_name. rewrite E. unfold dkeys. rewrite map_app. cbn [map fst]. apply last_map_some.
  - split; [eapply resolve_exact; eauto|eapply resolve_iff; eauto].
Qed.
