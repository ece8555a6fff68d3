(** Notions used in the statements about what stays in memory. *)
From Coq Require Import ZArith List Bool String.
From Verif Require Import Num Series Line Apply Py Mem MemSpec Keep.
Import ListNotations.
Set Implicit Arguments.
Local Open Scope list_scope.
Local Open Scope nat_scope.

Section KeepSpec.
  Context {V : Type} {N : Num V}.
  (** a line of one of these containers holds the Series *)
  Definition holds (st : store V) (cs : list (list nat)) (s : nat) : Prop :=
    exists c l, In c cs /\ In l c /\ series_of st l = Some s.
  (** the Series is in use: the caller has it, or a result the caller has, or the library.  (The attributes that the code
      of an indicator gives it are left out.) *)
  Definition mine (w : kworld V) (s : nat) : Prop := In s (k_mine w).
  Definition by_result (w : kworld V) (s : nat) : Prop :=
    exists k c, In k (k_refs w) /\ (nth_error (w_inds (k_w w)) k = Some c \/ nth_error (k_ins w) k = Some c) /\
      holds (k_st w) [c] s.
  Definition by_library (w : kworld V) (s : nat) : Prop := holds (k_st w) (k_reg w) s.
  Definition in_use (w : kworld V) (s : nat) : Prop := mine w s \/ by_result w s \/ by_library w s.
  (** the caller has dropped everything *)
  Definition all_dropped (w : kworld V) : Prop := k_mine w = [] /\ k_refs w = [].

  (** the Series is one of the inputs of the call, which were accepted *)
  Definition input_of_call (p : prog V) (gs : list given) (st : store V) (s : nat) : Prop :=
    (exists st1 e, take_inputs st st [] (pr_in p) gs = (st1, Ok e)) /\
    exists j g m, j < List.length (pr_in p) /\ nth_error gs j = Some g /\ input_of st g = Some (m, s).
  (** the Series is that of a line the body has assigned to an output, the last one if there are several.  The body may
      have raised afterwards *)
  Definition output_of_call (p : prog V) (gs : list given) (st : store V) (s : nat) : Prop :=
    exists st1 e l, take_inputs st st [] (pr_in p) gs = (st1, Ok e) /\
      In l (stored_outs (last_env (pr_steps p) st1 e)) /\ series_of (fst (run p gs st)) l = Some s.

  (** calls among the events *)
  Definition refused (p : prog V) (gs : list given) (st : store V) : Prop :=
    exists st1 x, take_inputs st st [] (pr_in p) gs = (st1, Raise x).
  Definition kcalls_only (bs : list body) (evs : list (kevent V)) : Prop :=
    forall p gs, In (KMake p gs) evs -> exists b, In b bs /\ of_body b p.
  (** all the lines of [st] are the same in [st'], and all its Series have the same values *)
  Definition same_values (st st' : store V) : Prop :=
    (forall k s, nth_error (sers st) k = Some s -> exists s', nth_error (sers st') k = Some s' /\ so_vals s' = so_vals s) /\
    (forall l o, nth_error (lins st) l = Some o -> nth_error (lins st') l = Some o).
End KeepSpec.
