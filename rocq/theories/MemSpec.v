(** Notions used in the statements about the objects behind a computation. *)
From Coq Require Import ZArith List Bool String.
From Verif Require Import Num Series Line Apply Py Mem.
Import ListNotations.
Set Implicit Arguments.
Local Open Scope string_scope.
Local Open Scope list_scope.
Local Open Scope nat_scope.

(** every Line of the store holds a Series of the store *)
Definition wf_store {V} (st : store V) : Prop := forall o, In o (lins st) -> lo_ser o < List.length (sers st).

(** all the objects of [st] are still there in [st'], with the same contents *)
Definition untouched {V} (st st' : store V) : Prop :=
  (forall k s, nth_error (sers st) k = Some s -> nth_error (sers st') k = Some s) /\
  (forall l o, nth_error (lins st) l = Some o -> nth_error (lins st') l = Some o).

(** every indicator called in the history has one of the given bodies, whatever values it computes *)
Definition calls_only {V} (bs : list body) (evs : list (event V)) : Prop :=
  forall p gs, In (EMake p gs) evs -> exists b, In b bs /\ of_body b p.

(** the k-th indicator of the world has the line object [l] as its j-th output *)
Definition output {V} (w : world V) (k j l : nat) : Prop :=
  exists ls, nth_error (w_inds w) k = Some ls /\ nth_error ls j = Some l.

Section Values.
  Context {V : Type} {N : Num V}.
  (** the inputs as values: a Series has minimum period 1, a line brings its own *)
  Definition given_line (st : store V) (g : given) : option (line V) :=
    match g with
    | GSeries k => option_map (fun s => mkLine 1%Z (so_vals s)) (nth_error (sers st) k)
    | GLine l => line_at st l
    end.
  Fixpoint given_env (st : store V) (e : venv) (names : list string) (gs : list given) : res (venv (V:=V)) :=
    match names, gs with
    | [], _ => Ok e
    | n :: names', g :: gs' =>
        match given_line st g with
        | None => Raise TypeError
        | Some v => given_env st (dset e ("i." ++ n) v) names' gs'
        end
    | _ :: _, [] => Raise InputsError
    end.
  (** the body computed on values only *)
  Definition compute (p : prog V) (gs : list given) (st : store V) : res (venv (V:=V)) :=
    e <- given_env st [] (pr_in p) gs ;; vexecs (pr_steps p) e.
End Values.
