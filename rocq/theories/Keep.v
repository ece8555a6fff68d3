(** Which objects stay in memory, and what looking at the inputs of an indicator does.  Every container of lines is a key
    of metadata.minperiods and metadata.minperiod from the moment it is made (meta/lines.py:609-632), and nothing ever
    removes it.  Built on the store of Mem.v. *)
From Coq Require Import ZArith List Bool String.
From Verif Require Import Num Series Line Apply Py Mem.
Import ListNotations.
Set Implicit Arguments.
Local Open Scope string_scope.
Local Open Scope list_scope.
Local Open Scope nat_scope.

Section Keep.
  Context {V : Type} {N : Num V}.
  Notation store := (store V).

  (** the variables at the end of the body, or where it raised *)
  Fixpoint last_env (p : list (stmt V)) (st : store) (e : env) : env :=
    match p with
    | [] => e
    | s :: p' => match exec s st e with (st', Ok e') => last_env p' st' e' | (_, Raise _) => e end
    end.
  (** the lines stored in the outputs container: everything assigned to self.o, declared or not (lines.py:642-643) *)
  Definition stored_outs (e : env) : list nat := map snd (filter (fun kv => String.prefix "o." (fst kv)) e).
  (** the lines of the inputs container, made by [take_inputs] one after the other *)
  Definition input_lines (p : prog V) (st : store) : list nat := seq (List.length (lins st)) (List.length (pr_in p)).

  (** the containers registered by a call, in the order in which they are made: the outputs (indicator.py:110), then the
      inputs (indicator.py:114; not when they are refused).  Indicators called by the body are treated as single steps by
      Mem.v; their containers, which are registered just the same, are left out *)
  Definition containers (p : prog V) (gs : list given) (st : store) : list (list nat) :=
    match take_inputs st st [] (pr_in p) gs with
    | (_, Raise _) => [[]]
    | (st1, Ok e) => [stored_outs (last_env (pr_steps p) st1 e); input_lines p st]
    end.

  (** the world of Mem.v; the inputs of the results; the keys of metadata.minperiods; the Series and the results the
      caller refers to *)
  Record kworld := mkK {
    k_w : world V;
    k_ins : list (list nat);
    k_reg : list (list nat);
    k_mine : list nat;
    k_refs : list nat
  }.
  Definition k_st (w : kworld) : store := w_st (k_w w).
  (** the caller starts with the Series of the store *)
  Definition start (st : store) : kworld := mkK (mkW st []) [] [] (seq 0 (List.length (sers st))) [].

  Inductive kevent :=
  | KMake (p : prog V) (gs : list given)   (* calling an indicator *)
  | KFrame (k : nat)                       (* the data frame of the k-th result: the values are copied *)
  | KRead (k j : nat)                      (* the Series of its j-th output *)
  | KLook (k j : nat)                      (* the Series of its j-th input: ind.i[j].series *)
  | KForget (s : nat)                      (* the caller drops a Series *)
  | KDrop (k : nat).                       (* the caller drops a result *)

  Definition remove_nat (x : nat) (l : list nat) : list nat := filter (fun y => negb (Nat.eqb y x)) l.
  (** the Series of a line *)
  Definition series_of (st : store) (l : nat) : option nat := option_map lo_ser (nth_error (lins st) l).
  Definition pick (cs : list (list nat)) (k j : nat) : option nat :=
    match nth_error cs k with None => None | Some c => nth_error c j end.
  (** lines.py:518-520: reading the Series of a line renames it and hands it to the caller *)
  Definition read_one (w : kworld) (l : nat) : kworld :=
    mkK (mkW (fst (read_line (k_st w) l)) (w_inds (k_w w))) (k_ins w) (k_reg w)
        (match series_of (k_st w) l with None => k_mine w | Some s => k_mine w ++ [s] end) (k_refs w).
  (** did the call deliver a result? *)
  Definition delivered (p : prog V) (gs : list given) (st : store) : bool :=
    match run p gs st with
    | (_, Ok e) => match outs_of e (pr_out p) with Ok _ => true | Raise _ => false end
    | (_, Raise _) => false
    end.

  Definition kstep (w : kworld) (ev : kevent) : kworld :=
    match ev with
    | KMake p gs =>
        let ok := delivered p gs (k_st w) in
        mkK (step (k_w w) (EMake p gs))
            (k_ins w ++ if ok then [input_lines p (k_st w)] else [])
            (k_reg w ++ containers p gs (k_st w))
            (k_mine w)
            (k_refs w ++ if ok then [List.length (w_inds (k_w w))] else [])
    | KFrame k => mkK (step (k_w w) (ERead k)) (k_ins w) (k_reg w) (k_mine w) (k_refs w)
    | KRead k j => match pick (w_inds (k_w w)) k j with None => w | Some l => read_one w l end
    | KLook k j => match pick (k_ins w) k j with None => w | Some l => read_one w l end
    | KForget s => mkK (k_w w) (k_ins w) (k_reg w) (remove_nat s (k_mine w)) (k_refs w)
    | KDrop k => mkK (k_w w) (k_ins w) (k_reg w) (k_mine w) (remove_nat k (k_refs w))
    end.
  Definition khistory (w : kworld) (evs : list kevent) : kworld := fold_left kstep evs w.
End Keep.
Arguments kworld V : clear implicits.
Arguments kevent V : clear implicits.
