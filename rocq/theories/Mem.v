(** The objects behind a computation: pandas Series and Line objects live in a store and are shared by reference.
    The other files model every operation as a function of values.  This file models which Series object an
    operation creates, shares or overwrites, so that the effects on the data of the caller can be stated. *)
From Coq Require Import ZArith List Bool String.
From Verif Require Import Num Series Line Apply Py.
Import ListNotations.
Set Implicit Arguments.
Local Open Scope string_scope.
Local Open Scope list_scope.
Local Open Scope nat_scope.

Section Mem.
  Context {V : Type} {N : Num V}.
  Notation line := (line V).

  (** a pandas Series: its name (None: no name) and its values; the index is left out *)
  Record sobj := mkS { so_name : option string; so_vals : list V }.
  (** a Line object (meta/lines.py:452-455): the Series is held by reference *)
  Record lobj := mkL { lo_mp : Z; lo_name : string; lo_ser : nat }.
  Record store := mkStore { sers : list sobj; lins : list lobj }.

  (** the k-th element is replaced by its image *)
  Fixpoint upd {A} (l : list A) (k : nat) (f : A -> A) : list A :=
    match l, k with
    | [], _ => []
    | x :: l', O => f x :: l'
    | x :: l', S k' => x :: upd l' k' f
    end.

  (** the value of a Line object: minimum period and values *)
  Definition line_at (st : store) (l : nat) : option line :=
    match nth_error (lins st) l with
    | None => None
    | Some o => match nth_error (sers st) (lo_ser o) with
                | None => None
                | Some s => Some (mkLine (lo_mp o) (so_vals s))
                end
    end.

  (** the variables of a body: locals, attributes of the indicator, inputs and outputs; a name refers to a Line
      object *)
  Definition env := dict nat.
  (** an unknown name raises (NameError for a local, AttributeError for an attribute; one exception here) *)
  Definition look (st : store) (e : env) (x : string) : res line :=
    match dget e x with
    | None => Raise AttributeError
    | Some l => match line_at st l with None => Raise AttributeError | Some v => Ok v end
    end.
  Fixpoint looks (st : store) (e : env) (xs : list string) : res (list line) :=
    match xs with
    | [] => Ok []
    | x :: xs' => v <- look st e x ;; vs <- looks st e xs' ;; Ok (v :: vs)
    end.

  (** lines.py:508-511 Line._clone of a result: a new Series and a new Line without a name *)
  Definition fresh (st : store) (v : line) : store * nat :=
    (mkStore (sers st ++ [mkS None (lser v)]) (lins st ++ [mkL (lmp v) "" (List.length (sers st))]),
     List.length (lins st)).
  Fixpoint freshes (st : store) (e : env) (dsts : list string) (vs : list line) : store * env :=
    match dsts, vs with
    | d :: dsts', v :: vs' => let '(st', l) := fresh st v in freshes st' (dset e d l) dsts' vs'
    | _, _ => (st, e)
    end.
  (** lines.py:419-449 MetaLine.__call__ with a Line and a name: a new Line that shares the Series *)
  Definition share (st : store) (o : lobj) (name : string) : store * nat :=
    (mkStore (sers st) (lins st ++ [mkL (lo_mp o) name (lo_ser o)]), List.length (lins st)).

  (** the Series object of a variable *)
  Definition ser_of (st : store) (e : env) (x : string) : option nat :=
    match dget e x with
    | None => None
    | Some l => option_map lo_ser (nth_error (lins st) l)
    end.
  Definition put_vals (vs : list V) (s : sobj) : sobj := mkS (so_name s) vs.
  Definition set_vals (st : store) (k : nat) (vs : list V) : store :=
    mkStore (upd (sers st) k (put_vals vs)) (lins st).
  Definition put_mp (mp : Z) (o : lobj) : lobj := mkL mp (lo_name o) (lo_ser o).
  Definition set_mp (st : store) (l : nat) (mp : Z) : store :=
    mkStore (sers st) (upd (lins st) l (put_mp mp)).

  (** One step of the body of an indicator.  [f] stands for the values computed; the step fixes what is read and
      which objects are created or overwritten. *)
  Inductive stmt :=
  | SOp (dsts args : list string) (f : list line -> res (list line))
      (* operators, methods and other indicators: lines.py:108-176, 285-343 read their operands and store into
         a new Series *)
  | SBind (dst src : string)                       (* x = y: the same object *)
  | SWrap (dst src name : string)                  (* self.o.name = y: lines.py:642-643 *)
  | SPeriod (x : string) (args : list string) (f : list line -> res Z) (rolling : bool) (val : option V)
      (* x._period(f(args), rolling, val): lines.py:527-542, in place *)
  | SApply (dsts : list string) (self : string) (raw wself : bool) (args : list (string * bool))
           (f : list (list V) -> list (list V) * res (list (list V)))
      (* self._apply / self._applymulti: lines.py:577-608.  [f] gets the bars of self and of the arguments and
         leaves new contents in them; the flags tell which of them it writes to.  With raw=True the bars of self
         are a copy, those of the arguments are not (to_numpy() without copy) *)
  | SFail (e : exc).                               (* a step that always raises *)

  (** lines.py:577-608: what [f] has written goes into the Series of the arguments *)
  Fixpoint write_back (st : store) (e : env) (idx : Z) (ws : list (string * bool)) (bufs : list (list V)) : store :=
    match ws, bufs with
    | (x, w) :: ws', b :: bufs' =>
        let st' := if w : bool
                   then match ser_of st e x with
                        | None => st
                        | Some k => match nth_error (sers st) k with
                                    | None => st
                                    | Some s => set_vals st k (set_from (so_vals s) idx b)
                                    end
                        end
                   else st in
        write_back st' e idx ws' bufs'
    | _, _ => st
    end.
  (** the largest minimum period of some lines (lines.py:559-566) *)
  Definition top_mp (ls : list line) : Z :=
    match ls with [] => 1%Z | a :: args => max_mp a args end.
  Definition len1 (ls : list line) : nat := match ls with [] => 0 | a :: _ => List.length (lser a) end.
  (** lines.py:585-587: a result is stored from the common minimum period on *)
  Definition stored (ls : list line) (r : list V) : line :=
    mkLine (top_mp ls) (set_from (nans (len1 ls)) (top_mp ls - 1) r).

  (** one step on the store; after an exception the store stays as it is at that point *)
  Definition exec (s : stmt) (st : store) (e : env) : store * res env :=
    match s with
    | SOp dsts args f =>
        match looks st e args with
        | Raise x => (st, Raise x)
        | Ok ls =>
            match f ls with
            | Raise x => (st, Raise x)
            | Ok rs => if List.length rs =? List.length dsts
                       then let '(st', e') := freshes st e dsts rs in (st', Ok e')
                       else (st, Raise ValueError)
            end
        end
    | SBind dst src =>
        match dget e src with
        | None => (st, Raise AttributeError)
        | Some l => (st, Ok (dset e dst l))
        end
    | SWrap dst src name =>
        match dget e src with
        | None => (st, Raise AttributeError)
        | Some l => match nth_error (lins st) l with
                    | None => (st, Raise AttributeError)
                    | Some o => let '(st', l') := share st o name in (st', Ok (dset e dst l'))
                    end
        end
    | SPeriod x args f rolling val =>
        match looks st e (x :: args) with
        | Raise y => (st, Raise y)
        | Ok ls =>
            match f ls with
            | Raise y => (st, Raise y)
            | Ok p =>
                match dget e x, ser_of st e x, ls with
                | Some l, Some k, v :: _ =>
                    let v' := period_ v p rolling val in
                    let st1 := match val with None => st | Some _ => set_vals st k (lser v') end in
                    (set_mp st1 l (lmp v'), Ok e)
                | _, _, _ => (st, Raise AttributeError)
                end
            end
        end
    | SApply dsts self raw wself args f =>
        match looks st e (self :: map fst args) with
        | Raise x => (st, Raise x)
        | Ok ls =>
            let idx := (top_mp ls - 1)%Z in
            let '(bufs, r) := f (map (fun v => slice_from (lser v) idx) ls) in
            let st1 := write_back st e idx ((self, negb raw && wself) :: args) bufs in
            match r with
            | Raise x => (st1, Raise x)
            | Ok rs => if List.length rs =? List.length dsts
                       then let '(st2, e') := freshes st1 e dsts (map (stored ls) rs) in (st2, Ok e')
                       else (st1, Raise ValueError)
            end
        end
    | SFail x => (st, Raise x)
    end.
  Fixpoint execs (p : list stmt) (st : store) (e : env) : store * res env :=
    match p with
    | [] => (st, Ok e)
    | s :: p' => match exec s st e with
                 | (st', Ok e') => execs p' st' e'
                 | (st', Raise x) => (st', Raise x)
                 end
    end.

  (** *** The same steps on values only: names stand for values, nothing is shared.  This is how all the other files
      model the code. *)
  Definition venv := dict line.
  Definition vlook (e : venv) (x : string) : res line :=
    match dget e x with None => Raise AttributeError | Some v => Ok v end.
  Fixpoint vlooks (e : venv) (xs : list string) : res (list line) :=
    match xs with
    | [] => Ok []
    | x :: xs' => v <- vlook e x ;; vs <- vlooks e xs' ;; Ok (v :: vs)
    end.
  Fixpoint vsets (e : venv) (dsts : list string) (vs : list line) : venv :=
    match dsts, vs with
    | d :: dsts', v :: vs' => vsets (dset e d v) dsts' vs'
    | _, _ => e
    end.
  Fixpoint vwrite (e : venv) (idx : Z) (ws : list (string * bool)) (bufs : list (list V)) : venv :=
    match ws, bufs with
    | (x, w) :: ws', b :: bufs' =>
        let e' := if w : bool
                  then match dget e x with
                       | None => e
                       | Some v => dset e x (mkLine (lmp v) (set_from (lser v) idx b))
                       end
                  else e in
        vwrite e' idx ws' bufs'
    | _, _ => e
    end.
  Definition vexec (s : stmt) (e : venv) : res venv :=
    match s with
    | SOp dsts args f =>
        ls <- vlooks e args ;; rs <- f ls ;;
        if List.length rs =? List.length dsts then Ok (vsets e dsts rs) else Raise ValueError
    | SBind dst src => v <- vlook e src ;; Ok (dset e dst v)
    | SWrap dst src _ => v <- vlook e src ;; Ok (dset e dst v)
    | SPeriod x args f rolling val =>
        ls <- vlooks e (x :: args) ;; p <- f ls ;; v <- vlook e x ;; Ok (dset e x (period_ v p rolling val))
    | SApply dsts self raw wself args f =>
        ls <- vlooks e (self :: map fst args) ;;
        let idx := (top_mp ls - 1)%Z in
        let '(bufs, r) := f (map (fun v => slice_from (lser v) idx) ls) in
        rs <- r ;;
        if List.length rs =? List.length dsts
        then Ok (vsets (vwrite e idx ((self, negb raw && wself) :: args) bufs) dsts (map (stored ls) rs))
        else Raise ValueError
    | SFail x => Raise x
    end.
  Fixpoint vexecs (p : list stmt) (e : venv) : res venv :=
    match p with
    | [] => Ok e
    | s :: p' => e' <- vexec s e ;; vexecs p' e'
    end.

  (** *** Calling an indicator *)
  (** what the caller passes for an input: a Series (also the column of a DataFrame, lines.py:415), or a line: an
      output of an earlier indicator *)
  Inductive given := GSeries (k : nat) | GLine (l : nat).
  Definition input_of (st : store) (g : given) : option (Z * nat) :=
    match g with
    | GSeries k => if k <? List.length (sers st) then Some (1%Z, k) else None
    | GLine l => option_map (fun o => (lo_mp o, lo_ser o)) (nth_error (lins st) l)
    end.
  (** lines.py:419-449, 633-643: every input becomes a new Line that shares the Series; [st0] is the store of the
      caller *)
  Fixpoint take_inputs (st0 st : store) (e : env) (names : list string) (gs : list given) : store * res env :=
    match names, gs with
    | [], _ => (st, Ok e)
    | n :: names', g :: gs' =>
        match input_of st0 g with
        | None => (st, Raise TypeError)
        | Some mk => take_inputs st0 (mkStore (sers st) (lins st ++ [mkL (fst mk) n (snd mk)]))
                                 (dset e ("i." ++ n) (List.length (lins st))) names' gs'
        end
    | _ :: _, [] => (st, Raise InputsError)
    end.

  (** a body: its inputs, the names of its outputs and its steps *)
  Record prog := mkProg { pr_in : list string; pr_out : list string; pr_steps : list stmt }.
  Definition run (p : prog) (gs : list given) (st : store) : store * res env :=
    match take_inputs st st [] (pr_in p) gs with
    | (st', Raise x) => (st', Raise x)
    | (st', Ok e) => execs (pr_steps p) st' e
    end.
  (** the Line objects of the outputs (a missing output: indicator.py:169 raises AttributeError) *)
  Fixpoint outs_of (e : env) (names : list string) : res (list nat) :=
    match names with
    | [] => Ok []
    | n :: names' => match dget e ("o." ++ n) with
                     | None => Raise AttributeError
                     | Some l => ls <- outs_of e names' ;; Ok (l :: ls)
                     end
    end.

  (** lines.py:519-520 Line.series: the Series of the line, renamed in place to the name of the line *)
  Definition put_name (n : string) (s : sobj) : sobj := mkS (Some n) (so_vals s).
  Definition read_line (st : store) (l : nat) : store * option sobj :=
    match nth_error (lins st) l with
    | None => (st, None)
    | Some o => let st' := mkStore (upd (sers st) (lo_ser o) (put_name (lo_name o))) (lins st) in
                (st', nth_error (sers st') (lo_ser o))
    end.
  (** linesholder.py:92-105: reading all the outputs, as df and series do *)
  Fixpoint read_lines (st : store) (ls : list nat) : store :=
    match ls with [] => st | l :: ls' => read_lines (fst (read_line st l)) ls' end.

  (** *** A history: indicators are computed and read in any order *)
  Inductive event :=
  | EMake (p : prog) (gs : list given)     (* calling an indicator *)
  | ERead (k : nat)                        (* reading the outputs of the k-th indicator that was made *)
  | EReadLine (k j : nat).                 (* reading one of them *)
  Record world := mkW { w_st : store; w_inds : list (list nat) }.
  Definition step (w : world) (ev : event) : world :=
    match ev with
    | EMake p gs =>
        match run p gs (w_st w) with
        | (st', Raise _) => mkW st' (w_inds w)
        | (st', Ok e) => match outs_of e (pr_out p) with
                         | Raise _ => mkW st' (w_inds w)
                         | Ok ls => mkW st' (w_inds w ++ [ls])
                         end
        end
    | ERead k => match nth_error (w_inds w) k with
                 | None => w
                 | Some ls => mkW (read_lines (w_st w) ls) (w_inds w)
                 end
    | EReadLine k j => match nth_error (w_inds w) k with
                       | None => w
                       | Some ls => match nth_error ls j with
                                    | None => w
                                    | Some l => mkW (fst (read_line (w_st w) l)) (w_inds w)
                                    end
                       end
    end.
  Definition history (w : world) (evs : list event) : world := fold_left step evs w.
End Mem.
Arguments stmt V : clear implicits.
Arguments prog V : clear implicits.
Arguments event V : clear implicits.
Arguments store V : clear implicits.
Arguments world V : clear implicits.
Arguments sobj V : clear implicits.

(** *** The shape of a step: what is left when the computed values are dropped *)
Inductive shape :=
| HOp (dsts args : list string)
| HBind (dst src : string)
| HWrap (dst src name : string)
| HPeriod (x : string) (args : list string) (writes : bool)
| HApply (dsts : list string) (self : string) (raw wself : bool) (args : list (string * bool))
| HFail (e : exc).
Definition shape_of {V} (s : stmt V) : shape :=
  match s with
  | SOp dsts args _ => HOp dsts args
  | SBind dst src => HBind dst src
  | SWrap dst src name => HWrap dst src name
  | SPeriod x args _ _ val => HPeriod x args (match val with None => false | Some _ => true end)
  | SApply dsts self raw wself args _ => HApply dsts self raw wself args
  | SFail e => HFail e
  end.
(** the body of an indicator class as transcribed in Bodies.v *)
Record body := mkBody { b_name : string; b_in : list string; b_out : list string; b_steps : list shape }.
(** a program of that shape, whatever it computes *)
Definition of_body {V} (b : body) (p : prog V) : Prop :=
  pr_in p = b_in b /\ pr_out p = b_out b /\ map shape_of (pr_steps p) = b_steps b.
