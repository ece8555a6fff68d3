(** Model of btalib/meta/inputs.py (and of the DataFrame branch of MetaLine, meta/lines.py):
    how the positional arguments of an indicator call become its inputs. *)
From Coq Require Import List String Bool Arith ZArith.
From Verif Require Import Series Py.
Import ListNotations.
Set Implicit Arguments.
Local Open Scope string_scope.
Local Open Scope list_scope.
Local Open Scope nat_scope.

(** config.py:12-19: an entry of OHLC_INDICES is an integer or a column name *)
Inductive cidx := CInt (z : Z) | CStr (s : string).

(** config.py:12-21 *)
Record icfg := mkIcfg { ohlc_indices : dict cidx; ohlc_first : bool }.
Definition default_cfg : icfg :=
  mkIcfg [("open", CInt 0); ("high", CInt 1); ("low", CInt 2); ("close", CInt 3);
          ("volume", CInt 4); ("openinterest", CInt 5)] false.

(** inputs.py:108-117 and 123-131: OHLC_INDICES.get(name, -1); a string is looked up among
    the lower-cased column names, and ColdIndexStrNotFound is raised if it is not there *)
Definition conf_index (cfg : icfg) (cols : list string) (name : string) : res Z :=
  match dget (ohlc_indices cfg) name with
  | None => Ok (-1)%Z
  | Some (CInt z) => Ok z
  | Some (CStr s) =>
      match index_of s cols with
      | Some i => Ok (Z.of_nat i)
      | None => Raise InputsError
      end
  end.

(** [z in colindices] *)
Definition free (z : Z) (colindices : list nat) : bool :=
  existsb (fun i => Z.eqb (Z.of_nat i) z) colindices.
(** colindices.remove(z), z being in the list *)
Fixpoint remove_idx (z : Z) (colindices : list nat) : list nat :=
  match colindices with
  | [] => []
  | i :: l => if Z.eqb (Z.of_nat i) z then l else i :: remove_idx z l
  end.
(** colindices.pop() *)
Definition pop_idx (colindices : list nat) : res (nat * list nat) :=
  match rev colindices with
  | [] => Raise IndexError
  | i :: r => Ok (i, rev r)
  end.

(** inputs.py:105-138: one turn of the loop; [cols] are the lower-cased column names *)
Definition df_step (cfg : icfg) (cols : list string) (name : string) (colindices : list nat)
  : res (nat * list nat) :=
  inputidx <- (if ohlc_first cfg then conf_index cfg cols name else Ok (-1)%Z) ;;
  inputidx <- (if free inputidx colindices then Ok inputidx
               else match index_of name cols with
                    | Some i => Ok (Z.of_nat i)
                    | None => conf_index cfg cols name
                    end) ;;
  if free inputidx colindices then Ok (Z.to_nat inputidx, remove_idx inputidx colindices)
  else pop_idx colindices.

Fixpoint df_loop (cfg : icfg) (cols : list string) (names : list string) (colindices : list nat)
  : res (list (string * nat)) :=
  match names with
  | [] => Ok []
  | n :: names' =>
      p <- df_step cfg cols n colindices ;;
      rest <- df_loop cfg cols names' (snd p) ;;
      Ok ((n, fst p) :: rest)
  end.

(** inputs.py:87-140 _from_arg_dataframe; [depth] is len(metadata.callstack).  The result
    names the column position used for each input.  Column labels are taken to be strings. *)
Definition from_dataframe (cfg : icfg) (depth : nat) (columns : list string) (names : list string)
  : res (list (string * nat)) :=
  if 0 <? depth then Raise InputsError
  else
    let cols := map lower columns in
    if List.length cols <? List.length names then Raise InputsError
    else df_loop cfg cols names (rev (seq 0 (List.length cols))).

(** lines.py:402-417 _line_from_dataframe: the column position; df.iloc[:, idx] accepts
    negative positions *)
Definition iloc_col (ncols : nat) (idx : Z) : res nat :=
  if (idx <? 0)%Z then
    (if (idx <? - Z.of_nat ncols)%Z then Raise IndexError else Ok (Z.to_nat (Z.of_nat ncols + idx)))
  else if (idx <? Z.of_nat ncols)%Z then Ok (Z.to_nat idx) else Raise IndexError.
Definition line_from_dataframe (cfg : icfg) (columns : list string) (name : string) : res nat :=
  let colnames := map lower columns in
  let n := List.length colnames in
  idx <- match index_of name colnames with
         | Some i => Ok (Z.of_nat i)
         | None =>
             match dget (ohlc_indices cfg) name with
             | None => Ok 0%Z
             | Some (CInt z) => Ok z
             | Some (CStr _) => Raise TypeError      (* str >= int *)
             end
         end ;;
  iloc_col n (if (Z.of_nat n <=? idx)%Z then 0%Z else idx).

(** ** Positional arguments *)

Inductive arg :=
| ADf (columns : list string)         (* a DataFrame *)
| AHolder (nouts bars : nat)          (* an indicator: number of outputs and of bars *)
| ALine.                              (* a Series, a Line, or anything else *)

(** where an input comes from *)
Inductive source :=
| SArg (i : nat)                      (* the i-th positional argument itself (its first line) *)
| SCol (i c : nat)                    (* column c of the i-th positional argument *)
| SOut (i o : nat).                   (* output o of the i-th positional argument *)

(** Input(arginput, clsinput): lines.py:419-449 *)
Definition make_input (cfg : icfg) (i : nat) (a : arg) (name : string) : res source :=
  match a with
  | ADf columns => c <- line_from_dataframe cfg columns name ;; Ok (SCol i c)
  | AHolder _ _ => Ok (SOut i 0)
  | ALine => Ok (SArg i)
  end.

Fixpoint make_inputs (cfg : icfg) (i : nat) (args : list arg) (names : list string)
  : res (list (string * source)) :=
  match args, names with
  | a :: args', n :: names' =>
      s <- make_input cfg i a n ;;
      rest <- make_inputs cfg (S i) args' names' ;;
      Ok ((n, s) :: rest)
  | _, _ => Ok []
  end.

(** inputs.py:143-148 _from_arg_linesholder: [arginput.size] is linesholder.py:88-89 ->
    lines.py:645-647, the number of bars of the first output, not the number of outputs *)
Definition from_linesholder (nouts bars : nat) (names : list string) : res (list (string * source)) :=
  if bars <? List.length names then Raise InputsError
  else Ok (combine names (map (SOut 0) (seq 0 nouts))).

(** the state of an inputs class that survives calls: its __slots__ list (lines.py:90),
    which inputs.py:82 truncates in place *)
Definition slots := list string.

(** inputs.py:39-84 _from_args: [names] is the declaration (cls.inputs), [allow] the
    attribute allowinputs (0 if missing).  Result: the values set on the instance, the
    number of positional arguments consumed, the new __slots__ of the class. *)
Definition from_args (cfg : icfg) (depth : nat) (names : list string) (allow : nat)
           (sl : slots) (args : list arg) : res (list (string * source) * nat * slots) :=
  match args with
  | [] => Raise InputsError
  | a0 :: _ =>
      if List.length names <=? List.length args then
        m <- make_inputs cfg 0 (firstn (List.length names) args) names ;;
        Ok (m, List.length names, sl)
      else
        match a0 with
        | ADf columns =>
            m <- from_dataframe cfg depth columns names ;;
            Ok (map (fun p => (fst p, SCol 0 (snd p))) m, 1, sl)
        | AHolder nouts bars =>
            m <- from_linesholder nouts bars names ;; Ok (m, 1, sl)
        | ALine =>
            if allow =? 0 then Raise InputsError
            else
              m <- make_inputs cfg 0 (firstn allow args) names ;;
              Ok (m, allow, firstn allow sl)
        end
  end.

(** indicator.py:114-119: [self.inputs] is iterated over __slots__ (lines.py:652-653); a
    slot that was not set raises AttributeError.  The result is what the indicator sees. *)
Fixpoint visible (sl : slots) (m : list (string * source)) : res (list (string * source)) :=
  match sl with
  | [] => Ok []
  | s :: sl' =>
      match dget m s with
      | None => Raise AttributeError
      | Some v => rest <- visible sl' m ;; Ok ((s, v) :: rest)
      end
  end.
Definition bind_inputs (cfg : icfg) (depth : nat) (names : list string) (allow : nat)
           (sl : slots) (args : list arg) : res (list (string * source)) * slots :=
  match from_args cfg depth names allow sl args with
  | Raise e => (Raise e, sl)
  | Ok (m, _, sl') => (visible sl' m, sl')
  end.
