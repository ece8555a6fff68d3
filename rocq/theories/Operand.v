(** Model of binary operations between indicators, lines and numbers: meta/linesholder.py:41-45 (an indicator hands the
    operation to its first output) and meta/lines.py:108-134 (the other operand is asked for its minimum period and for
    its Series, whatever it is).
    Python calls the method of the left operand; the reflected method is used for a number on the left and, in the six
    comparisons, if the class of the right operand is a proper subclass of the class of the left one ([compare_sub];
    the arithmetic methods are inherited unchanged, in which case Python does not prefer the right operand). *)
From Coq Require Import List String Bool ZArith.
From Verif Require Import Num Series Line Py LinesGen Holder.
Import ListNotations.
Set Implicit Arguments.
Local Open Scope string_scope.

Section Operand.
  Context {V : Type} {N : Num V}.
  Notation line := (line V).

  Inductive operand := OInd (h : holder (list V)) | OLine (l : line) | ONum (v : V).

  (** a Line object of a container as a line *)
  Definition of_hline (l : hline (list V)) : line := mkLine (h_mp l) (h_ser l).
  (** linesholder.py:41-45: self.outputs[0] *)
  Definition first_line (h : holder (list V)) : res line := l <- hoperand h ;; Ok (of_hline l).

  (** lines.py:117 getattr(other, '_minperiod', 1) of an indicator.  Anything but a number there makes max() fail *)
  Definition asked_minperiod (h : holder (list V)) : res Z :=
    match hget h "_minperiod" with
    | Ok (FInst (IPer z)) => Ok z
    | Ok (FFirst l _) => Ok (h_mp l)
    | Ok (FClass _) => Ok 1%Z                 (* the class attribute of indicator.py:186 *)
    | Ok _ => Raise TypeError
    | Raise AttributeError => Ok 1%Z
    | Raise e => Raise e
    end.
  (** lines.py:124 getattr(other, '_series', other) of an indicator.  An attribute of that name set by the indicator's
      own code is not followed further *)
  Definition asked_series (h : holder (list V)) : res (list V) :=
    match hget h "_series" with
    | Ok (FFirst l _) => Ok (h_ser l)
    | Ok _ | Raise AttributeError => Raise TypeError
    | Raise e => Raise e
    end.
  (** the right operand as the line [binop] takes it for *)
  Definition right_line (h : holder (list V)) : res line :=
    mp <- asked_minperiod h ;; s <- asked_series h ;; Ok (mkLine mp s).

  (** [x op y] *)
  Definition combine_op (op : V -> V -> V) (x y : operand) : res line :=
    match x, y with
    | ONum _, ONum _ => Raise TypeError       (* not an operation of the library *)
    | ONum u, OInd h => a <- first_line h ;; Ok (rbinop_s op u a)
    | ONum u, OLine a => Ok (rbinop_s op u a)
    | OInd h, ONum u => a <- first_line h ;; Ok (binop_s op a u)
    | OLine a, ONum u => Ok (binop_s op a u)
    | OInd h, OInd g => a <- first_line h ;; b <- right_line g ;; Ok (binop op a b)
    | OInd h, OLine b => a <- first_line h ;; Ok (binop op a b)
    | OLine a, OInd g => b <- right_line g ;; Ok (binop op a b)
    | OLine a, OLine b => Ok (binop op a b)
    end.

  (** the six comparisons, the right operand being a line or an indicator, or a number on either side (a number on the
      left makes Python call the mirrored comparison of the right operand) *)
  Definition compare_op (op : V -> V -> bool) (x y : operand) : res (bline) :=
    match x, y with
    | ONum _, ONum _ => Raise TypeError       (* not an operation of the library *)
    | ONum u, OInd h => a <- first_line h ;; Ok (cmpop_s (fun p q => op q p) a u)
    | ONum u, OLine a => Ok (cmpop_s (fun p q => op q p) a u)
    | OInd h, ONum u => a <- first_line h ;; Ok (cmpop_s op a u)
    | OLine a, ONum u => Ok (cmpop_s op a u)
    | OInd h, OInd g => a <- first_line h ;; b <- right_line g ;; Ok (cmpop op a b)
    | OInd h, OLine b => a <- first_line h ;; Ok (cmpop op a b)
    | OLine a, OInd g => b <- right_line g ;; Ok (cmpop op a b)
    | OLine a, OLine b => Ok (cmpop op a b)
    end.
  (** the same; [sub] tells whether the class of [y] is a proper subclass of the class of [x]: then the mirrored
      comparison of [y] is called first *)
  Definition compare_sub (sub : bool) (op : V -> V -> bool) (x y : operand) : res (bline) :=
    if sub then compare_op (fun p q => op q p) y x else compare_op op x y.
End Operand.
Arguments operand : clear implicits.
