(** * FigSpec: which operations have no mark in the matplotlib drawing.
    Definitions only. *)
From Coq Require Import List ZArith.
From Verif Require Import Py Scalar Mat Utils Gates Circuit DrawFailSpec.
Import ListNotations.
Set Implicit Arguments.

(** A cx keeps the dimensions [ds] of the registers between its lowest and its
    highest one, a toffoli too.  The drawing needs the entries of [ds] at the
    numbers of the registers themselves: of both registers for cx, of the target
    for a toffoli.  A cx must have two registers, a toffoli a control. *)
Definition unmarked (S : scalar) (o : op S) : option exn :=
  match o with
  | OCX ds [c; t] _ => if names_row (length ds) c && names_row (length ds) t then None else Some IndexError
  | OCX _ _ _ => Some ValueError
  | OTof cs t _ ds _ _ =>
      if names_row (length ds) t then match cs with [] => Some ValueError | _ :: _ => None end else Some IndexError
  | _ => None
  end.
