(** * FlowMany: OperatorFlow.populate_opflow with any number of Moments.
    Definitions only. *)
From Verif Require Import Py Scalar Mat Utils Gates Circuit.
Set Implicit Arguments.

Section FlowMany.
Variable S : scalar.

(** Models src/qudiet/core/operator_flow.py:150-229: the loop over the
    arguments.  One pass is [populate_opflow] of Circuit.v.  A pass that
    returns False ends the call; a pass that merged its gate leaves the loop
    (line 207), and that is exactly when the list did not get longer. *)
Fixpoint populate_all (f : opflow S) (ms : list (moment S)) : res (opflow S * bool) :=
  match ms with
  | [] => Ok (f, true)
  | m :: ms' =>
      '(f', b) <- populate_opflow f m ;;
      if b : bool then
        if Nat.eqb (length (f_list f')) (length (f_list f)) then Ok (f', true) else populate_all f' ms'
      else Ok (f', false)
  end.
End FlowMany.
