(** * UserMatSpec: what a layer with user gates raises.  Definitions only. *)
From Verif Require Import Py Scalar Mat Utils Gates Circuit RaiseSpec UserMat.
Set Implicit Arguments.

Section UserMatSpec.
Variable S : scalar.
Variable object_of : mat S -> mat_object.

(** A user gate holding another object than an array. *)
Definition fails (o : op S) : option exn :=
  match o with
  | OArb _ _ u =>
      match object_of u with
      | NdArray => None
      | PyRows => Some AttributeError
      | SparseMat => Some TypeError
      | Number => Some TypeError
      end
  | _ => None
  end.

(** That, or what is wrong with the array ([raises] of RaiseSpec.v). *)
Definition raises_of (o : op S) : option exn :=
  match fails o with Some e => Some e | None => raises o end.
End UserMatSpec.
