(** * Batch: experimental.py, which runs all QASM files below a directory and
    saves each result next to its source. *)
From Coq Require Import Ascii String.
From Verif Require Import Py Scalar Mat Utils Gates Circuit Info Qasm.
Set Implicit Arguments.
Open Scope list_scope.

Section Batch.
Variable S : scalar.

(** What is in a file: a text, or a pickled result; of the dictionary of
    experimental.py:101-106 the value and the config are kept, not the times. *)
Inductive entry : Type :=
| Text (t : text)
| Saved (value : list (label * S)) (config : width * Z).

(** The files by name. *)
Definition disk : Type := text -> option entry.
Definition name_eqb (a b : text) : bool := if list_eq_dec ascii_dec a b then true else false.
Definition write (d : disk) (name : text) (e : entry) : disk := fun n => if name_eqb n name then Some e else d n.

(** Models experimental.py:108. *)
Definition output_name (file suffix : text) : text :=
  str_join (lit ".") (removelast (str_split "." file)) ++ lit "-" ++ suffix ++ lit ".pkl".

(** Models experimental.py:94-106: the result of one file.  Opening a missing
    file or reading one that is no text raises; which exception it is does not
    matter, as all are caught. *)
Definition evaluate (B : backend S) (d : disk) (file : text) : res (list (label * S) * (width * Z)) :=
  match d file with
  | Some (Text t) =>
      c <- circuit_from_qasm S t ;;
      v <- run B c ;;
      w <- get_circuit_config c ;;
      Ok (v, w)
  | _ => Err PlainException
  end.

(** Models experimental.py:93-122 [routine]: any exception is caught and
    leaves the files alone. *)
Definition routine (B : backend S) (suffix : text) (d : disk) (file : text) : disk :=
  match evaluate B d file with
  | Ok (v, w) => write d (output_name file suffix) (Saved v w)
  | Err _ => d
  end.

(** Models experimental.py:65-91 [main]; [files] is what [glob.glob] returned
    for the mode at line 69. *)
Definition batch (B : backend S) (mode suffix : text) (files : list text) (d : disk) : disk :=
  if name_eqb mode (lit "txt") || name_eqb mode (lit "qasm")
  then fold_left (routine B suffix) files d else d.
End Batch.
Arguments Text {S} t.
Arguments Saved {S} value config.
