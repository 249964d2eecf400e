(** * QasmFileSpec: the text a file shows.
    Definitions only; part of the specification. *)
From Coq Require Import String Ascii.
From Verif Require Import Py QasmSpec.
Set Implicit Arguments.

Local Notation text := (list ascii).
Definition return_ : ascii := ascii_of_nat 13.

(** Each line of the text ends, in the file, with LF, CR LF or CR. *)
Inductive shows : text -> text -> Prop :=
| sh_end : shows [] []
| sh_char : forall c t s, c <> newline -> c <> return_ -> shows t s -> shows (c :: t) (c :: s)
| sh_lf : forall t s, shows t s -> shows (newline :: t) (newline :: s)
| sh_crlf : forall t s, shows t s -> shows (newline :: t) (return_ :: newline :: s)
| sh_cr : forall t s, ~ begins [newline] s -> shows t s -> shows (newline :: t) (return_ :: s).

(** Every line end written as CR LF, or as CR. *)
Definition with_line_end (e : text) (t : text) : text :=
  concat (map (fun c => if Ascii.eqb c newline then e else [c]) t).
Definition crlf : text -> text := with_line_end [return_; newline].
Definition macos : text -> text := with_line_end [return_].
