(** * LicenseSpec: what it means that a file shows the license header.
    Definitions only; part of the specification. *)
From Coq Require Import String Ascii List.
Import ListNotations.
Set Implicit Arguments.
Local Open Scope string_scope.

(** A line that may come before the header. *)
Definition preamble (l : string) : Prop :=
  l = "# -*- coding: utf-8 -*-" ++ String (ascii_of_nat 10) "" \/
  l = "#!/usr/bin/env python" ++ String (ascii_of_nat 10) "".

(** Preamble lines, the whole header, and anything. *)
Definition has_header (header ls : list string) : Prop :=
  exists pre rest, Forall preamble pre /\ ls = (pre ++ header ++ rest)%list.

(** Preamble lines and the first lines of the header, where the file ends. *)
Definition cut_header (header ls : list string) : Prop :=
  exists pre part missing, Forall preamble pre /\ part <> [] /\ header = (part ++ missing)%list /\ ls = (pre ++ part)%list.

(** The path ends in .py or .pyi (or that and a newline). *)
Definition python_name (p : string) : Prop :=
  exists stem ext, p = stem ++ ext /\
    In ext [".py"; ".pyi"; ".py" ++ String (ascii_of_nat 10) ""; ".pyi" ++ String (ascii_of_nat 10) ""].

(** A directory on the path has a name that starts with a dot or with two
    underscores. *)
Definition in_hidden_directory (p : string) : Prop :=
  exists before start after after', p = before ++ start ++ after ++ "/" ++ after' /\
    (before = "" \/ exists b, before = b ++ "/") /\ (start = "." \/ start = "__").

(** [fixed] is [old] with the header put after a preamble. *)
Definition header_put (header old fixed : list string) : Prop :=
  exists pre rest, Forall preamble pre /\ old = (pre ++ rest)%list /\ fixed = (pre ++ header ++ rest)%list.
