(** * License: the script that puts the license header on source files.
    Definitions only.

    A file is the list of its lines, each with its line end, as iterating over a
    file opened in text mode yields them; what matters of the file system is the
    content of the files named on the command line. *)
From Coq Require Import String Ascii.
From Verif Require Import Py.
Set Implicit Arguments.
Local Open Scope string_scope.
Local Notation length := List.length.

Definition nl : string := String (ascii_of_nat 10) "".
Definition lines := list string.

(** Models scripts/license-headers.py:51 [lines_to_keep]. *)
Definition lines_to_keep : lines :=
  ["# -*- coding: utf-8 -*-" ++ nl; "#!/usr/bin/env python" ++ nl].
Definition kept (l : string) : bool := existsb (String.eqb l) lines_to_keep.

(** Models scripts/license-headers.py:39-49,52-81 [license_header_lines]; the year is
    today's ([datetime.date.today().year]), here a parameter. *)
Definition license_header_lines (year : Z) : lines :=
  map (fun s => s ++ nl)
  [ "#               This file is part of the QuDiet package.";
    "#              https://github.com/LegacYFTw/qubit-qudit-sim";
    "#";
    "#                      Copyright (c) " ++ str_of_Z year ++ ".";
    "#                      --.- ..- -.. .. . -";
    "#";
    "# Turbasu Chatterjee, Subhayu Kumar Bala, Arnav Das";
    "# Dr. Amit Saha, Prof. Anupam Chattopadhyay, Prof. Amlan Chakrabarti";
    "#";
    "#";
    "# SPDX-License-Identifier: AGPL-3.0";
    "#";
    "#  This program is free software: you can redistribute it and/or modify";
    "# it under the terms of the GNU General Public License as published by";
    "# the Free Software Foundation, version 3.";
    "#";
    "# This program is distributed in the hope that it will be useful, but";
    "# WITHOUT ANY WARRANTY; without even the implied warranty of";
    "# MERCHANTABILITY or FITNESS FOR A PARTICULAR PURPOSE. See the GNU";
    "# General Public License for more details.";
    "#";
    "# You should have received a copy of the GNU General Public License";
    "# along with this program. If not, see <http://www.gnu.org/licenses/>.";
    "#";
    "" ].

(** [str.startswith] and the end of a string. *)
Fixpoint ends_with (suffix s : string) : bool :=
  String.eqb suffix s || match s with EmptyString => false | String _ s' => ends_with suffix s' end.

(** [str.split("/")]. *)
Fixpoint split_slash (s : string) : list string :=
  match s with
  | EmptyString => [""]
  | String c s' =>
      if Ascii.eqb c "/" then "" :: split_slash s'
      else match split_slash s' with
           | w :: ws => String c w :: ws
           | [] => [String c ""]                                (* unreachable *)
           end
  end.

(** Models scripts/license-headers.py:100-108, the tests on the path: [re.search(r"\.pyi?$", filepath)]
    ([$] also matches before a final newline) and the components before the last. *)
Definition is_source_path (p : string) : bool :=
  (ends_with ".py" p || ends_with ".pyi" p || ends_with (".py" ++ nl) p || ends_with (".pyi" ++ nl) p)
  && negb (existsb (fun w => String.prefix "__" w || String.prefix "." w) (removelast (split_slash p))).

(** Models scripts/license-headers.py:117-122: [zip] of what is left of the header and
    of the file stops at the shorter one. *)
Fixpoint differs (hs ls : lines) : bool :=
  match hs, ls with
  | h :: hs', l :: ls' => if String.eqb l h then differs hs' ls' else true
  | _, _ => false
  end.

(** Models scripts/license-headers.py:109-122: the loop up to the first line of the header.
    If the file ends before it, [first_license_line] is still [None] and differs
    from the first header line. *)
Fixpoint content_needs_fix (header ls : lines) : bool :=
  match ls with
  | [] => true
  | l :: ls' =>
      if String.eqb l (hd "" header) then differs (tl header) ls'
      else if kept l then content_needs_fix header ls' else true
  end.

(** Models scripts/license-headers.py:99-122 [does_file_need_fix]. *)
Definition does_file_need_fix (year : Z) (p : string) (ls : lines) : bool :=
  is_source_path p && content_needs_fix (license_header_lines year) ls.

(** Models scripts/license-headers.py:128-131: [i] after the loop is the index of the first
    line that is not kept, else of the last line, else 0. *)
Fixpoint insertion_point (ls : lines) : nat :=
  match ls with
  | [] | [_] => 0
  | l :: ls' => if kept l then S (insertion_point ls') else 0
  end.

(** Models scripts/license-headers.py:125-136 [add_header_to_file].  The lines written are the
    lines read back, since the inserted ones and those before them end in newlines. *)
Definition add_header (year : Z) (ls : lines) : lines :=
  let i := insertion_point ls in
  (firstn i ls ++ license_header_lines year ++ skipn i ls)%list.

(** A command line argument: a file, a directory with the files [os.walk] lists,
    or neither. *)
Inductive source : Type := SFile (p : string) | SDir (ps : list string) | SNone.
Definition files := string -> lines.
Definition write (fs : files) (p : string) (ls : lines) : files :=
  fun q => if String.eqb q p then ls else fs q.

(** Models scripts/license-headers.py:84-96 [find_files_to_fix]: the paths in the order
    they are looked at. *)
Definition visited (sources : list source) : list string :=
  flat_map (fun s => match s with SFile p => [p] | SDir ps => ps | SNone => [] end) sources.

(** Models scripts/license-headers.py:143,145-147, mode 'fix'.  [find_files_to_fix] is a
    generator: each file is looked at after the files before it are written. *)
Definition fix_files (year : Z) (sources : list source) (fs : files) : files :=
  fold_left (fun fs p => if does_file_need_fix year p (fs p) then write fs p (add_header year (fs p)) else fs)
    (visited sources) fs.

(** Models scripts/license-headers.py:143,148-159, mode 'check': the list of reported files;
    the exit status is 1 if it is not empty. *)
Definition check_files (year : Z) (sources : list source) (fs : files) : list string :=
  filter (fun p => does_file_need_fix year p (fs p)) (visited sources).
Definition check_status (year : Z) (sources : list source) (fs : files) : Z :=
  match check_files year sources fs with [] => 0 | _ => 1 end.
