(** * Props_License: the license header script (C61-C63).  Statements only. *)
From Coq Require Import String Ascii.
From Verif Require Import Py License LicenseSpec LicenseLib.
Local Open Scope string_scope.
Local Notation length := List.length.

(** ** C61: what 'check' accepts *)
Theorem C61_which_files_are_reported : forall year sources fs p,
  In p (check_files year sources fs) <->
  In p (visited sources) /\ python_name p /\ ~ in_hidden_directory p /\
  ~ has_header (license_header_lines year) (fs p) /\ ~ cut_header (license_header_lines year) (fs p).
Proof.
  intros year sources fs p. unfold check_files, does_file_need_fix. rewrite filter_In, andb_true_iff, source_path_iff.
  pose proof (content_ok year (fs p)) as [K1 K2]. split.
  - intros [H1 [[H2 H3] H4]]. rewrite H4 in K2. repeat (split; [assumption|]).
    split; intros X; [discriminate (K2 (or_introl X)) | discriminate (K2 (or_intror X))].
  - intros [H1 [H2 [H3 [H4 H5]]]]. repeat split; try assumption.
    destruct (content_needs_fix (license_header_lines year) (fs p)); [reflexivity|]. destruct (K1 eq_refl); contradiction.
Qed.

Theorem C61_exit_status : forall year sources fs,
  ((exists p, In p (check_files year sources fs)) -> check_status year sources fs = 1%Z) /\
  ((forall p, ~ In p (check_files year sources fs)) -> check_status year sources fs = 0%Z).
Proof.
  intros year sources fs. unfold check_status. destruct (check_files year sources fs) as [|q l]; split.
  - intros [p []].
  - reflexivity.
  - reflexivity.
  - intros H. destruct (H q (or_introl eq_refl)).
Qed.

(** ** C62: 'fix' *)
Theorem C62_fix_puts_the_header_once : forall year sources fs p,
  (In p (check_files year sources fs) -> header_put (license_header_lines year) (fs p) (fix_files year sources fs p)) /\
  (~ In p (check_files year sources fs) -> fix_files year sources fs p = fs p).
Proof.
  intros year sources fs p. unfold check_files. rewrite fixed_at, filter_In.
  assert (E : existsb (String.eqb p) (visited sources) = true <-> In p (visited sources)).
  { rewrite existsb_exists. split; [intros [x [H X]]; apply String.eqb_eq in X; subst; exact H|].
    intros H. exists p. split; [exact H | apply String.eqb_refl]. }
  destruct (existsb _ _), (does_file_need_fix year p (fs p)); cbn [andb]; split; intros H; try reflexivity.
  all: try (apply add_header_put). all: try (destruct H as [H1 H2]; discriminate).
  - destruct H. split; [apply E|]; reflexivity.
  - destruct H as [H _]. apply E in H. discriminate.
Qed.

Theorem C62_after_fix_check_passes : forall year sources fs,
  check_files year sources (fix_files year sources fs) = [] /\
  check_status year sources (fix_files year sources fs) = 0%Z /\
  forall p, fix_files year sources (fix_files year sources fs) p = fix_files year sources fs p.
Proof.
  intros year sources fs. assert (H : check_files year sources (fix_files year sources fs) = []).
  { destruct (check_files year sources (fix_files year sources fs)) as [|p l] eqn:E; [reflexivity|]. exfalso.
    assert (Hp : In p (check_files year sources (fix_files year sources fs))) by (rewrite E; left; reflexivity).
    destruct (C62_fix_puts_the_header_once year sources fs p) as [H1 H2].
    destruct (in_dec string_dec p (check_files year sources fs)) as [Hi|Hi].
    - apply C61_which_files_are_reported in Hp as [_ [_ [_ [Hn _]]]]. apply Hn. eapply put_has. apply H1, Hi.
    - specialize (H2 Hi). apply Hi. apply C61_which_files_are_reported in Hp. apply C61_which_files_are_reported.
      rewrite H2 in Hp. exact Hp. }
  split; [exact H|]. split; [unfold check_status; rewrite H; reflexivity|].
  intros p. apply (proj2 (C62_fix_puts_the_header_once year sources (fix_files year sources fs) p)). rewrite H. intros [].
Qed.

(** What the header says: every line of it is a comment except the empty last one, so
    the program in the file is not touched, and a file that has been fixed names the
    license and the year. *)
Theorem C62_fixed_files_name_the_license : forall year sources fs p,
  (exists comments, license_header_lines year = (comments ++ [nl])%list /\
     forall l, In l comments -> String.get 0 l = Some "#"%char) /\
  (In p (check_files year sources fs) ->
     In ("# SPDX-License-Identifier: AGPL-3.0" ++ nl) (fix_files year sources fs p) /\
     In ("#                      Copyright (c) " ++ str_of_Z year ++ "." ++ nl) (fix_files year sources fs p) /\
     In ("#               This file is part of the QuDiet package." ++ nl) (fix_files year sources fs p)).
Proof.
  intros year sources fs p. split.
  - exists (removelast (license_header_lines year)). split; [reflexivity|].
    intros l H. cbn in H. repeat (destruct H as [<-|H]; [reflexivity|]). destruct H.
  - intros H. destruct (C62_fix_puts_the_header_once year sources fs p) as [H1 _]. apply put_has in H1; [|exact H].
    assert (K : forall l, In l (license_header_lines year) -> In l (fix_files year sources fs p)).
    { destruct H1 as [pre [rest [_ E]]]. rewrite E. intros l Hl. apply in_or_app. right. apply in_or_app. left. exact Hl. }
    split; [|split]; apply K.
    + do 10 right. left. reflexivity.
    + do 3 right. left. cbn [String.append]. rewrite ?app_assoc_s. reflexivity.
    + left. reflexivity.
Qed.

(** ** C63: defects *)

(** In another year every header is taken for missing, and the new one is put
    before the old one. *)
Theorem C63_next_year_doubles_the_header : forall year year' sources fs p pre rest,
  year <> year' -> In p (visited sources) -> python_name p -> ~ in_hidden_directory p ->
  Forall preamble pre -> fs p = (pre ++ license_header_lines year ++ rest)%list ->
  ~ In p (check_files year sources fs) /\ In p (check_files year' sources fs) /\
  fix_files year' sources fs p = (pre ++ license_header_lines year' ++ license_header_lines year ++ rest)%list.
Proof.
  intros year year' sources fs p pre rest Hy Hin Hn Hh Hpre E.
  destruct (@new_year year year' pre rest Hy Hpre) as [K1 K2].
  assert (HS : is_source_path p = true) by (apply source_path_iff; auto). split; [|split].
  - intros H. apply C61_which_files_are_reported in H as [_ [_ [_ [H _]]]]. apply H. exists pre, rest. auto.
  - unfold check_files. apply filter_In. split; [exact Hin|]. unfold does_file_need_fix. rewrite E, K1, HS. reflexivity.
  - rewrite fixed_at. unfold does_file_need_fix. rewrite HS, E, K1, K2.
    replace (existsb (String.eqb p) (visited sources)) with true; [reflexivity|]. symmetry. apply existsb_exists.
    exists p. split; [exact Hin | apply String.eqb_refl].
Qed.

(** A file of preamble lines only gets the header before the last of them, so
    that a lone "#!" line no longer comes first. *)
Theorem C63_lone_preamble_is_moved_behind : forall year sources fs p pre l,
  In p (visited sources) -> python_name p -> ~ in_hidden_directory p ->
  Forall preamble pre -> preamble l -> fs p = (pre ++ [l])%list ->
  fix_files year sources fs p = (pre ++ license_header_lines year ++ [l])%list.
Proof.
  intros year sources fs p pre l Hin Hn Hh Hpre Hl E.
  destruct (@only_preamble year pre l Hpre Hl) as [K1 K2].
  assert (HS : is_source_path p = true) by (apply source_path_iff; auto).
  rewrite fixed_at. unfold does_file_need_fix. rewrite HS, E, K1, K2.
  replace (existsb (String.eqb p) (visited sources)) with true; [reflexivity|]. symmetry. apply existsb_exists.
  exists p. split; [exact Hin | apply String.eqb_refl].
Qed.

(** Arguments that are neither files nor directories pass the check. *)
Theorem C63_missing_paths_pass : forall year sources fs, Forall (fun s => s = SNone) sources ->
  check_status year sources fs = 0%Z.
Proof.
  intros year sources fs H. unfold check_status, check_files. replace (visited sources) with (@nil string); [reflexivity|].
  induction H as [|s l Hs _ IH]; [reflexivity|]. subst s. exact IH.
Qed.

(** ** Non-trivial instances *)
Section Examples.
Let h := license_header_lines 2022.
Let shebang := "#!/usr/bin/env python" ++ nl.
Let fs : files := fun p =>
  if String.eqb p "/src/a.py" then [shebang; "import os" ++ nl]
  else if String.eqb p "/src/b.pyi" then ([shebang] ++ h ++ ["x = 1"])%list
  else if String.eqb p "/src/c.py" then firstn 4 h
  else ["text" ++ nl].
Let sources := [SDir ["/src/a.py"; "/src/b.pyi"; "/src/c.py"; "/src/d.txt"; "/src/.git/e.py"]; SFile "/src/a.py"; SNone].

Example ex_C61_status : check_status 2022 sources fs = 1%Z /\ check_status 2022 [SFile "/src/b.pyi"] fs = 0%Z.
Proof. split; vm_compute; reflexivity. Qed.
Example ex_C61 : check_files 2022 sources fs = ["/src/a.py"; "/src/a.py"] /\
  has_header h (fs "/src/b.pyi") /\ cut_header h (fs "/src/c.py") /\ python_name "/src/.git/e.py" /\ in_hidden_directory "/src/.git/e.py".
Proof.
  split; [vm_compute; reflexivity|]. split; [|split; [|split]].
  - exists [shebang], ["x = 1"]. split; [repeat constructor; right; reflexivity | reflexivity].
  - exists [], (firstn 4 h), (skipn 4 h). repeat split; [constructor | discriminate].
  - exists "/src/.git/e", ".py". split; [reflexivity | left; reflexivity].
  - exists "/src/", ".", "git", "e.py". repeat split; [right; exists "/src"; reflexivity | left; reflexivity].
Qed.

(** a.py is listed twice and gets one header. *)
Example ex_C62 : fix_files 2022 sources fs "/src/a.py" = ([shebang] ++ h ++ [("import os" ++ nl)%string])%list /\
  fix_files 2022 sources fs "/src/c.py" = firstn 4 h.
Proof. split; vm_compute; reflexivity. Qed.

Example ex_C63 : check_files 2023 sources fs = ["/src/a.py"; "/src/b.pyi"; "/src/c.py"; "/src/a.py"] /\
  fix_files 2023 sources fs "/src/b.pyi" = ([shebang] ++ license_header_lines 2023 ++ h ++ ["x = 1"])%list /\
  fix_files 2022 [SFile "/run.py"] (fun _ => [shebang]) "/run.py" = (h ++ [shebang])%list.
Proof. repeat split; vm_compute; reflexivity. Qed.
End Examples.

Print Assumptions C61_which_files_are_reported.
Print Assumptions C61_exit_status.
Print Assumptions C62_fix_puts_the_header_once.
Print Assumptions C62_fixed_files_name_the_license.
Print Assumptions C62_after_fix_check_passes.
Print Assumptions C63_next_year_doubles_the_header.
Print Assumptions C63_lone_preamble_is_moved_behind.
Print Assumptions C63_missing_paths_pass.
