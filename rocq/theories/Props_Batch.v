(** * Props_Batch: running all QASM files of a directory (C75).  Statements only. *)
From Coq Require Import Ascii String.
From Verif Require Import Py Scalar Mat Utils Gates Circuit Info Qasm Batch BatchLib Props_Run.
Open Scope list_scope.

Local Notation "'T' s" := (list_ascii_of_string s%string) (at level 9).

(** What looking for the files [*.mode] below a directory may return. *)
Definition found (mode : text) (files : list text) : Prop :=
  NoDup files /\ forall f, In f files -> exists base, f = base ++ T "." ++ mode.
Definition source_mode (mode : text) : Prop := mode = T "txt" \/ mode = T "qasm".

Lemma source_mode_ok : forall mode, source_mode mode -> ~ In "."%char mode /\ mode <> lit "pkl" /\
  forall S (B : backend S) suffix files d, batch B mode suffix files d = fold_left (routine B suffix) files d.
Proof.
  intros mode [->| ->]; (split; [intros H; cbv in H; repeat (destruct H as [H|H]; [discriminate|]); exact H|]);
  (split; [discriminate | intros; reflexivity]).
Qed.

(** The result of every file that can be read and run is saved next to it. *)
Theorem C75_results_are_saved_next_to_their_sources :
  forall S (B : backend S) mode suffix files (d : disk S) base t c v w,
  source_mode mode -> found mode files -> In (base ++ T "." ++ mode) files ->
  d (base ++ T "." ++ mode) = Some (Text t) ->
  circuit_from_qasm S t = Ok c -> run B c = Ok v -> get_circuit_config c = Ok w ->
  batch B mode suffix files d (base ++ T "-" ++ suffix ++ T ".pkl") = Some (Saved v w).
Proof.
  intros S B mode suffix files d base t c v w Hm [Hn Hb] Hf Ht Hc Hr Hw. destruct (source_mode_ok mode Hm) as [M1 [M2 M3]].
  rewrite M3. change (base ++ T "-" ++ suffix ++ T ".pkl") with (base ++ lit "-" ++ suffix ++ lit ".pkl").
  rewrite <- (output_name_ext base mode suffix M1). rewrite (batch_effect B suffix d M1 M2 Hn Hb (base ++ "."%char :: mode) Hf).
  unfold evaluate. change (base ++ "."%char :: mode) with (base ++ T "." ++ mode). rewrite Ht, Hc. cbn [bind]. rewrite Hr. cbn [bind].
  rewrite Hw. reflexivity.
Qed.

(** A file that cannot be read or run leaves whatever was saved for it before. *)
Theorem C75_failures_keep_old_results :
  forall S (B : backend S) mode suffix files (d : disk S) base t e,
  source_mode mode -> found mode files -> In (base ++ T "." ++ mode) files ->
  d (base ++ T "." ++ mode) = Some (Text t) ->
  (c <- circuit_from_qasm S t ;; run B c) = Err e ->
  let out := base ++ T "-" ++ suffix ++ T ".pkl" in batch B mode suffix files d out = d out.
Proof.
  intros S B mode suffix files d base t e Hm [Hn Hb] Hf Ht Hc out. destruct (source_mode_ok mode Hm) as [M1 [M2 M3]].
  assert (E : out = output_name (base ++ "."%char :: mode) suffix) by (symmetry; apply output_name_ext; exact M1).
  rewrite M3, E. rewrite (batch_effect B suffix d M1 M2 Hn Hb (base ++ "."%char :: mode) Hf).
  unfold evaluate. change (base ++ "."%char :: mode) with (base ++ T "." ++ mode). rewrite Ht.
  destruct (circuit_from_qasm S t) as [c|e']; [|reflexivity]. cbn [bind] in *. rewrite Hc. reflexivity.
Qed.

(** No other file is touched; in particular no source is. *)
Theorem C75_nothing_else_is_written :
  forall S (B : backend S) mode suffix files (d : disk S) name,
  source_mode mode -> found mode files ->
  (forall base, In (base ++ T "." ++ mode) files -> name <> base ++ T "-" ++ suffix ++ T ".pkl") ->
  batch B mode suffix files d name = d name.
Proof.
  intros S B mode suffix files d name Hm [Hn Hb] H. destruct (source_mode_ok mode Hm) as [M1 [M2 M3]].
  rewrite M3. apply routines_other. intros f Hf E. destruct (Hb f Hf) as [base ->]. apply (H base Hf).
  rewrite E. apply output_name_ext. exact M1.
Qed.

Theorem C75_sources_are_kept :
  forall S (B : backend S) mode suffix files (d : disk S) f,
  source_mode mode -> found mode files -> In f files -> batch B mode suffix files d f = d f.
Proof.
  intros S B mode suffix files d f Hm [Hn Hb] Hf. destruct (source_mode_ok mode Hm) as [M1 [M2 M3]].
  rewrite M3. apply routines_other. intros g Hg E. destruct (Hb f Hf) as [base ->]. apply M2. symmetry in E.
  exact (@output_not_source _ _ _ _ E M1).
Qed.

(** The backend shows in the names only. *)
Theorem C75_backends_save_the_same :
  forall S (L : scalar_laws S) mode suffix files (d : disk S) name,
  batch (NumpyBackend S) mode suffix files d name = batch (SparseBackend S) mode suffix files d name.
Proof.
  intros S L mode suffix files d name. unfold batch. destruct (name_eqb mode (lit "txt") || name_eqb mode (lit "qasm")); [|reflexivity].
  revert d. induction files as [|f files IH]; intros d; [reflexivity|]. simpl. rewrite IH. unfold routine. rewrite (evaluate_backends L). reflexivity.
Qed.

(** Results of different sources can have one name: those of equally named .txt
    and .qasm files, and those of different backends. *)
Theorem C75_results_collide :
  (forall base suffix, output_name (base ++ T ".txt") suffix = output_name (base ++ T ".qasm") suffix) /\
  (forall base, output_name (base ++ T ".txt") (T "sparse-cuda") = output_name (base ++ T "-sparse.txt") (T "cuda")).
Proof.
  assert (N : forall ext, source_mode ext -> ~ In "."%char ext) by (intros ext H; apply (source_mode_ok ext H)).
  split; intros base; [intros suffix|].
  - etransitivity; [apply (output_name_ext base _ suffix (N (T "txt") (or_introl eq_refl)))|].
    symmetry. apply (output_name_ext base _ suffix (N (T "qasm") (or_intror eq_refl))).
  - etransitivity; [apply (output_name_ext base _ (T "sparse-cuda") (N (T "txt") (or_introl eq_refl)))|].
    symmetry. change (T "-sparse.txt") with (T "-sparse" ++ "."%char :: T "txt"). rewrite app_assoc.
    etransitivity; [apply (output_name_ext (base ++ T "-sparse") _ (T "cuda") (N (T "txt") (or_introl eq_refl)))|].
    rewrite <- app_assoc. reflexivity.
Qed.

(** The mode json of the help text does nothing. *)
Theorem C75_other_modes_write_nothing :
  forall S (B : backend S) mode suffix files (d : disk S), ~ source_mode mode -> batch B mode suffix files d = d.
Proof.
  intros S B mode suffix files d H. unfold batch.
  destruct (name_eqb mode (lit "txt")) eqn:E1; [exfalso; apply H; left; apply name_eqb_eq; exact E1|].
  destruct (name_eqb mode (lit "qasm")) eqn:E2; [exfalso; apply H; right; apply name_eqb_eq; exact E2|]. reflexivity.
Qed.

(** ** Non-trivial instances: one good file, and one that raises and keeps the
    result of an earlier run. *)
Section Examples.
Let S := Zscalar.
Let nl := ascii_of_nat 10.
Let good : text := T "# two" ++ [nl] ++ T ".qubit 2" ++ [nl] ++ T "qubit x0" ++ [nl] ++ T "qubit x1" ++ [nl] ++ T ".begin" ++ [nl]
  ++ T "X x0" ++ [nl] ++ T "CX x0, x1" ++ [nl] ++ T ".end" ++ [nl].
Let bad : text := T "no markers".
Let old : entry S := Saved (S := S) [(LStr "old", 7%Z)] (WInt 1, 1%Z).
Let d0 : disk S := fun n =>
  if name_eqb n (T "dir/a.b.txt") then Some (Text good)
  else if name_eqb n (T "dir/c.txt") then Some (Text bad)
  else if name_eqb n (T "dir/c-numpy.pkl") then Some old else None.
Let files := [T "dir/a.b.txt"; T "dir/c.txt"].

Example ex_C75 :
  source_mode (T "txt") /\ found (T "txt") files /\ ~ source_mode (T "json") /\
  (exists e, circuit_from_qasm S bad = Err e) /\
  let d1 := batch (NumpyBackend S) (T "txt") (T "numpy") files d0 in
  d1 (T "dir/a.b-numpy.pkl") = Some (Saved (S := S) [(LStr "|11>", 1%Z)] (WInt 2, 2%Z)) /\
  d1 (T "dir/c-numpy.pkl") = Some old /\ d1 (T "dir/a.b.txt") = Some (Text good).
Proof.
  split; [left; reflexivity|].
  split; [split; [repeat constructor; simpl; intuition discriminate|]|].
  - intros f [<-|[<-|[]]]; [exists (T "dir/a.b") | exists (T "dir/c")]; reflexivity.
  - split; [intros [H|H]; discriminate|]. split; [eexists; vm_compute; reflexivity|].
    cbv zeta. repeat split; vm_compute; reflexivity.
Qed.
End Examples.

Print Assumptions C75_results_are_saved_next_to_their_sources.
Print Assumptions C75_failures_keep_old_results.
Print Assumptions C75_nothing_else_is_written.
Print Assumptions C75_sources_are_kept.
Print Assumptions C75_backends_save_the_same.
Print Assumptions C75_results_collide.
Print Assumptions C75_other_modes_write_nothing.
