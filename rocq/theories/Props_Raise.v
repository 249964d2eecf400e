(** * Props_Raise: which exception run() raises (C108). *)
From Coq Require Import List Arith ZArith Lia Bool.
From Verif Require Import Py Scalar Mat Utils Gates Circuit Spec Calls HistSpec InfoSpec ShapeSpec RaiseSpec DrawFailSpec Lib Kern Props_Run RaiseLib ExLib.
Import ListNotations.
Local Notation length := List.length.

(** ** C108: whatever calls were made before measure_all, the layers tell the
    exception run() raises, and if they tell none run() returns a result, or
    the last layer has more rows than there are outcomes and run() raises
    IndexError. *)
Theorem C108_the_layers_tell_the_exception :
  forall S (L : scalar_laws S) (B : backend S) dims init out ty me ks (c : circuit S),
  supported B -> history (QList (map Z.of_nat dims)) init out ks c -> dims <> [] -> ~ In CMeasureAll ks ->
  wants dims out ty me ->
  match failing None (rev (layers_of c)) with
  | Some e => run B (after c [CMeasureAll]) = Err e
  | None =>
      (exists l, run B (after c [CMeasureAll]) = Ok l) \/
      length (all_configs dims) < rows_of (layer_verdict (last (layers_of c) [])) /\
      run B (after c [CMeasureAll]) = Err IndexError
  end.
Proof.
  intros S L B dims init out ty me ks c HB H Hne Hm Hw. rewrite (supported_run S L B) by exact HB.
  pose proof (run_verdict L H Hne Hm Hw) as R. rewrite all_configs_length.
  destruct (failing None (rev (layers_of c))) as [e|]; [exact R|]. destruct R as [R1 R2].
  destruct (Nat.le_gt_cases (rows_of (layer_verdict (last (layers_of c) []))) (prodn dims)) as [A|A]; [left; auto|].
  destruct (run (NumpyBackend S) (after c [CMeasureAll])) as [l|e] eqn:E; [left; eauto | right].
  rewrite (R2 e eq_refl). auto.
Qed.

(** If all gates have the size of their registers, run() raises what the first
    failing gate raises, searched from the last layer to the first and from
    left to right in a layer; without a failing gate it returns a result. *)
Theorem C108_the_last_layer_with_a_failing_gate_decides :
  forall S (L : scalar_laws S) (B : backend S) dims init out ty me ks (c : circuit S),
  supported B -> history (QList (map Z.of_nat dims)) init out ks c -> dims <> [] ->
  Forall (right_size dims) ks -> wants dims out ty me ->
  match first_some (@raises S) (concat (rev (layers_of c))) with
  | Some e => run B (after c [CMeasureAll]) = Err e
  | None => exists l, run B (after c [CMeasureAll]) = Ok l
  end.
Proof.
  intros S L B dims init out ty me ks c HB H Hne Hk Hw. rewrite (supported_run S L B) by exact HB.
  exact (run_right L H Hne Hk Hw).
Qed.

(** ** Concrete cases *)
Section Examples.
Open Scope Z_scope.
Let S := Zscalar.
Let dims : list nat := [2; 3; 2]%nat.
Let on (ks : list (call S)) : circuit S := after (forced (mk_circuit S (QList (map Z.of_nat dims)) None None)) ks.
Let two : mat S := mat_of_rows S 2 [[0; 1]; [1; 0]].
Let bad : mat S := mat_of_rows S 2 [[1; 1]; [0; 1]].
Let big : mat S := deye S 13 13.
Let both (ks : list (call S)) : option exn * res unit :=
  (failing None (rev (layers_of (on ks))),
   match run (NumpyBackend S) (after (on ks) [CMeasureAll]) with Ok _ => Ok tt | Err e => Err e end).

Example ex_C108_history : forall ks, history (QList (map Z.of_nat dims)) None None ks (on ks).
Proof. intros ks. eexists. split; [apply forced_ok; vm_compute; reflexivity | reflexivity]. Qed.

(** The gate in the later layer decides, and in one layer the left one. *)
Example ex_C108 :
  both [CX 0 None 5; CX 0 None 1] = (Some IndexError, Err IndexError) /\
  both [CX 0 None 5; CGate two (RList [0; 1]) None] = (Some AssertionError, Err AssertionError) /\
  both [CGate two (RList [0; 1]) None; CX 0 None 5] = (Some IndexError, Err IndexError) /\
  both [CX 2 None 5; CGate bad (RInt 0) None] = (Some PlainException, Err PlainException) /\
  both [CX 2 None 1; CX 0 (Some (-2)) 5] = (Some ValueError, Err ValueError) /\
  both [CZ 2 (Some (-1)); CZ 0 (Some (-2))] = (Some ValueError, Err ValueError) /\
  both [CZ 0 (Some (-1)); CZ 2 (Some (-2))] = (Some IndexError, Err IndexError) /\
  both [CTof [0; 1] 1 1] = (Some PlainException, Err PlainException) /\
  both [CTof [0; 1] 1 3] = (Some AssertionError, Err AssertionError) /\
  both [CTof [0; 2] 1 1; CCX [0; 2] 1] = (None, Ok tt).
Proof. vm_compute. repeat split. Qed.

(** Sizes: matrices smaller or larger than their registers do not fit between
    the other layers; the layers are multiplied from the last one back, so it
    depends on the order whether a size or a bad gate is found first. *)
Example ex_C108_sizes :
  both [CX 1 (Some 2) 1; CX 1 (Some 2) 1] = (Some ValueError, Err ValueError) /\
  both [CGate big (RList [0; 1; 2]) None] = (Some ValueError, Err ValueError) /\
  both [CX 1 (Some 2) 1; CX 0 None 5] = (Some IndexError, Err IndexError) /\
  both [CX 0 None 5; CX 1 (Some 2) 1] = (Some IndexError, Err IndexError) /\
  both [CX 0 None 5; CCX [0; 1] 1; CX 1 (Some 2) 1] = (Some ValueError, Err ValueError).
Proof. vm_compute. repeat split. Qed.

(** A matrix with 11 rows for 12 basis states runs as the last layer only. *)
Let short : mat S := mkmat 11 12 (fun i j => if Nat.eqb i j then s1 else s0).
Example ex_C108_short :
  both [CX 0 None 1; CGate short (RList [0; 1; 2]) None] = (None, Ok tt) /\
  both [CGate short (RList [0; 1; 2]) None; CX 0 None 1] = (Some ValueError, Err ValueError).
Proof. vm_compute. repeat split. Qed.

Example ex_C108_right : Forall (right_size dims) [CX 0 None 5; CCX [0; 1; 2] 1; CGate two (RInt 1) None : call S; CTof [0; 1] 1 1; CCX [-7; 9] 2].
Proof.
  repeat (apply Forall_cons; [cbn; try exact I; try (intros; discriminate)|]); [|apply Forall_nil].
  intros r [<-|[<-|[<-|[]]]]; lia.
Qed.
End Examples.

Print Assumptions C108_the_layers_tell_the_exception.
Print Assumptions C108_the_last_layer_with_a_failing_gate_decides.
