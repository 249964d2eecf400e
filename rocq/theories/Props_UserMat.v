(** * Props_UserMat: user gates whose matrix is not a numpy array (C128). *)
From Coq Require Import List Arith ZArith Lia Bool.
From Verif Require Import Py Scalar Mat Utils Gates Circuit Spec Calls HistSpec InfoSpec ShapeSpec RaiseSpec DrawFailSpec UserMat UserMatSpec Lib Kern Props_Run RaiseLib UserMatThm ExLib.
Import ListNotations.
Local Notation length := List.length.

(** ** C128: gate() with a class whose [_unitary] is a Python list, a sparse
    matrix or a number.  If all gates have the size of their registers, run()
    raises what the first failing gate raises, searched from the last layer to
    the first and from left to right in a layer; the gates that hold no array
    are among the failing ones. *)
Theorem C128_the_first_failing_gate_decides :
  forall S (L : scalar_laws S) (B : backend S) (object_of : mat S -> mat_object) dims init out ty me ks (c : circuit S),
  supported B -> (forall u, object_of u <> NdArray -> orthonormal u = false) ->
  history (QList (map Z.of_nat dims)) init out ks c -> dims <> [] ->
  Forall (right_size dims) ks -> wants dims out ty me ->
  match first_some (raises_of object_of) (concat (rev (layers_of c))) with
  | Some e => run_of object_of B (after c [CMeasureAll]) = Err e
  | None => exists l, run B (after c [CMeasureAll]) = Ok l /\ run_of object_of B (after c [CMeasureAll]) = Ok l
  end.
Proof.
  intros S L B object_of dims init out ty me ks c HB Ho H Hne Hk Hw.
  rewrite (supported_run S L B) by exact HB.
  replace (run_of object_of B (after c [CMeasureAll])) with (run_of object_of (NumpyBackend S) (after c [CMeasureAll])).
  - exact (run_objects L object_of Ho H Hne Hk Hw).
  - destruct HB as [->| ->]; [reflexivity | apply (run_of_backends L)].
Qed.

(** Whatever else is in the circuit, and whatever backend it has: with such a
    gate before the last layer run() never returns a result. *)
Theorem C128_never_a_result :
  forall S (B : backend S) (object_of : mat S -> mat_object) (c : circuit S) before last q d u,
  map (@m_list S) (f_list (c_flow c)) = before ++ [last] -> In (OArb q d u) (concat before) -> object_of u <> NdArray ->
  exists e, run_of object_of B c = Err e.
Proof.
  intros S B object_of c before last q d u E Hin Hu. apply (run_never object_of B c before last (OArb q d u) E Hin).
  cbn. destruct (object_of u); congruence.
Qed.

(** Without such gates, run() is that of the other properties. *)
Theorem C128_arrays_only :
  forall S (B : backend S) (object_of : mat S -> mat_object) (c : circuit S),
  (forall q d u, In (OArb q d u) (concat (layers_of c)) -> object_of u = NdArray) ->
  run_of object_of B c = run B c.
Proof.
  intros S B object_of c H. apply run_arrays. intros o Ho. destruct o; try reflexivity. cbn. rewrite (H _ _ _ Ho). reflexivity.
Qed.

(** ** Concrete cases *)
Section Examples.
Open Scope Z_scope.
Let S := Zscalar.
Let dims : list nat := [2; 3; 2]%nat.
Let on (ks : list (call S)) : circuit S := after (forced (mk_circuit S (QList (map Z.of_nat dims)) None None)) ks.
Let swap : mat S := mat_of_rows S 2 [[0; 1]; [1; 0]].
(** Zero matrices stand for the other objects, by their number of columns. *)
Let rows_ : mat S := mkmat 2 1 (fun _ _ => s0).
Let sparse_ : mat S := mkmat 2 2 (fun _ _ => s0).
Let one_ : mat S := mkmat 2 3 (fun _ _ => s0).
Let object_of (u : mat S) : mat_object :=
  if orthonormal u then NdArray else match mc u with 1%nat => PyRows | 2%nat => SparseMat | _ => Number end.
Let both (ks : list (call S)) : option exn * res unit :=
  (first_some (raises_of object_of) (concat (rev (layers_of (on ks)))),
   match run_of object_of (NumpyBackend S) (after (on ks) [CMeasureAll]) with Ok _ => Ok tt | Err e => Err e end).

Example ex_C128_objects :
  (forall u, object_of u <> NdArray -> orthonormal u = false) /\
  object_of swap = NdArray /\ object_of rows_ = PyRows /\ object_of sparse_ = SparseMat /\ object_of one_ = Number.
Proof.
  split; [|vm_compute; repeat split]. intros u H. unfold object_of in H. destruct (orthonormal u); [congruence | reflexivity].
Qed.

Example ex_C128_history : forall ks, history (QList (map Z.of_nat dims)) None None ks (on ks).
Proof. intros ks. eexists. split; [apply forced_ok; vm_compute; reflexivity | reflexivity]. Qed.

Example ex_C128 :
  both [CGate rows_ (RInt 0) None] = (Some AttributeError, Err AttributeError) /\
  both [CGate sparse_ (RInt 0) None] = (Some TypeError, Err TypeError) /\
  both [CGate one_ (RInt 0) None] = (Some TypeError, Err TypeError) /\
  both [CX 2 None 5; CGate rows_ (RInt 0) None] = (Some AttributeError, Err AttributeError) /\
  both [CGate rows_ (RInt 0) None; CGate one_ (RInt 0) None] = (Some TypeError, Err TypeError) /\
  both [CGate rows_ (RInt 0) None; CX 0 None 5] = (Some IndexError, Err IndexError) /\
  both [CX 0 None 5; CGate rows_ (RInt 0) None] = (Some AttributeError, Err AttributeError) /\
  both [CGate swap (RInt 0) None; CX 1 None 2; CGate swap (RInt 2) None] = (None, Ok tt).
Proof. vm_compute. repeat split. Qed.

Example ex_C128_right : Forall (right_size dims) [CGate rows_ (RInt 0) None : call S; CX 0 None 5].
Proof. repeat (apply Forall_cons; [cbn; try exact I; try (intros; discriminate); try lia|]). apply Forall_nil. Qed.
End Examples.

Print Assumptions C128_the_first_failing_gate_decides.
Print Assumptions C128_never_a_result.
Print Assumptions C128_arrays_only.
