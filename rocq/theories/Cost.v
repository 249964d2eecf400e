(** * Cost: how many multiplications of numbers a run makes.

    Python has no counter; this backend is the same code with one added.  A
    matrix carries what its computation has cost so far.  Every matrix in
    [exec] is used once (operator_flow.py:265-282, moment.py:199-213), so the
    numbers of the result are those of the whole run. *)
From Coq Require Import List Arith.
From Verif Require Import Py Scalar Mat Gates Circuit Csr.
Import ListNotations.
Set Implicit Arguments.

Section Cost.
Variable S : scalar.

(** [in_kron] and [in_dot]: the multiplications of one [kron] and one [dot]. *)
Record meter (B : backend S) : Type := { in_kron : B -> B -> nat; in_dot : B -> B -> nat }.

(** The backend [B] with a counter for [kron] and one for [dot].
    src/qudiet/core/backend/core.py:27-52.  Building a gate's matrix is not
    counted. *)
Definition counted (B : backend S) (w : meter B) : backend S :=
  {| bm := (nat * nat) * B;
     b_kron := fun a b => ((fst (fst a) + fst (fst b) + in_kron w (snd a) (snd b), snd (fst a) + snd (fst b)),
                           b_kron (snd a) (snd b));
     b_dot := fun a b => p <- b_dot (snd a) (snd b) ;;
                         Ok ((fst (fst a) + fst (fst b), snd (fst a) + snd (fst b) + in_dot w (snd a) (snd b)), p);
     b_eye := fun n m => ((0, 0), b_eye (b := B) n m);
     b_matrix := fun m => ((0, 0), b_matrix (b := B) m);
     b_trans := fun a => (fst a, b_trans (snd a));
     b_toarray := fun a => b_toarray (snd a) |}.

(** [np.kron] makes one product per entry of the result, [np.dot] one per row,
    inner index and column.  src/qudiet/core/backend/NumpyBackend.py:31-37. *)
Definition dense_meter : meter (NumpyBackend S) :=
  Build_meter (NumpyBackend S)
    (fun a b : mat S => (mr a * mr b) * (mc a * mc b))
    (fun a b : mat S => mr a * mc a * mc b).

(** Sparse matrices: one product per pair of stored entries, in [dot] of those
    with matching inner index.  src/qudiet/core/backend/SparseBackend.py:32-38. *)
Definition stored_entries (a : csr S) : nat := list_sum (map (@length _) (rl a)).
Definition csr_meter : meter (CsrBackend S) :=
  Build_meter (CsrBackend S)
    (fun a b : csr S => stored_entries a * stored_entries b)
    (fun a b : csr S => list_sum (map (fun x => list_sum (map (fun '(k, _) => length (nth k (rl b) [])) x)) (rl a))).

(** The multiplications in the krons and in the dots of
    src/qudiet/core/quantum_circuit.py:382-389 [run]. *)
Definition run_cost (B : backend S) (w : meter B) (c : circuit S) : res (nat * nat) :=
  r <- flow_exec (counted w) (c_flow c) ;;
  match r with
  | None => Err AttributeError
  | Some m => Ok (fst m)
  end.
End Cost.
