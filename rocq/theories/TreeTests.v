(** * TreeTests: the test generator of test_circuit/test_useQudiet.py, the
    listed inputs of test_circuit/main.py and the check of its [runner]. *)
From Coq Require Import String.
From Verif Require Import Py Scalar Mat Utils Gates Circuit Tree.
Set Implicit Arguments.
Open Scope Z_scope.

(** A test case: the number of lines, the input, the expected text. *)
Definition test_case : Type := Z * list Z * string.

(** Models test_circuit/test_useQudiet.py:32,50,61 (the f-strings). *)
Definition ket (bits : list Z) : string := ("|" ++ String.concat "" (map str_of_Z bits) ++ ">")%string.

(** Models test_circuit/test_useQudiet.py:18 [flip]. *)
Definition flip (n : Z) : Z := if n =? 1 then 0 else 1.

(** Models test_circuit/test_useQudiet.py:27-38: one random test; [bits] is
    what [random.choices] returned at line 25. *)
Definition random_case (n : Z) (bits : list Z) : res test_case :=
  out <- (if existsb (Z.eqb 0) (removelast bits) then Ok bits
          else (x <- py_get bits (-1) ;; py_set bits (-1) (flip x))) ;;
  Ok (n, bits, ket out).

(** Models test_circuit/test_useQudiet.py:42-62: the two fixed tests of a size. *)
Definition fixed_cases (n : Z) : list test_case :=
  [(n, zrepeat n 1, ket (zrepeat (n - 1) 1 ++ [0])); (n, zrepeat (n - 1) 1 ++ [0], ket (zrepeat n 1))].

(** Models test_circuit/test_useQudiet.py:5-64 [generateTestCases]; [draws] are
    the random sizes and inputs. *)
Definition generate (draws : list (Z * list Z)) (low high : Z) : res (list test_case) :=
  random <- mapM (fun '(n, bits) => random_case n bits) draws ;;
  Ok (random ++ flat_map fixed_cases (zrange low (high + 1))).

(** Models test_circuit/test_useQudiet.py:70-74 [generateTest]: the assertion. *)
Definition passes (S : scalar) (flog : Z -> Z) (fuel : nat) (B : backend S) (t : test_case) : Prop :=
  let '(n, inp, exp) := t in run_circ flog fuel B n (Some inp) = Ok (LStr exp).

(** Models test_circuit/main.py:104-118 (the list [d]). *)
Definition listed_cases : list test_case :=
  [ (5, [1; 1; 1; 1; 1], "|11110>");
    (6, [1; 1; 1; 1; 1; 1], "|111110>");
    (7, [1; 1; 1; 1; 1; 1; 1], "|1111110>");
    (5, [1; 0; 1; 1; 1], "|10111>");
    (6, [1; 1; 1; 0; 0; 1], "|111001>");
    (7, [0; 0; 0; 0; 1; 1; 1], "|0000111>");
    (5, [0; 0; 0; 0; 0], "|00000>");
    (6, [0; 0; 0; 0; 0; 1], "|000001>");
    (10, [1; 0; 1; 0; 1; 0; 1; 0; 1; 0], "|1010101010>");
    (8, [0; 0; 0; 0; 1; 1; 1; 1], "|00001111>");
    (9, [1; 1; 1; 1; 1; 1; 0; 1; 0], "|111111010>");
    (8, [0; 0; 0; 0; 0; 0; 0; 0], "|00000000>");
    (11, [1; 1; 1; 1; 1; 1; 1; 1; 0; 0; 0], "|11111111000>") ]%string.

(** Models test_circuit/main.py:80-81: the condition for the message of
    [runner] at line 82. *)
Definition alarm (t : tree) (n : Z) : bool :=
  let '(tern, quat, qb, qt, qq) := mathematical_expectation n in
  negb (tern =? t_tern t) && negb (quat =? t_quat t) && negb (qb =? Z.of_nat (length (t_qubits t)))
  && negb (qt =? Z.of_nat (length (t_qutrits t))) && negb (qq =? Z.of_nat (length (t_ququads t))).
