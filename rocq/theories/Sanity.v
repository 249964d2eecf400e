(** * Sanity: the repository's own unit tests, run on the model.
    These are tests of the model's fidelity, not proofs of properties. *)
From Coq Require Import String.
From Verif Require Import Py Scalar Mat Utils Gates Circuit.
Open Scope string_scope.
Open Scope Z_scope.

Notation sim := (simulate (S := Zscalar)).
Notation NB := (NumpyBackend Zscalar).
Notation SB := (SparseBackend Zscalar).

(** test/test_circuit.py test_qudit_init (shortened register) *)
Example t_init : sim SB (QList [2;2;3;3;3]) (Some [1;1;1;0;1]) None [] = Ok [(LStr "|11101>", 1)].
Proof. vm_compute. reflexivity. Qed.
(** test_qudit_cx *)
Example t_cx : sim SB (QList [2;3;3;3;2]) (Some [1;1;1;2;1]) None [CCX [0;3] 1]
  = Ok [(LStr "|11101>", 1)].
Proof. vm_compute. reflexivity. Qed.
(** test_qudit_reverse_cx *)
Example t_rcx : sim SB (QList [2;3;3;3;2]) (Some [1;1;1;2;1]) None [CCX [3;1] 1]
  = Ok [(LStr "|12121>", 1)].
Proof. vm_compute. reflexivity. Qed.
(** test_qudit_hadamard, unnormalised: Zscalar has 1/sqrt(2) replaced by 1 *)
Example t_h : sim NB (QList [2;3]) (Some [0;0]) None [CH 0 None; CCX [0;1] 1]
  = Ok [(LStr "|00>", 1); (LStr "|11>", 1)].
Proof. vm_compute. reflexivity. Qed.
(** test_bin *)
Example t_bin1 : bin_to_Nbase [1;1;1;0;1;0;0;0;0;0;0;0;0] [2;2;3;3;3;2;2;2;2;2;2;2;2] = Ok 23296.
Proof. reflexivity. Qed.
Example t_bin2 : Nbase_to_bin 689 [3;2;5;4;2;3] = Ok [2;1;3;2;1;2].
Proof. reflexivity. Qed.
Example t_ttg : ttg [2;1;3]%nat = [[0;0;0];[0;0;1];[0;0;2];[1;0;0];[1;0;1];[1;0;2]]%nat.
Proof. reflexivity. Qed.
