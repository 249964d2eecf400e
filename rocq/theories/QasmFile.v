(** * QasmFile: reading a QASM file.
    Models [parse_qasm], src/qudiet/qasm/qasm_parser.py:35-38.  Opening the
    file and decoding its bytes are left out: a file is a list of characters. *)
From Coq Require Import String Ascii.
From Verif Require Import Py Scalar Mat Utils Gates Circuit Spec Qasm.
Set Implicit Arguments.

(** Python's text mode, [open(filename, "r")] (qasm_parser.py:36-37): with the
    default [newline=None] the ends of lines \r\n and \r are read as \n. *)
Definition crc : ascii := ascii_of_nat 13.
Fixpoint universal (s : text) : text :=
  match s with
  | [] => []
  | c :: t =>
      if Ascii.eqb c crc then
        match t with
        | [] => [nlc]
        | c' :: t' => if Ascii.eqb c' nlc then nlc :: universal t' else nlc :: universal t
        end
      else c :: universal t
  end.

(** Models src/qudiet/qasm/qasm_parser.py:35-38 [parse_qasm]. *)
Definition parse_qasm (S : scalar) (file : text) : res (circuit S) :=
  let data := universal file in
  circuit_from_qasm S data.
