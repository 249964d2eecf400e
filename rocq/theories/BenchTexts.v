(** * BenchTexts: texts of the testbench directory, copied, with the outcomes
    recorded next to them.  Data only. *)
From Coq Require Import Ascii String.
From Verif Require Import Py Qasm.
Open Scope list_scope.
Local Notation T s := (list_ascii_of_string s%string).

(** testbench/tof_qutrit/toffoli_2/toffoli_2_tof.txt *)
Definition tb_toffoli_2 : text := T "# Circuit generated by QLib
# Created by Amit Saha

.qudit 3

qudit x0 (2)
qudit x1 (2)
qudit x2 (3)

.begin
CX x1 x2
CX x2 x0
CX x1 x2
.end
".

(** testbench/tof_qutrit/ex-1_166/ex-1_166_tof.txt *)
Definition tb_ex_1_166 : text := T "# Circuit generated by QLib
# Created by Amit Saha

.qudit 3

qudit x0 (2)
qudit x1 (2)
qudit x2 (3)

.begin
CX x0 x1
CX x1 x2
CX x2 x0
CX x1 x2
CX x0 x1
X 0
.end
".

(** testbench/tof_qutrit/3_17_14/3_17_14_tof.txt *)
Definition tb_3_17_14 : text := T "# rev_tof_2 for two 3 qudit registers
# developed by Amit Saha
.qudit 3

qudit x0 (2)
qudit x1 (2)
qudit x2 (3)

.begin
CX x0 x1
CX x1 x2
CX x2 x0
CX x1 x2
X x2
CX x2 x1
CX x0 x2
CX x1 x2
CX x2 x0
CX x1 x2
.end
".

(** testbench/tof_qutrit/3_17_13/3_17_13_tof.txt *)
Definition tb_3_17_13 : text := T "# rev_tof_1 for two 3 qudit registers
# developed by Amit Saha
.qudit 3 

qudit x0 (2)
qudit x1 (3)
qudit x2 (3)


.begin
X x2
CX x0 x2
CX x2 x1
CX X1 X2
CX X2 X0
CX X1 X2
CX X0 X1
CX X1 X2
CX X0 X1
CX x1 x2
.end
".

(** testbench/tof_qutrit/miller_11/miller_11_tof.txt *)
Definition tb_miller_11 : text := T "# Circuit generated by QLib
# Created by Amit Saha

.qudit 3

qudit x0 (2)
qudit x1 (3)
qudit x2 (3)

.begin
CX x2 x1
CX x0 x1
CX x1 x2
CX x0 x1
CX x1 x2
CX x2 x0
CX x1 x2
CX x0 x1
CX x1 x2
CX x0 x1
CX x2 x1
.end
".

(** testbench/tof_qutrit/mod5mils_65/mod5mils_65_tof.txt *)
Definition tb_mod5mils_65 : text := T "# Circuit generated by QLib
# Created by Amit Saha

.qudit 5

qudit x0 (2)
qudit x1 (2)
qudit x2 (2)
qudit x3 (3)
qudit x4 (2)

.begin
CX x1 x3
X 3
CX x0 x3
CX x3 x4
CX x0 x3
CX x2 x3
CX x3 x4
CX x2 x3
CX x3 x4
.end
".

(** testbench/tof_qutrit/mod5d1_63/mod5d1_63_tof.txt *)
Definition tb_mod5d1_63 : text := T "# Circuit generated by QLib
# Created by Amit Saha

.qudit 5

qudit x0 (2)
qudit x1 (3)
qudit x2 (2)
qudit x3 (2)
qudit x4 (2)

.begin
CX x3 x1
CX x2 x0
CX x1 x4
CX x0 x4
CX x0 x1
CX x1 x4
CX x0 x1
CX x3 x1
CX x2 x0
.end
".

(** testbench/tof_qutrit/decod24-v0_38/decod24-v0_38_tof.txt *)
Definition tb_decod24_v0_38 : text := T "# Circuit generated by QLib
# Created by Amit Saha

.qudit 4

qudit x0 (2)
qudit x1 (2)
qudit x2 (3)
qudit x3 (3)

.begin
CX x2 x3
CX x3 x0
CX x2 x3
CX x2 x3
CX x2 x3
CX x3 x1
CX x2 x3
CX x0 x2
CX x2 x3
CX x0 x2
CX x3 x2
X 3
.end
".

(** testbench/tof_qutrit/decod24-enable_125/decod24-enable_125_tof.txt *)
Definition tb_decod24_enable_125 : text := T "# Circuit generated by QLib
# Created by Amit Saha

.qudit 6

qudit x0 (2)
qudit x1 (2)
qudit x2 (3)
qudit x3 (2)
qudit x4 (3)
qudit x5 (3)

.begin
CX x3 x2
CX x0 x2
CX x2 x3
CX x0 x2
CX x3 x2
CX x2 x4
CX x1 x4
CX x4 x2
CX x1 x4
CX x2 x4
CX x3 x5
CX x1 x5
CX x5 x3
CX x1 x5
CX x3 x5
.end
".

(** testbench/tof_qutrit/4gt11_82/4gt11_82_tof.txt *)
Definition tb_4gt11_82 : text := T "# Circuit generated by QLib
# Created by Amit Saha
# 4gt11_82 for 5 qudits
.qudit 5

qudit x0 (2)
qudit x1 (2)
qudit x2 (2)
qudit x3 (2)
qudit x4 (3)

.begin
CX x2 x1
CX x1 x2
CX x3 x2
CX x2 x3
CX x4 x3
CX x3 x4
CX x1 x4
CX x4 x0
CX x1 x4
CX x4 x3
CX x4 x2
CX x4 x1
CX x0 x4
CX x4 x0
.end
".

(** testbench/tof_qutrit/rd32_270/rd32_270_tof.txt *)
Definition tb_rd32_270 : text := T "# Circuit generated by QLib
# Created by Amit Saha

.qudit 5

qudit x0 (2)
qudit x1 (3)
qudit x2 (3)
qudit x3 (2)
qudit x4 (2)

.begin
CX x0 x2
CX x2 x3
CX x0 x2
CX x1 x2
CX x2 x4
CX x1 x2
CX x1 x2
CX x2 x3
CX x1 x2
CX x0 x1
CX x1 x3
CX x0 x1
X 1
X 2
CX x1 x2
CX x2 x4
CX x1 x2
X 0
CX x0 x4
.end
".

(** testbench/tof_qutrit/4mod5-v0_18/4mod5-v0_18_tof.txt *)
Definition tb_4mod5_v0_18 : text := T "# Circuit generated by QLib
# Created by Amit Saha
# 4mod5-v0 for 5 qudits
.qudit 5

qudit x0 (2)
qudit x1 (3)
qudit x2 (3)
qudit x3 (3)
qudit x4 (2)

.begin
X 0
X 1
CX x0 x3
CX x3 x4
CX x0 x3
CX x2 x3
CX x3 x4
CX x2 x3
CX x2 x3
CX x1 x2
CX x2 x4
CX x1 x2
CX x1 x2
CX x0 x1
CX x1 x4
CX x0 x1
CX x0 x1
.end
".

(** testbench/tof_qutrit/alu-v0_26/alu-v0_26_tof.txt *)
Definition tb_alu_v0_26 : text := T "# Circuit generated by QLib
# Created by Amit Saha

.qudit 5

qudit x0 (2)
qudit x1 (2)
qudit x2 (2)
qudit x3 (3)
qudit x4 (3)

.begin
CX x2 x1
CX x2 x0
CX x1 x3
CX x3 x0
CX x1 x3
CX x0 x4
CX x4 x2
CX x0 x4
CX x1 x3
CX x3 x0
CX x1 x3
CX x0 x4
CX x4 x2
CX x0 x4
CX x4 x3
CX x0 x4
CX x4 x2
CX x0 x4
X 2
.end
".

(** testbench/tof_qutrit/decod24-bdd_294/decod24-bdd_294_tof.txt *)
Definition tb_decod24_bdd_294 : text := T "# Circuit generated by QLib
# Created by Amit Saha

.qudit 6

qudit x0 (2)
qudit x1 (3)
qudit x2 (2)
qudit x3 (2)
qudit x4 (2)
qudit x5 (2)

.begin
CX x0 x1
CX x1 x2
CX x0 x1
CX x0 x1
CX x1 x3
CX x0 x1
CX x0 x3
CX x0 x1
CX x1 x4
CX x0 x1
CX x1 x4
CX x0 x5
CX x0 x1
CX x1 x5
CX x0 x1
CX x1 x5
X 3
X 4
X 5
.end
".

(** testbench/tof_qutrit/alu-bdd_288/alu-bdd_288_tof.txt *)
Definition tb_alu_bdd_288 : text := T "# Circuit generated by QLib
# Created by Amit Saha

.qudit 7

qudit x0 (2)
qudit x1 (2)
qudit x2 (2)
qudit x3 (3)
qudit x4 (2)
qudit x5 (3)
qudit x6 (2)

.begin
CX x0 x5
CX x1 x3
CX x3 x5
CX x1 x3
CX x0 x3
CX x3 x5
CX x0 x3
CX x2 x6
CX x0 x3
CX x3 x6
CX x0 x3
CX x2 x3
CX x3 x6
CX x2 x3
CX x6 x5
CX x4 x5
CX x5 x6
CX x4 x5
X 6
.end
".

(** testbench/tof_qutrit/4mod5-bdd_287/4mod5-bdd_287_tof.txt *)
Definition tb_4mod5_bdd_287 : text := T "# Circuit generated by QLib
# Created by Amit Saha

.qudit 7

qudit x0 (2)
qudit x1 (2)
qudit x2 (2)
qudit x3 (2)
qudit x4 (3)
qudit x5 (3)
qudit x6 (3)

.begin
CX x3 x4
CX x1 x4
CX x0 x4
CX x4 x5
CX x0 x4
CX x0 x4
CX x4 x6
CX x0 x4
CX x4 x6
X 6
CX x2 x6
CX x6 x5
CX x2 x6
CX x2 x5
CX x5 x6
CX x2 x5
Toffoli x2 x6 x5
Toffoli x2 x5 x6
.end
".

(** testbench/tof_qutrit/4_49_17/4_49_17_tof.txt *)
Definition tb_4_49_17 : text := T "# Circuit generated by QLib
# Generated by Amit Saha
# CV PLUS GATE for 4 qudits
.qudit 4

qudit x0 (2)
qudit x1 (3)
qudit x2 (3)
qudit x3 (3)

.begin
CX x2 x0
X 0
CX x0 x3
CX x0 x1
CX x1 x3
CX x0 x1
CX x3 x0
CX x2 x3
CX x3 x1
CX x2 x3
CX x0 x3
CX x3 x2
CX x0 x3
CX x1 x2
CX x2 x0
CX x1 x2
CX x0 x1
CX x1 x3
CX x0 x1
X 0
CX x3 x1
CX x3 x2
.end
".

(** testbench/tof_qutrit/4gt5_76/4gt5_76_tof.txt *)
Definition tb_4gt5_76 : text := T "# Circuit generated by QLib
# Created by Amit Saha
# 4gt5_76 for 5 qudits
.qudit 5

qudit x0 (2)
qudit x1 (3)
qudit x2 (3)
qudit x3 (3)
qudit x4 (2)

.begin
CX x0 x1
CX x2 x1
CX x1 x2
CX x3 x2
CX x2 x3
CX x4 x3
CX x3 x4
CX x4 x3
CX x4 x2
CX x4 x1
CX x4 x0
CX x0 x1
CX x1 x3
CX x0 x1
CX x2 x3
CX x3 x4
CX x2 x3
CX x0 x1
CX x1 x3
CX x0 x1
CX x2 x3
CX x3 x4
CX x2 x3
CX x1 x2
CX x2 x4
CX x1 x2
.end
".

(** testbench/tof_qutrit/aj-e11_165/aj-e11_165_tof.txt *)
Definition tb_aj_e11_165 : text := T "# Circuit generated by QLib
# Created by Amit Saha

.qudit 5

qudit x0 (2)
qudit x1 (3)
qudit x2 (3)
qudit x3 (3)
qudit x4 (3)

.begin
CX x1 x2
CX x2 x3
CX x0 x3
CX x3 x2
CX x0 x3
CX x0 x2
CX x2 x1
CX x1 x2
CX x2 x4
CX x1 x2
CX x3 x4
CX x4 x0
CX x3 x4
CX x1 x2
CX x2 x4
CX x1 x2
CX x3 x4
CX x4 x0
CX x3 x4
CX x1 x2
CX x2 x0
CX x1 x2
CX x0 x3
CX x3 x2
CX x0 x2
CX x2 x3
CX x0 x2
CX x0 x3
CX x3 x1
CX x0 x3
CX x0 x1
CX x1 x2
CX x0 x1
X 3
.end
".

(** testbench/tof_qutrit/4_49_16/4_49_16_tof.txt *)
Definition tb_4_49_16 : text := T "# Circuit generated by QLib
# Generated by Amit Saha
# CVPLUS GATE for 5 qudits
.qudit 5

qudit q0 (2)
qudit q1 (3)
qudit q2 (3)
qudit q3 (3)
qudit q4 (3)

.begin
CX x0 x2
CX x2 x4
CX x0 x2
CX x3 x4
CX x4 x1
CX x3 x4
CX x0 x2
CX x2 x4
CX x0 x2
CX x3 x4
CX x4 x1
CX x3 x4
CX x2 x0
CX x0 x3
CX x3 x2
CX x0 x3
CX x2 x0
CX x0 x1
CX x1 x4
CX x0 x1
CX x2 x4
CX x4 x3
CX x2 x4 
CX x0 x1
CX x1 x4
CX x0 x1
CX x2 x4
CX x4 x3
CX x2 x4
CX x0 x2
CX x2 x3
CX x0 x2
CX x0 x3
CX x3 x1
CX x0 x3
CX x0 x1
CX x1 x3
CX x0 x1
CX x2 x3
CX x1 x3
CX x1 x3
CX x3 x0
CX x1 x3
CX x0 x3
X 3
CX x3 x2
CX x3 x1
CX x2 x0
.end
".

(** testbench/tof_qutrit/4gt4-v0_72/4gt4-v0_72_tof.txt *)
Definition tb_4gt4_v0_72 : text := T "# Circuit generated by QLib
# Generated by Amit Saha
# CV PLUS GATE for 6 qudits
.qudit 6

qudit x0 (2)
qudit x1 (3)
qudit x2 (3)
qudit x3 (3)
qudit x4 (3)
qudit x5 (3)


.begin
CX x4 x1
CX x2 x4
CX x4 x0
CX x2 x4
X 0
CX x0 x2
CX x2 x1
CX x0 x2
CX x1 x3
CX x3 x4
CX x1 x3
CX x0 x2
CX x2 x1
CX x0 x2
CX x1 x3
CX x3 x4
CX x1 x3
CX x0 x1
CX x1 x4
CX x0 x1
CX x0 x1
CX x1 x3
CX x0 x1
CX x2 x3
CX x3 x5
CX x2 x3
CX x0 x1
CX x1 x3
CX x0 x1
CX x2 x3
CX x3 x5
CX x2 x3
CX x3 x5
CX x5 x4
CX x3 x5
CX x0 x1
CX x1 x3
CX x0 x1
CX x2 x3
CX x3 x5
CX x2 x3
CX x0 x1
CX x1 x3
CX x0 x1
CX x2 x3
CX x3 x5
CX x2 x3
CX x3 x5
CX x5 x4
CX x3 x5
.end
".

(** testbench/tof_large/grover_n2/grover_n2.qasm *)
Definition tb_grover_n2 : text := T "# Created by Arnav Das
# Grover's with 2 qubits.

.qubit 2

qubit x0
qubit x1

.begin
H x0
H x1

H x1
CNOT x0 x1
H x1

H x0
H x1
x x0
x x1
H x1
CNOT x0 x1
H x1
x x0
x x1

H x0
H x1
.end
".

(** testbench/tof_large/bv_n14/bv_n14.qasm *)
Definition tb_bv_n14 : text := T "# Created by Arnav Das
# Bernstein-Vazirani witH 14 qubits.
# Hidden string is 1111111111111

.qubit 14

qubit x0
qubit x1
qubit x2
qubit x3
qubit x4
qubit x5
qubit x6
qubit x7
qubit x8
qubit x9
qubit x10
qubit x11
qubit x12
qubit x13

.begin
H x0
H x1
H x2
H x3
H x4
H x5
H x6
H x7
H x8
H x9
H x10
H x11
H x12
X x13
H x13

CNOT x0 x13
CNOT x1 x13
CNOT x2 x13
CNOT x3 x13
CNOT x4 x13
CNOT x5 x13
CNOT x6 x13
CNOT x7 x13
CNOT x8 x13
CNOT x9 x13
CNOT x10 x13
CNOT x11 x13
CNOT x12 x13


H x0
H x1
H x2
H x3
H x4
H x5
H x6
H x7
H x8
H x9
H x10
H x11
H x12
.end
".

(** testbench/tof_large/grover_n2/grover_n2.qasm with the four lines that start with x written with a capital X *)
Definition tb_grover_n2_capital : text := T "# Created by Arnav Das
# Grover's with 2 qubits.

.qubit 2

qubit x0
qubit x1

.begin
H x0
H x1

H x1
CNOT x0 x1
H x1

H x0
H x1
X x0
X x1
H x1
CNOT x0 x1
H x1
X x0
X x1

H x0
H x1
.end
".

(** The texts with the only outcome in each of the three files NAME.pkl,
    NAME-numpy-backend.pkl and NAME-sparse-backend.pkl next to them; its amplitude
    is 1.0 in all of them. *)
Definition recorded : list (text * string) := [
  (tb_toffoli_2, "|000>"%string);
  (tb_ex_1_166, "|100>"%string);
  (tb_3_17_14, "|001>"%string);
  (tb_3_17_13, "|001>"%string);
  (tb_miller_11, "|000>"%string);
  (tb_mod5mils_65, "|00010>"%string);
  (tb_mod5d1_63, "|00000>"%string);
  (tb_decod24_v0_38, "|0001>"%string);
  (tb_decod24_enable_125, "|000000>"%string);
  (tb_4gt11_82, "|00000>"%string);
  (tb_rd32_270, "|11101>"%string);
  (tb_4mod5_v0_18, "|11020>"%string);
  (tb_alu_v0_26, "|00100>"%string);
  (tb_decod24_bdd_294, "|000111>"%string);
  (tb_alu_bdd_288, "|0000001>"%string);
  (tb_4mod5_bdd_287, "|0000001>"%string);
  (tb_4_49_17, "|1201>"%string);
  (tb_4gt5_76, "|00000>"%string);
  (tb_aj_e11_165, "|00010>"%string);
  (tb_4_49_16, "|00010>"%string);
  (tb_4gt4_v0_72, "|111100>"%string)].
