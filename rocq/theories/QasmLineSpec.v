(** * QasmLineSpec: what any gate line of a QASM text asks for.
    Definitions only; part of the specification. *)
From Coq Require Import String Ascii.
From Verif Require Import Py Scalar Mat Utils Gates Circuit Spec HistSpec QasmSpec.
Set Implicit Arguments.
Local Notation length := List.length.

Local Notation text := (list ascii).
Local Notation "'T' s" := (list_ascii_of_string s%string) (at level 9).

(** The words of a line: what stands between white spaces. *)
Inductive tokens : text -> list text -> Prop :=
| tk_end : tokens [] []
| tk_white : forall c s ws, white c -> tokens s ws -> tokens (c :: s) ws
| tk_word : forall w s ws, w <> [] -> Forall (fun c => ~ white c) w -> (s = [] \/ exists c s', s = c :: s' /\ white c) ->
    tokens s ws -> tokens (w ++ s) (w :: ws).

(** Numbers as Python writes them: digits, single underscores between them. *)
Inductive py_numeral : text -> nat -> Prop :=
| pn_one : forall d, d < 10 -> py_numeral [digit d] d
| pn_more : forall s n d, py_numeral s n -> d < 10 -> py_numeral (s ++ [digit d]) (10 * n + d)
| pn_score : forall s n d, py_numeral s n -> d < 10 -> py_numeral (s ++ ["_"%char; digit d]) (10 * n + d).
Inductive py_integer : text -> Z -> Prop :=
| pi_plain : forall s n, py_numeral s n -> py_integer s (Z.of_nat n)
| pi_plus : forall s n, py_numeral s n -> py_integer ("+"%char :: s) (Z.of_nat n)
| pi_minus : forall s n, py_numeral s n -> py_integer ("-"%char :: s) (- Z.of_nat n)%Z.

Definition digital (c : ascii) : Prop := exists d, d < 10 /\ c = digit d.

(** The first number in a text. *)
Inductive first_number : text -> nat -> Prop :=
| fn_here : forall a s n b, Forall (fun c => ~ digital c) a -> numeral s n ->
    (b = [] \/ exists c b', b = c :: b' /\ ~ digital c) -> first_number (a ++ s ++ b) n.

(** The number of the word at position [i]. *)
Inductive operand (ws : list text) (i : nat) : res Z -> Prop :=
| op_absent : length ws <= i -> operand ws i (Err IndexError)
| op_wordy : i < length ws -> Forall (fun c => ~ digital c) (nth i ws []) -> operand ws i (Err IndexError)
| op_number : forall n, i < length ws -> first_number (nth i ws []) n -> operand ws i (Ok (Z.of_nat n)).

(** The increment of X: the third of three words; of CX: the fourth of four. *)
Inductive x_increment (ws : list text) : res Z -> Prop :=
| xi_one : length ws <> 3 -> x_increment ws (Ok 1%Z)
| xi_given : forall v, length ws = 3 -> py_integer (nth 2 ws []) v -> x_increment ws (Ok v)
| xi_bad : length ws = 3 -> (forall v, ~ py_integer (nth 2 ws []) v) -> x_increment ws (Err ValueError).
Inductive cx_increment (ws : list text) : res Z -> Prop :=
| ci_one : length ws <> 4 -> cx_increment ws (Ok 1%Z)
| ci_given : forall p, length ws = 4 -> operand ws 3 p -> cx_increment ws p.

(** What [int] drops at the end of a text and a line can contain: tab, vertical
    tab, form feed, carriage return, space. *)
Definition blanks (s : text) : Prop := Forall (fun c => In (nat_of_ascii c) [9; 11; 12; 13; 32]) s.

Section Lines.
Variable S : scalar.
Notation call := (call S).
Notation circuit := (circuit S).

(** A line makes a call, is skipped, or raises. *)
Inductive outcome : text -> res (option call) -> Prop :=
| oc_x : forall l ws p q, begins (T "X") l \/ (begins (T "RX") l /\ ends (T "180") l) -> tokens l ws ->
    x_increment ws p -> operand ws 1 q -> outcome l (p <- p ;; q <- q ;; Ok (Some (CX q None p)))
| oc_h : forall l ws q, begins (T "H") l -> tokens l ws -> operand ws 1 q -> outcome l (q <- q ;; Ok (Some (CH q None)))
| oc_z : forall l ws q, begins (T "Z") l -> tokens l ws -> operand ws 1 q -> outcome l (q <- q ;; Ok (Some (CZ q None)))
| oc_cx : forall l ws a b p, begins (T "CX") l \/ begins (T "CNOT") l -> tokens l ws ->
    operand ws 1 a -> operand ws 2 b -> cx_increment ws p ->
    outcome l (a <- a ;; b <- b ;; p <- p ;; Ok (Some (CCX [a; b] p)))
| oc_toffoli : forall a n b m c k s1 s2 s3, numeral a n -> numeral b m -> numeral c k -> separator s1 -> separator s2 -> blanks s3 ->
    outcome (T "Toffoli x" ++ a ++ s1 ++ T "x" ++ b ++ s2 ++ T "x" ++ c ++ s3)
            (Ok (Some (CTof [Z.of_nat n; Z.of_nat m] (Z.of_nat k) 1)))
| oc_unknown : forall l, unknown l -> outcome l (Ok None).

(** The calls that would be made if no line raised. *)
Definition wanted (os : list (res (option call))) : list call :=
  made (map (fun o => match o with Ok k => k | Err _ => None end) os).

(** Going through the lines; the first line that raises, or whose call raises,
    ends it. *)
Fixpoint perform (c : circuit) (os : list (res (option call))) : res circuit :=
  match os with
  | [] => '(c, _) <- api c CMeasureAll ;; Ok c
  | Err e :: _ => Err e
  | Ok None :: os => perform c os
  | Ok (Some k) :: os => '(c, _) <- api c k ;; perform c os
  end.
Definition performed (dims : list nat) (os : list (res (option call))) : res circuit :=
  c <- mk_circuit S (QList (map Z.of_nat dims)) None None ;; perform c os.
End Lines.

(** ** Toffoli lines *)
(** A list of registers. *)
Inductive operands : list nat -> text -> Prop :=
| ol_one : forall r n, numeral r n -> operands [n] (T "x" ++ r)
| ol_more : forall r n s ns t, numeral r n -> separator s -> operands ns t -> operands (n :: ns) (T "x" ++ r ++ s ++ t).

(** The line begins with two controls and a target. *)
Definition two_controls (l : text) : Prop :=
  exists a n b m c k s1 s2 t, numeral a n /\ numeral b m /\ numeral c k /\ separator s1 /\ separator s2 /\
    l = T "Toffoli x" ++ a ++ s1 ++ T "x" ++ b ++ s2 ++ T "x" ++ c ++ t.
