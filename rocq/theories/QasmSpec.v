(** * QasmSpec: QASM texts and what they ask for.
    Definitions only; part of the specification. *)
From Coq Require Import String Ascii.
From Verif Require Import Py Scalar Mat Utils Gates Circuit Spec HistSpec.
Set Implicit Arguments.
Local Notation length := List.length.

Local Notation text := (list ascii).
Local Notation "'T' s" := (list_ascii_of_string s%string) (at level 9).

Definition newline : ascii := ascii_of_nat 10.

(** A text given by its lines. *)
Definition text_of_lines (l : list text) : text :=
  match l with [] => [] | x :: r => x ++ concat (map (cons newline) r) end.

Definition contains (w s : text) : Prop := exists a b, s = a ++ w ++ b.
Definition begins (w s : text) : Prop := exists b, s = w ++ b.
Definition ends (w s : text) : Prop := exists a, s = a ++ w.
(** Tab, vertical tab, form feed, carriage return, space. *)
Definition spaces (s : text) : Prop := Forall (fun c => In (nat_of_ascii c) [9; 11; 12; 13; 32]) s.

(** Decimal numerals, possibly with leading zeros. *)
Definition digit (d : nat) : ascii := ascii_of_nat (48 + d).
Inductive numeral : text -> nat -> Prop :=
| num_one : forall d, d < 10 -> numeral [digit d] d
| num_more : forall s n d, numeral s n -> d < 10 -> numeral (s ++ [digit d]) (10 * n + d).
Inductive integer : text -> Z -> Prop :=
| int_plain : forall s n, numeral s n -> integer s (Z.of_nat n)
| int_plus : forall s n, numeral s n -> integer ("+"%char :: s) (Z.of_nat n)
| int_minus : forall s n, numeral s n -> integer ("-"%char :: s) (- Z.of_nat n)%Z.

(** ** Documents *)
(** A line that cannot be taken for a section marker or part of one. *)
Definition quiet (l : text) : Prop := ~ In newline l /\ ~ contains (T ".q") l /\ ~ begins (T ".") l.

Record doc : Type := {
  d_head : list text;           (* compulsory header *)
  d_kind : string;              (* qudit, qubit or qutrit *)
  d_count : text;               (* number of registers: not used *)
  d_blank : text;
  d_decls : list text;
  d_blank2 : text;
  d_gates : list text;
  d_blank3 : text;
  d_foot : list text
}.

Definition text_of (d : doc) : text :=
  text_of_lines (d_head d ++ (T "." ++ T (d_kind d) ++ T " " ++ d_count d ++ d_blank d) :: d_decls d ++
                 (T ".begin" ++ d_blank2 d) :: d_gates d ++ (T ".end" ++ d_blank3 d) :: d_foot d).

Record well_formed (d : doc) : Prop := {
  wf_head : d_head d <> [];
  wf_head_lines : Forall quiet (d_head d);
  wf_kind : In (d_kind d) ["qudit"; "qubit"; "qutrit"]%string;
  wf_count : exists n, numeral (d_count d) n;
  wf_blank : spaces (d_blank d);
  wf_blank2 : spaces (d_blank2 d);
  wf_blank3 : spaces (d_blank3 d);
  wf_decls : Forall quiet (d_decls d);
  wf_gates : Forall quiet (d_gates d);
  wf_foot : Forall (fun l => ~ In newline l) (d_foot d)
}.

Definition with_gates (d : doc) (g : list text) : doc :=
  {| d_head := d_head d; d_kind := d_kind d; d_count := d_count d; d_blank := d_blank d; d_decls := d_decls d;
     d_blank2 := d_blank2 d; d_gates := g; d_blank3 := d_blank3 d; d_foot := d_foot d |}.

(** ** Declarations: the dimensions a line adds; the number after the x is
    not used *)
Inductive declares : text -> list nat -> Prop :=
| dc_qubit : forall r n b, numeral r n -> spaces b -> declares (T "qubit x" ++ r ++ b) [2]
| dc_qutrit : forall r n b, numeral r n -> spaces b -> declares (T "qutrit x" ++ r ++ b) [3]
| dc_qudit : forall r n s m b, numeral r n -> numeral s m -> spaces b ->
    declares (T "qudit x" ++ r ++ T " (" ++ s ++ T ")" ++ b) [m]
| dc_note : forall l, ~ In ")"%char l -> ~ contains (T "qubit x") l -> ~ contains (T "qutrit x") l -> declares l [].

(** ** Gate lines *)
Definition separator (s : text) : Prop := s <> [] /\ Forall (fun c => c = ","%char \/ c = " "%char) s.

(** Lines that are not recognised: comments, lower-case gates, other gates. *)
Definition unknown (l : text) : Prop :=
  (forall w, In w ["X"; "H"; "Z"; "CX"; "CNOT"; "Toffoli"]%string -> ~ begins (T w) l) /\
  ~ (begins (T "RX") l /\ ends (T "180") l).

Section Lines.
Variable S : scalar.
Notation call := (call S).
Notation circuit := (circuit S).

(** The call made for a line. *)
Inductive line_call : text -> option call -> Prop :=
| lc_x : forall r n, numeral r n -> line_call (T "X x" ++ r) (Some (CX (Z.of_nat n) None 1))
| lc_x_plus : forall r n p v, numeral r n -> integer p v ->
    line_call (T "X x" ++ r ++ T " " ++ p) (Some (CX (Z.of_nat n) None v))
| lc_rx : forall r n, numeral r n -> line_call (T "RX x" ++ r ++ T " 180") (Some (CX (Z.of_nat n) None 180))
| lc_h : forall r n, numeral r n -> line_call (T "H x" ++ r) (Some (CH (Z.of_nat n) None))
| lc_z : forall r n, numeral r n -> line_call (T "Z x" ++ r) (Some (CZ (Z.of_nat n) None))
| lc_cx : forall w r n s m, In w ["CX"; "CNOT"]%string -> numeral r n -> numeral s m ->
    line_call (T w ++ T " x" ++ r ++ T " x" ++ s) (Some (CCX [Z.of_nat n; Z.of_nat m] 1))
| lc_cx_plus : forall w r n s m p v, In w ["CX"; "CNOT"]%string -> numeral r n -> numeral s m -> integer p v ->
    line_call (T w ++ T " x" ++ r ++ T " x" ++ s ++ T " " ++ p) (Some (CCX [Z.of_nat n; Z.of_nat m] (Z.abs v)))
| lc_toffoli : forall a n b m c k s1 s2, numeral a n -> numeral b m -> numeral c k -> separator s1 -> separator s2 ->
    line_call (T "Toffoli x" ++ a ++ s1 ++ T "x" ++ b ++ s2 ++ T "x" ++ c)
              (Some (CTof [Z.of_nat n; Z.of_nat m] (Z.of_nat k) 1))
| lc_unknown : forall l, unknown l -> line_call l None.

(** The calls that are made. *)
Definition made (l : list (option call)) : list call :=
  concat (map (fun o => match o with Some k => [k] | None => [] end) l).

(** The calls every list of which has a text. *)
Inductive writable : call -> Prop :=
| wr_x : forall r p, writable (CX (Z.of_nat r) None p)
| wr_h : forall r, writable (CH (Z.of_nat r) None)
| wr_z : forall r, writable (CZ (Z.of_nat r) None)
| wr_cx : forall a b p, writable (CCX [Z.of_nat a; Z.of_nat b] (Z.of_nat p))
| wr_tof : forall a b t, writable (CTof [Z.of_nat a; Z.of_nat b] (Z.of_nat t) 1).

(** The second register of a toffoli call has its dimension raised. *)
Definition raises (r : nat) (k : call) : bool :=
  match k with CTof [_; b] _ _ => (b =? Z.of_nat r)%Z | _ => false end.
Definition raised (dims : list nat) (ks : list call) : list nat :=
  map (fun '(r, d) => if existsb (raises r) ks then d + 1 else d) (combine (seq 0 (length dims)) dims).

(** The circuit built by the calls; the first one that raises ends it. *)
Definition call_all (c : circuit) (ks : list call) : res circuit :=
  fold_left (fun acc k => c <- acc ;; '(c', _) <- api c k ;; Ok c') ks (Ok c).
Definition built (dims : list nat) (ks : list call) : res circuit :=
  c <- mk_circuit S (QList (map Z.of_nat dims)) None None ;;
  call_all c (ks ++ [CMeasureAll]).
End Lines.

(** ** Section markers of any text *)
(** A line-initial marker at the start of a text: the newline, a dot, and
    begin, end, qudit and a white space and a digit, or qubit or qutrit and a
    space and a digit. *)
Definition white (c : ascii) : Prop := In (nat_of_ascii c) [9; 10; 11; 12; 13; 28; 29; 30; 31; 32].
Definition marker (s : text) : Prop :=
  begins (newline :: T ".begin") s \/ begins (newline :: T ".end") s \/
  (exists c d, white c /\ d < 10 /\ begins (newline :: T ".qudit" ++ [c; digit d]) s) \/
  (exists d, d < 10 /\ begins (newline :: T ".qubit " ++ [digit d]) s) \/
  (exists d, d < 10 /\ begins (newline :: T ".qutrit " ++ [digit d]) s).

(** There are [k] markers in the text. *)
Inductive markers : text -> nat -> Prop :=
| mk_none : markers [] 0
| mk_here : forall c s k, marker (c :: s) -> markers s k -> markers (c :: s) (k + 1)
| mk_skip : forall c s k, ~ marker (c :: s) -> markers s k -> markers (c :: s) k.
