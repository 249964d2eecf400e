(** * Qasm: the regular expressions of the QASM reader and the reader itself.
    Models src/qudiet/qasm/qasm_parser.py.  Texts are lists of ASCII
    characters; characters outside ASCII (on which \d and \s have further
    members) are not modelled.  Reading the file ([parse_qasm], lines 35-38) is
    in QasmFile.v. *)
From Coq Require Import String Ascii.
From Verif Require Import Py Scalar Mat Utils Gates Circuit Spec.
Set Implicit Arguments.
Local Notation length := List.length.

Definition text := list ascii.
Definition lit (s : string) : text := list_ascii_of_string s.

(** ** Characters *)
Definition code (c : ascii) : nat := nat_of_ascii c.
Definition nlc : ascii := ascii_of_nat 10.
(** \d *)
Definition is_digit (c : ascii) : bool := (48 <=? code c)%nat && (code c <=? 57)%nat.
(** \s, and what [str.split()] separates at *)
Definition is_space (c : ascii) : bool :=
  ((9 <=? code c)%nat && (code c <=? 13)%nat) || ((28 <=? code c)%nat && (code c <=? 32)%nat).
(** What [int()] skips at both ends of an ASCII string. *)
Definition is_blank (c : ascii) : bool := ((9 <=? code c)%nat && (code c <=? 13)%nat) || (code c =? 32)%nat.

(** ** Regular expressions
    The ways to match at the start of a text, in the order in which Python's
    backtracking engine tries them: captured groups, matched text, rest. *)
Inductive re : Type :=
| RChar (p : ascii -> bool)          (* one character of a class *)
| RPlus (p : ascii -> bool)          (* a class followed by +, greedy *)
| RSeq (a b : re)
| RAlt (a b : re)                    (* a|b *)
| RGroup (a : re).                   (* ( ) *)

Definition way := (list text * text * text)%type.

Fixpoint ways_plus (p : ascii -> bool) (s : text) : list way :=
  match s with
  | [] => []
  | c :: t => if p c
              then map (fun '(g, u, r) => (g, c :: u, r)) (ways_plus p t) ++ [([], [c], t)]
              else []
  end.

Fixpoint ways (r : re) (s : text) : list way :=
  match r with
  | RChar p => match s with c :: t => if p c then [([], [c], t)] else [] | [] => [] end
  | RPlus p => ways_plus p s
  | RSeq a b => flat_map (fun '(g1, u1, t) => map (fun '(g2, u2, t2) => (g1 ++ g2, u1 ++ u2, t2)) (ways b t)) (ways a s)
  | RAlt a b => ways a s ++ ways b s
  | RGroup a => map (fun '(g, u, t) => (u :: g, u, t)) (ways a s)
  end.

Definition re_here (r : re) (s : text) : option way := hd_error (ways r s).

(** [re.sub]; [k] characters of the last match are still to be skipped.  The
    patterns used never match the empty text. *)
Fixpoint sub_from (r : re) (f : list text -> text) (k : nat) (s : text) : text :=
  match s with
  | [] => []
  | c :: t =>
      match k with
      | Datatypes.S k => sub_from r f k t
      | O => match re_here r s with
             | Some (g, u, _) => f g ++ sub_from r f (length u - 1) t
             | None => c :: sub_from r f 0 t
             end
      end
  end.
Definition re_sub (r : re) (f : list text -> text) (s : text) : text := sub_from r f 0 s.

(** [re.findall] of a pattern without groups. *)
Fixpoint find_from (r : re) (k : nat) (s : text) : list text :=
  match s with
  | [] => []
  | c :: t =>
      match k with
      | Datatypes.S k => find_from r k t
      | O => match re_here r s with
             | Some (_, u, _) => u :: find_from r (length u - 1) t
             | None => find_from r 0 t
             end
      end
  end.
Definition re_findall (r : re) (s : text) : list text := find_from r 0 s.

(** [re.split]: the pieces, with the groups of every match between them. *)
Fixpoint split_from (r : re) (k : nat) (cur : text) (s : text) : list text :=
  match s with
  | [] => [rev cur]
  | c :: t =>
      match k with
      | Datatypes.S k => split_from r k cur t
      | O => match re_here r s with
             | Some (g, u, _) => rev cur :: g ++ split_from r (length u - 1) [] t
             | None => split_from r 0 (c :: cur) t
             end
      end
  end.
Definition re_split (r : re) (s : text) : list text := split_from r 0 [] s.

(** A word of a pattern, and a pattern that is a sequence. *)
Definition is_char (a : ascii) : ascii -> bool := Ascii.eqb a.
Fixpoint word (w : text) (r : re) : re :=
  match w with [] => r | a :: w => RSeq (RChar (is_char a)) (word w r) end.
Fixpoint word1 (w : text) : re :=
  match w with [] => RPlus (fun _ => false) | [a] => RChar (is_char a) | a :: w => RSeq (RChar (is_char a)) (word1 w) end.

(** ** Text functions *)
(** [s.startswith(w)]; [re.search("^w", s)] and [re.match("^w", s)]. *)
Fixpoint starts (w s : text) : bool :=
  match w, s with
  | [], _ => true
  | a :: w, c :: s => Ascii.eqb a c && starts w s
  | _ :: _, [] => false
  end.
(** [re.search("w$", s)] for a text without newlines. *)
Definition finishes (w s : text) : bool := starts (rev w) (rev s).

(** [s.split(sep)] for a separator of one character. *)
Fixpoint split_on (sep : ascii) (cur : text) (s : text) : list text :=
  match s with
  | [] => [rev cur]
  | c :: t => if Ascii.eqb c sep then rev cur :: split_on sep [] t else split_on sep (c :: cur) t
  end.
Definition str_split (sep : ascii) (s : text) : list text := split_on sep [] s.

(** [s.split()] *)
Fixpoint fields (cur : text) (s : text) : list text :=
  match s with
  | [] => match cur with [] => [] | _ => [rev cur] end
  | c :: t => if is_space c
              then match cur with [] => fields [] t | _ => rev cur :: fields [] t end
              else fields (c :: cur) t
  end.
Definition str_fields (s : text) : list text := fields [] s.

(** [sep.join(l)] *)
Fixpoint str_join (sep : text) (l : list text) : text :=
  match l with [] => [] | [s] => s | s :: l => s ++ sep ++ str_join sep l end.

(** [int(s)] of a text of digits. *)
Definition digit_value (c : ascii) : Z := Z.of_nat (code c) - 48.
Definition digits_value (s : text) : Z := fold_left (fun a c => 10 * a + digit_value c)%Z s 0%Z.

(** [int(s)]: blanks around, a sign, digits with single underscores between
    them.  [ok]: the last character was a digit.  Python's limit on the number
    of digits is not modelled. *)
Fixpoint int_body (ok : bool) (acc : Z) (s : text) : res Z :=
  match s with
  | [] => if ok then Ok acc else Err ValueError
  | c :: t =>
      if is_digit c then int_body true (10 * acc + digit_value c) t
      else if (Ascii.eqb c "_" && ok)%char then int_body false acc t
      else if ok && forallb is_blank s then Ok acc else Err ValueError
  end.
Fixpoint skip_blank (s : text) : text :=
  match s with c :: t => if is_blank c then skip_blank t else s | [] => [] end.
Definition py_int (s : text) : res Z :=
  match skip_blank s with
  | c :: t => if Ascii.eqb c "-" then v <- int_body false 0 t ;; Ok (- v)%Z
              else if Ascii.eqb c "+" then int_body false 0 t
              else int_body false 0 (c :: t)
  | [] => Err ValueError
  end%char.

(** [int(re.findall("\d+", s)[0])] *)
Definition first_int (s : text) : res Z :=
  d <- py_get (re_findall (RPlus is_digit) s) 0 ;; Ok (digits_value d).

(** ** The patterns *)
(** qasm_parser.py:43-44: \.qubit (\d+) and \.qutrit (\d+), replaced by .qudit \1 *)
Definition number_of (w : string) : re := word (lit w) (RGroup (RPlus is_digit)).
Definition re_dot_qubit : re := number_of ".qubit ".
Definition re_dot_qutrit : re := number_of ".qutrit ".
Definition to_dot_qudit (g : list text) : text := lit ".qudit " ++ nth 0 g [].
(** qasm_parser.py:45: \n\.(qudit\s\d+|begin|end) *)
Definition re_marker : re :=
  RSeq (RChar (is_char nlc)) (RSeq (RChar (is_char ".")) (RGroup
    (RAlt (word (lit "qudit") (RSeq (RChar is_space) (RPlus is_digit)))
          (RAlt (word1 (lit "begin")) (word1 (lit "end")))))).
(** qasm_parser.py:52-53: qubit x(\d+) replaced by qudit x\1 (2), and qutrit *)
Definition re_qubit : re := number_of "qubit x".
Definition re_qutrit : re := number_of "qutrit x".
Definition to_qudit (d : string) (g : list text) : text := lit "qudit x" ++ nth 0 g [] ++ lit d.
(** qasm_parser.py:56: \d+\) *)
Definition re_dim : re := RSeq (RPlus is_digit) (RChar (is_char ")")).
(** qasm_parser.py:71: Toffoli x\d+[, ]+x(\d+)[, ]+x\d+ *)
Definition is_sep (c : ascii) : bool := Ascii.eqb c "," || Ascii.eqb c " ".
Definition re_toffoli : re :=
  word (lit "Toffoli x") (RSeq (RPlus is_digit) (RSeq (RPlus is_sep)
    (RSeq (RChar (is_char "x")) (RSeq (RGroup (RPlus is_digit)) (RSeq (RPlus is_sep)
      (RSeq (RChar (is_char "x")) (RPlus is_digit))))))).

(** ** The reader *)
(** [l.pop(i)] *)
Definition py_pop {A} (i : nat) (l : list A) : res (list A) :=
  if (i <? length l)%nat then Ok (firstn i l ++ skipn (i + 1) l) else Err IndexError.

(** Models src/qudiet/qasm/qasm_parser.py:43-50: the sections of a text. *)
Definition sections (data : text) : res (list text) :=
  let data := re_sub re_dot_qubit to_dot_qudit data in
  let data := re_sub re_dot_qutrit to_dot_qudit data in
  let l := re_split re_marker data in
  l <- py_pop 6 l ;; l <- py_pop 5 l ;; l <- py_pop 3 l ;; l <- py_pop 1 l ;; py_pop 0 l.

(** Models src/qudiet/qasm/qasm_parser.py:52-57: the declared dimensions. *)
Definition declared (s : text) : res (list Z) :=
  let s := re_sub re_qubit (to_qudit " (2)") s in
  let s := re_sub re_qutrit (to_qudit " (3)") s in
  mapM first_int (re_findall re_dim s).

(** Models src/qudiet/qasm/qasm_parser.py:61: the gate lines. *)
Definition gate_lines (s : text) : list text :=
  filter (fun l => match l with [] => false | _ => true end) (str_split nlc s).

(** Models src/qudiet/qasm/qasm_parser.py:62-82.  The order in which [set]
    yields the numbers has no effect: they are only looked up, and any element
    that is not a number raises the same ValueError. *)
Definition raise_dims (gates : list text) (qregs : list Z) : res (list Z) :=
  match filter (starts (lit "Toffoli")) gates with
  | [] => Ok qregs
  | found =>
      toffolis <- mapM py_int (str_split ";" (re_sub re_toffoli (fun g => nth 0 g []) (str_join (lit ";") found))) ;;
      Ok (map (fun '(i, d) => if zmem (Z.of_nat i) toffolis then (d + 1)%Z else d)
              (combine (seq 0 (length qregs)) qregs))
  end.

Section Reader.
Variable S : scalar.
Notation circuit := (circuit S).
Notation call := (call S).

(** Models the body of the loop, src/qudiet/qasm/qasm_parser.py:86-119: the
    API call made for a line, if any. *)
Definition gate_call (g : text) : res (option call) :=
  let w := str_fields g in
  let reg i := t <- py_get w i ;; first_int t in
  if starts (lit "X") g || (starts (lit "RX") g && finishes (lit "180") g) then
    plus <- (if Nat.eqb (length w) 3 then t <- py_get w 2 ;; py_int t else Ok 1%Z) ;;
    q <- reg 1%Z ;;
    Ok (Some (CX q None plus))
  else if starts (lit "H") g then
    q <- reg 1%Z ;; Ok (Some (CH q None))
  else if starts (lit "Z") g then
    q <- reg 1%Z ;; Ok (Some (CZ q None))
  else if starts (lit "CX") g || starts (lit "CNOT") g then
    a <- reg 1%Z ;;
    b <- reg 2%Z ;;
    plus <- (if Nat.eqb (length w) 4 then reg 3%Z else Ok 1%Z) ;;
    Ok (Some (CCX [a; b] plus))
  else if starts (lit "Toffoli") g then
    let ints := map digits_value (re_findall (RPlus is_digit) g) in
    t <- py_get ints (-1) ;;
    Ok (Some (CTof (removelast ints) t 1))
  else Ok None.

(** Models src/qudiet/qasm/qasm_parser.py:85-119: the loop; the first call
    that raises ends it. *)
Definition read_line (c : circuit) (g : text) : res circuit :=
  k <- gate_call g ;;
  match k with
  | None => Ok c
  | Some k => '(c, _) <- api c k ;; Ok c
  end.
Definition read_lines (c : circuit) (gates : list text) : res circuit :=
  fold_left (fun acc g => c <- acc ;; read_line c g) gates (Ok c).

(** Models src/qudiet/qasm/qasm_parser.py:42-123 [circuit_from_qasm]. *)
Definition circuit_from_qasm (data : text) : res circuit :=
  l <- sections data ;;
  decls <- py_get l 0 ;;
  qregs <- declared decls ;;
  body <- py_get l 1 ;;
  let gates := gate_lines body in
  qregs <- raise_dims gates qregs ;;
  c <- mk_circuit S (QList qregs) None None ;;
  c <- read_lines c gates ;;
  '(c, _) <- api c CMeasureAll ;;
  Ok c.
End Reader.
