(** * DrawSpec: what the drawings should show.
    Definitions only; part of the specification. *)
From Coq Require Import String.
From Verif Require Import Py Scalar Mat Utils Gates Circuit Spec Calls HistSpec Info InfoSpec Draw.
Set Implicit Arguments.
Local Notation length := List.length.

Section DrawSpec.
Variable S : scalar.
Notation op := (op S).
Notation circuit := (circuit S).
Notation call := (call S).
Local Open Scope string_scope.

Definition cat (l : list string) : string := fold_right String.append "" l.
Definition newline : string := String (Ascii.ascii_of_nat 10) "".

(** A text of fewer than five characters in a field of five dashes; the odd
    dash goes to the left. *)
Definition dashes (k : nat) : string := cat (repeat "-" k).
Definition centred (s : string) : string :=
  dashes ((6 - String.length s) / 2) ++ s ++ dashes ((5 - String.length s) / 2).

(** What an operation shows on register [r], one of those it covers; arbitrary
    gates show nothing. *)
Definition symbol (o : op) (r : Z) : string :=
  match o with
  | OInit d s _ _ => "(" ++ str_of_Z d ++ ")|" ++ str_of_Z s ++ ">"
  | OI _ _ | OArb _ _ _ => ""
  | OH _ _ => "H"
  | OZ _ _ => "Z"
  | OX _ _ p => "X(" ++ str_of_Z p ++ ")"
  | OMeas _ => "M"
  | OCX _ a p =>
      if (r =? nth 1 a 0)%Z then "X(" ++ str_of_Z p ++ ")"
      else if (r =? nth 0 a 0)%Z then "*" else "|"
  | OTof cs t p _ _ _ =>
      if existsb (Z.eqb r) cs then "*"
      else if (r =? t)%Z then "X(" ++ str_of_Z p ++ ")" else "|"
  end.

(** The cell of register [r] in a layer. *)
Definition shows (l : list op) (r : nat) : string :=
  match find (fun o => covers o r) l with Some o => centred (symbol o (Z.of_nat r)) | None => centred "" end.

(** The line of register [r]; before measurement an empty column is left at
    the end. *)
Definition line (measured : bool) (c : circuit) (r : nat) : string :=
  cat (map (fun l => shows l r) (layers_of c)) ++ (if measured then "" else "-----").

Definition picture (measured : bool) (c : circuit) (n : nat) : string :=
  cat (map (fun r => line measured c r ++ newline) (seq 0 n)) ++ newline ++
  "depth: " ++ str_of_Z (Z.of_nat (gate_layers c)) ++ ", width: " ++ str_of_Z (Z.of_nat n).

(** The registers of cx and toffoli calls are on the line of [n] registers. *)
Definition drawable (n : nat) (k : call) : Prop :=
  match k with
  | CCX a _ => exists s t, a = [s; t] /\ (0 <= s < Z.of_nat n)%Z /\ (0 <= t < Z.of_nat n)%Z
  | CTof cs t _ => forall r, In r (t :: cs) -> (0 <= r < Z.of_nat n)%Z
  | _ => True
  end.

(** Increments that take one or two characters. *)
Definition short_plus (k : call) : Prop :=
  match k with CX _ _ p | CCX _ p | CTof _ _ p => (-9 <= p <= 99)%Z | _ => True end.

(** ** The figure *)
Definition lowest (l : list Z) : Z := fold_right Z.min (hd 0%Z l) l.
Definition highest (l : list Z) : Z := fold_right Z.max (hd 0%Z l) l.

(** The labels on the figure. *)
Definition shift_sign (p d : Z) : string := "$X^{+" ++ str_of_Z p ++ "}_{" ++ str_of_Z d ++ "}$".
Definition wire_sign (r : nat) (d s : Z) : string :=
  "$Q^{" ++ str_of_Z d ++ "D}_{" ++ str_of_Z (Z.of_nat r) ++ "}|" ++ str_of_Z s ++ ">$".

(** The line that joins the registers of a controlled gate, with a dot on
    every control. *)
Definition joined (cs : list Z) (t : Z) : mark :=
  MLine (lowest (t :: cs)) (highest (t :: cs))
        (filter (fun r => existsb (Z.eqb r) cs)
                (map (fun k => lowest (t :: cs) + Z.of_nat k)%Z (seq 0 (Z.to_nat (highest (t :: cs) - lowest (t :: cs) + 1))))).

(** What the figure should show of an operation of a circuit with dimensions
    [l]: shifts carry the dimension of their target. *)
Definition mark_of (l : list Z) (o : op) : list mark :=
  match o with
  | OInit _ _ _ _ | OI _ _ => []
  | OX q d p => [MText q (shift_sign p d)]
  | OH q _ => [MText q "$H$"]
  | OZ q _ => [MText q "$Z$"]
  | OMeas q => [MText q "$M$"]
  | OArb (RInt q) _ _ | OArb (RList [q]) _ _ => [MText q "$G$"]
  | OArb (RList qs) _ _ => [MBox (lowest qs) (highest qs) qs]
  | OCX _ a p =>
      let c := nth 0 a 0%Z in
      let t := nth 1 a 0%Z in
      let dim r := nth (Z.to_nat r) l 0%Z in
      if ((dim c =? 2) && (dim t =? 2))%Z then [MCnot c t]
      else [MText t (shift_sign p (dim t)); joined [c] t]
  | OTof cs t p _ _ _ => [MText t (shift_sign p (nth (Z.to_nat t) l 0%Z)); joined cs t]
  end.

(** The labels of the wires. *)
Definition wires (lay : list op) : list string :=
  map (fun '(r, o) => match o with OInit d s _ _ => wire_sign r d s | _ => "" end) (combine (seq 0 (length lay)) lay).

(** Register 0 is one of the registers of a cx or toffoli call, and the others
    are on the line of [n] registers. *)
Definition from_zero (n : nat) (k : call) : Prop :=
  match k with
  | CCX a _ => exists s t, a = [s; t] /\ (0 <= s < Z.of_nat n)%Z /\ (0 <= t < Z.of_nat n)%Z /\ (s = 0 \/ t = 0)%Z
  | CTof cs t _ => cs <> [] /\ In 0%Z (t :: cs) /\ forall r, In r (t :: cs) -> (0 <= r < Z.of_nat n)%Z
  | _ => True
  end.
End DrawSpec.
