(** * InfoSpec: what depth and gate counts should be.
    Definitions only; part of the specification. *)
From Verif Require Import Py Scalar Mat Utils Gates Circuit Spec Calls HistSpec Info.
Set Implicit Arguments.

Section InfoSpec.
Variable S : scalar.
Notation op := (op S).
Notation circuit := (circuit S).
Notation call := (call S).

Definition layers_of (c : circuit) : list (list op) := map (@m_list S) (f_list (c_flow c)).

(** Number of layers with neither an initial state nor a measurement. *)
Definition gate_layers (c : circuit) : nat :=
  length (filter (fun l => negb (existsb (@is_init S) l || existsb (@is_meas S) l)) (layers_of c)).

(** The last layer leaves register [r] idle. *)
Definition idle_at_end (c : circuit) (r : Z) : Prop :=
  exists before l d, layers_of c = before ++ [l] /\ In (OI r d) l.

(** h, x and z may share the last layer with other gates. *)
Definition may_share (k : call) (r : Z) : Prop :=
  match k with CH q _ | CX q _ _ | CZ q _ => q = r | _ => False end.

(** The kind a call is counted as. *)
Definition asks_kind (x : kind) (k : call) : bool :=
  match x, k with
  | KH, CH _ _ | KX, CX _ _ _ | KZ, CZ _ _ | KCX, CCX _ _ | KToffoli, CTof _ _ _
  | KArbitrary, CGate _ _ _ => true
  | _, _ => false
  end.

(** The registers named by a call. *)
Definition named (k : call) : list Z :=
  match k with
  | CH q _ | CX q _ _ | CZ q _ | CGate _ (RInt q) _ | CMeasure q => [q]
  | CCX a _ => a
  | CTof cs t _ => t :: cs
  | CGate _ (RList l) _ => l
  | CMeasureAll => []
  end.

(** Some register of a line of [n] lies between two registers of the call. *)
Definition on_line (n : nat) (k : call) : bool :=
  existsb (fun r => existsb (fun a => (a <=? Z.of_nat r)%Z) (named k) &&
                    existsb (fun b => (Z.of_nat r <=? b)%Z) (named k)) (seq 0 n).

Definition returns (c : circuit) (k : call) : bool := match api c k with Ok _ => true | Err _ => false end.

(** Calls of kind [x], on [n] registers, issued from circuit [c] on, that
    return normally before the first measure_all() and touch the line. *)
Fixpoint tally (n : nat) (x : kind) (c : circuit) (ks : list call) : Z :=
  match ks with
  | [] => 0
  | k :: ks =>
      if is_measure_all k then 0
      else (if asks_kind x k && returns c k && on_line n k then 1 else 0) + tally n x (step c k) ks
  end%Z.

(** The kind of a gate of the specification. *)
Definition gate_kind (g : gate S) : kind :=
  match g with
  | GX _ _ => KX | GH _ => KH | GZ _ => KZ | GCX _ _ _ => KCX | GTof _ _ _ => KToffoli
  | GU _ _ | GSpan _ _ _ => KArbitrary
  end.
Definition how_many (x : kind) (prog : list (gate S)) : Z :=
  Z.of_nat (length (filter (fun g => kind_eqb x (gate_kind g)) prog)).

(** A dictionary holding exactly the nonzero values of [f]. *)
Definition holds_counts (details : list (kind * Z)) (f : kind -> Z) : Prop :=
  NoDup (map fst details) /\ forall x n, In (x, n) details <-> n = f x /\ n <> 0%Z.

(** Operations of one class. *)
Definition same_class (o o' : op) : bool :=
  match o, o' with
  | OInit _ _ _ _, OInit _ _ _ _ | OI _ _, OI _ _ | OH _ _, OH _ _ | OX _ _ _, OX _ _ _ | OZ _ _, OZ _ _
  | OCX _ _ _, OCX _ _ _ | OTof _ _ _ _ _ _, OTof _ _ _ _ _ _ | OArb _ _ _, OArb _ _ _ | OMeas _, OMeas _ => true
  | _, _ => false
  end.

(** Layers created with operations of the same classes, with matrices of the
    same shapes. *)
Definition same_look (B : backend S) (m1 m2 : moment S) : Prop :=
  Forall2 (fun o1 o2 => same_class o1 o2 = true /\ exists u1 u2, unitary B o1 = Ok u1 /\ unitary B o2 = Ok u2 /\
             mr (b_toarray u1) = mr (b_toarray u2) /\ mc (b_toarray u1) = mc (b_toarray u2))
          (m_operations m1) (m_operations m2).
End InfoSpec.
