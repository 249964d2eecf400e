(** * Info: get_circuit_config, get_circuit_info and weak_compare
    (src/qudiet/core/quantum_circuit.py, src/qudiet/utils/debug.py). *)
From Coq Require Import String.
From Verif Require Import Py Scalar Mat Utils Gates Circuit.
Set Implicit Arguments.
Local Notation length := List.length.

Section Info.
Variable S : scalar.
Notation op := (op S).
Notation moment := (moment S).
Notation circuit := (circuit S).

(** The ["width"] entry of the configuration: a number for list [qregs], the
    tuple itself for tuple [qregs] (no [cregs], see [mk_circuit]).
    Models src/qudiet/core/quantum_circuit.py:137-141. *)
Inductive width : Type := WInt (n : Z) | WTuple (l : list Z).
Definition config_width (c : circuit) : width :=
  match c_qregs c with QList l => WInt (Z.of_nat (length l)) | QTuple l => WTuple l end.

(** Models src/qudiet/core/quantum_circuit.py:126-142 [get_circuit_config];
    the warning of line 135 is left out. *)
Definition get_circuit_config (c : circuit) : res (width * Z) :=
  let l := f_list (c_flow c) in
  let depth := (Z.of_nat (length l) - 1)%Z in
  final <- py_get l (-1) ;;
  let depth := if existsb (@is_meas S) (m_list final) then (depth - 1)%Z else depth in
  Ok (config_width c, depth).

(** The keys of the dictionary [details], in insertion order.
    Models src/qudiet/core/quantum_circuit.py:519-526. *)
Inductive kind : Type := KH | KX | KZ | KCX | KToffoli | KArbitrary.
Definition kinds : list kind := [KH; KX; KZ; KCX; KToffoli; KArbitrary].
Definition kind_eqb (a b : kind) : bool :=
  match a, b with
  | KH, KH | KX, KX | KZ, KZ | KCX, KCX | KToffoli, KToffoli | KArbitrary, KArbitrary => true
  | _, _ => false
  end.

(** Models the chain of [isinstance] tests of
    src/qudiet/core/quantum_circuit.py:534-545.  The gate classes are
    unrelated except [Toffoli < ArbitaryGate], and Toffoli is tested first. *)
Definition kind_of (o : op) : option kind :=
  match o with
  | OX _ _ _ => Some KX
  | OH _ _ => Some KH
  | OZ _ _ => Some KZ
  | OCX _ _ _ => Some KCX
  | OTof _ _ _ _ _ _ => Some KToffoli
  | OArb _ _ _ => Some KArbitrary
  | OInit _ _ _ _ | OI _ _ | OMeas _ => None
  end.

(** [details[key] += 1]. *)
Definition bump (k : kind) (details : list (kind * Z)) : list (kind * Z) :=
  map (fun '(k', n) => (k', if kind_eqb k k' then n + 1 else n)%Z) details.

(** The inner loop of src/qudiet/core/quantum_circuit.py:533-549; the state is
    [(flag, depth, details)]. *)
Definition info_gate (qudit : Z) (s : Z * Z * list (kind * Z)) (g : op) : Z * Z * list (kind * Z) :=
  let '(flag, depth, details) := s in
  match kind_of g with
  | Some k => (flag, depth, bump k details)
  | None =>
      if is_meas g
      then let flag := (flag + 1)%Z in
           (flag, if (flag =? qudit)%Z then (depth - 1)%Z else depth, details)
      else s
  end.

(** The outer loop, lines 530-549: [flag] starts at 0 for every moment. *)
Definition info_moment (qudit : Z) (s : Z * list (kind * Z)) (m : moment) : Z * list (kind * Z) :=
  let '(depth, details) := s in
  let '(_, depth, details) := fold_left (info_gate qudit) (m_list m) (0%Z, depth, details) in
  (depth, details).

(** The returned dictionary. *)
Record info : Type := {
  i_depth : Z;
  i_gate_count : Z;
  i_details : list (kind * Z);
  i_qudit : Z }.

(** Models src/qudiet/core/quantum_circuit.py:511-562 [get_circuit_info]. *)
Definition get_circuit_info (c : circuit) : info :=
  let qudit := Z.of_nat (length (qregs_list (c_qregs c))) in
  let moments := f_list (c_flow c) in
  let '(depth, details) :=
    fold_left (info_moment qudit) moments
              ((Z.of_nat (length moments) - 1)%Z, map (fun k => (k, 0%Z)) kinds) in
  let details := filter (fun '(_, n) => negb (n =? 0)%Z) details in
  {| i_depth := depth;
     i_gate_count := fold_left Z.add (map snd details) 0%Z;
     i_details := details;
     i_qudit := qudit |}.

(** ** weak_compare *)

(** [type(op).__name__].  The classes a user derives from ArbitaryGate are
    not told apart here.  Models src/qudiet/utils/debug.py:6. *)
Definition class_name (o : op) : string :=
  match o with
  | OInit _ _ _ _ => "InitState"
  | OI _ _ => "IGate"
  | OH _ _ => "HGate"
  | OX _ _ _ => "XGate"
  | OZ _ _ => "ZGate"
  | OMeas _ => "Measurement"
  | OCX _ _ _ => "CXGate"
  | OTof _ _ _ _ _ _ => "Toffoli"
  | OArb _ _ _ => "ArbitaryGate"
  end%string.

(** Models src/qudiet/utils/debug.py:3-9 [moment_to_repr] for the default
    (sparse) backend, whose matrices have [toarray].  The operations are those
    given to the constructor of the moment ([_operations]), not the merged
    list.  The [unitary] of a Measurement is [None], which has no [toarray]. *)
Definition moment_to_repr (B : backend S) (m : moment) : res (list (string * (nat * nat))) :=
  mapM (fun o =>
          if is_meas o then Err AttributeError
          else u <- unitary B o ;;
               let a := b_toarray u in
               Ok (class_name o, (mr a, mc a)))
       (m_operations m).

Definition repr_eqb (a b : string * (nat * nat)) : bool :=
  String.eqb (fst a) (fst b) && Nat.eqb (fst (snd a)) (fst (snd b)) && Nat.eqb (snd (snd a)) (snd (snd b)).
Fixpoint reprs_eqb (a b : list (string * (nat * nat))) : bool :=
  match a, b with
  | [], [] => true
  | x :: a, y :: b => repr_eqb x y && reprs_eqb a b
  | _, _ => false
  end.

(** The loop of src/qudiet/utils/debug.py:13-17 over the zipped moments; the
    result is the layer number of the returned text and the two moments. *)
Fixpoint compare_from (B : backend S) (index : nat) (l : list (moment * moment))
  : res (option (nat * (moment * moment))) :=
  match l with
  | [] => Ok None
  | (m1, m2) :: l =>
      r1 <- moment_to_repr B m1 ;;
      r2 <- moment_to_repr B m2 ;;
      if reprs_eqb r1 r2 then compare_from B (Datatypes.S index) l
      else Ok (Some (index, (m1, m2)))
  end.

(** Models src/qudiet/utils/debug.py:11-17 [weak_compare]. *)
Definition weak_compare (B : backend S) (c1 c2 : circuit) : res (option (nat * (moment * moment))) :=
  let l1 := f_list (c_flow c1) in
  let l2 := f_list (c_flow c2) in
  if negb (Nat.eqb (length l1) (length l2))
  then compare_from B 0 (combine l1 l2)
  else Ok None.
End Info.
