(** * Spec: what a circuit is supposed to compute.

    Independent of the model: no matrices, layers, Kronecker products, truth
    tables or register bookkeeping.  A basis state of a register line is the
    list of its levels (a configuration).  A gate is described by its
    transition amplitude between two configurations, and a program is applied
    gate by gate. *)
From Coq Require Import String.
From Verif Require Import Py Scalar.
Set Implicit Arguments.

(** ** Configurations *)
Definition config := list nat.

(** All configurations of a register line, in lexicographic order. *)
Fixpoint all_configs (dims : list nat) : list config :=
  match dims with
  | [] => [[]]
  | d :: ds => flat_map (fun x => map (cons x) (all_configs ds)) (seq 0 d)
  end.

(** [s] is a configuration of the line [dims]. *)
Definition valid (dims : list nat) (s : config) : Prop := Forall2 (fun x d => x < d) s dims.

(** The level of a register, and the configuration with one level replaced. *)
Definition level (s : config) (r : nat) : nat := nth r s 0.
Fixpoint put (s : config) (r v : nat) : config :=
  match s, r with
  | [], _ => []
  | _ :: s', O => v :: s'
  | x :: s', S r' => x :: put s' r' v
  end.

(** Addition of an increment modulo a dimension. *)
Definition shift (d x : nat) (p : Z) : nat := Z.to_nat ((Z.of_nat x + p) mod Z.of_nat d).

(** A register sits at its top level. *)
Definition top (dims : list nat) (s : config) (r : nat) : bool :=
  Nat.eqb (level s r + 1) (nth r dims 0).

Definition config_eqb (s t : config) : bool :=
  if list_eq_dec Nat.eq_dec s t then true else false.

(** ** Gates *)
Section Spec.
Variable S : scalar.

(** Gates with valid registers as a user means them.  [GU r u] is an arbitrary
    one-register gate with matrix entries [u out in]; [GSpan r u] an arbitrary
    gate on the contiguous registers [r], [r+1], ..., [r+k-1], whose entries
    are indexed by the levels of these registers. *)
Inductive gate : Type :=
| GX (r : nat) (plus : Z)
| GH (r : nat)
| GZ (r : nat)
| GCX (control target : nat) (plus : Z)
| GTof (controls : list nat) (target : nat) (plus : Z)
| GU (r : nat) (u : nat -> nat -> S)
| GSpan (r k : nat) (u : config -> config -> S).

(** The entry of the d-level Hadamard-like matrix: first row and column are 1,
    the rest is filled cyclically with the roots of unity returned by the root
    finder, except the last one; everything is scaled by 1/sqrt(d). *)
Definition had (d i j : nat) : S :=
  smul (sisqrt d)
       (if Nat.eqb i 0 || Nat.eqb j 0 then s1
        else nth ((i + (d - 1) - j) mod (d - 1)) (sroots d) s0).

(** A gate that moves basis states around. *)
Definition classical (f : config -> config) (out inp : config) : S :=
  if config_eqb (f inp) out then s1 else s0.

(** A gate that acts on register [r] only. *)
Definition local (r : nat) (u : nat -> nat -> S) (out inp : config) : S :=
  if config_eqb (put inp r (level out r)) out then u (level out r) (level inp r) else s0.

(** The basis state reached from [s] by a classical gate. *)
Definition move_x (dims : list nat) (r : nat) (p : Z) (s : config) : config :=
  put s r (shift (nth r dims 0) (level s r) p).
Definition move_cx (dims : list nat) (c t : nat) (p : Z) (s : config) : config :=
  if top dims s c then move_x dims t p s else s.
Definition move_tof (dims : list nat) (cs : list nat) (t : nat) (p : Z) (s : config) : config :=
  if forallb (top dims s) cs then move_x dims t p s else s.

(** Amplitude of the transition from [inp] to [out]. *)
Definition amp (dims : list nat) (g : gate) (out inp : config) : S :=
  match g with
  | GX r p => classical (move_x dims r p) out inp
  | GH r => local r (had (nth r dims 0)) out inp
  | GZ r => local r (fun i j => if Nat.eqb i j then nth i (sroots (nth r dims 0)) s0 else s0) out inp
  | GCX c t p => classical (move_cx dims c t p) out inp
  | GTof cs t p => classical (move_tof dims cs t p) out inp
  | GU r u => local r u out inp
  | GSpan r k u =>
      if config_eqb (firstn r inp) (firstn r out) && config_eqb (skipn (r + k) inp) (skipn (r + k) out)
      then u (firstn k (skipn r out)) (firstn k (skipn r inp)) else s0
  end.

(** ** Valid gates *)

(** The registers [l] occupy exactly two neighbouring positions. *)
Definition spans_two (l : list nat) : Prop :=
  exists lo, In lo l /\ In (lo + 1) l /\ forall x, In x l -> x = lo \/ x = lo + 1.

Fixpoint total {A} (f : A -> S) (l : list A) : S :=
  match l with [] => s0 | x :: xs => sadd (f x) (total f xs) end.

(** The rows indexed by [l] are orthonormal, up to the tolerance [sclose]. *)
Definition orthonormal_rows {A} (eqb : A -> A -> bool) (l : list A) (u : A -> A -> S) : Prop :=
  forall i j, In i l -> In j l ->
    sclose (if eqb i j then s1 else s0) (total (fun k => smul (u i k) (sconj (u j k))) l) = true.

(** The levels of [k] registers starting at [r]. *)
Definition span (dims : list nat) (r k : nat) : list nat := firstn k (skipn r dims).

(** Gates the library can execute: registers in range, increments the X gate
    accepts, arbitrary matrices unitary.  A cx may name one register twice: it
    then moves that register when it is at its top level. *)
Definition gate_ok (dims : list nat) (g : gate) : Prop :=
  match g with
  | GX r p => r < length dims /\ (- Z.of_nat (nth r dims O) <= p < Z.of_nat (nth r dims O))%Z
  | GH r | GZ r => r < length dims
  | GCX c t _ => c < length dims /\ t < length dims
  | GTof cs t _ => (forall c, In c cs -> c < length dims) /\ t < length dims /\
                   ~ In t cs /\ ~ spans_two (t :: cs)
  | GU r u => r < length dims /\ orthonormal_rows Nat.eqb (seq 0 (nth r dims 0)) u
  | GSpan r k u => 1 <= k /\ r + k <= length dims /\
                   orthonormal_rows config_eqb (all_configs (span dims r k)) u
  end.

(** ** Programs *)
Definition state := config -> S.

Definition basis (s0' : config) : state := fun s => if config_eqb s0' s then s1 else s0.

Definition apply (dims : list nat) (g : gate) (psi : state) : state :=
  fun out => total (fun inp => smul (amp dims g out inp) (psi inp)) (all_configs dims).

Fixpoint final (dims : list nat) (prog : list gate) (psi : state) : state :=
  match prog with
  | [] => psi
  | g :: gs => final dims gs (apply dims g psi)
  end.

(** The basis state a circuit starts in: the given levels, then zeros. *)
Definition start (dims levels : list nat) : config := levels ++ repeat 0 (length dims - length levels).

(** The expected answer: every configuration with nonzero amplitude, in
    lexicographic order. *)
Definition answer (dims : list nat) (psi : state) : list (config * S) :=
  map (fun s => (s, psi s)) (filter (fun s => negb (seqb (psi s) s0)) (all_configs dims)).

End Spec.

Arguments GX {S}.
Arguments GH {S}.
Arguments GZ {S}.
Arguments GCX {S}.
Arguments GTof {S}.
Arguments GU {S}.
Arguments GSpan {S}.

(** ** Classical evaluation *)
Section Classical.
Variable S : scalar.

(** The gates that send basis states to basis states, and what they do. *)
Definition is_classical (g : gate S) : bool :=
  match g with GX _ _ | GCX _ _ _ | GTof _ _ _ => true | _ => false end.
Definition move (dims : list nat) (g : gate S) (s : config) : config :=
  match g with
  | GX r p => move_x dims r p s
  | GCX c t p => move_cx dims c t p s
  | GTof cs t p => move_tof dims cs t p s
  | _ => s
  end.
Fixpoint moves (dims : list nat) (prog : list (gate S)) (s : config) : config :=
  match prog with [] => s | g :: gs => moves dims gs (move dims g s) end.

(** The gates whose opposite increment undoes them: a cx on a single register
    is not one of them. *)
Definition reversible (g : gate S) : Prop :=
  match g with
  | GX _ _ | GTof _ _ _ => True
  | GCX c t _ => c <> t
  | _ => False
  end.

(** The gate that undoes a reversible gate. *)
Definition undo (g : gate S) : gate S :=
  match g with
  | GX r p => GX r (- p)
  | GCX c t p => GCX c t (- p)
  | GTof cs t p => GTof cs t (- p)
  | g => g
  end.

(** The registers a gate touches. *)
Definition touches (g : gate S) : list nat :=
  match g with
  | GX r _ | GH r | GZ r | GU r _ => [r]
  | GCX c t _ => [c; t]
  | GTof cs t _ => cs ++ [t]
  | GSpan r k _ => seq r k
  end.
End Classical.
