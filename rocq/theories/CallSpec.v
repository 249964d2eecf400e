(** * CallSpec: calls that have no effect, and histories that mix them with
    valid calls.  Definitions only; part of the specification. *)
From Verif Require Import Py Scalar Mat Utils Gates Circuit Spec Calls HistSpec.
Set Implicit Arguments.

Section CallSpec.
Variable S : scalar.
Notation call := (call S).

(** The register index names no register of a line of [n] (a Python index -1
    does not mean the last register here). *)
Definition outside (n : nat) (r : Z) : Prop := (r < 0 \/ Z.of_nat n <= r)%Z.

(** The call asks for one gate on register [r] with the given dims argument. *)
Definition asks_one (k : call) (r : Z) (dm : option Z) : Prop :=
  match k with
  | CH q d | CX q d _ | CZ q d | CGate _ (RInt q) d => q = r /\ d = dm
  | _ => False
  end.

(** Calls that raise or are silently dropped, on the line [dims]. *)
Inductive skipped (dims : list nat) : call -> Prop :=
| sk_one : forall k r dm, asks_one k r dm -> outside (length dims) r -> skipped dims k
| sk_dim : forall k r d, asks_one k (Z.of_nat r) (Some d) -> r < length dims ->
    (Z.of_nat (nth r dims O) < d)%Z -> skipped dims k
| sk_cx : forall a p, length a < 2 \/ (forall r, In r a -> (r < 0)%Z) \/ (forall r, In r a -> (Z.of_nat (length dims) <= r)%Z) ->
    skipped dims (CCX a p)
| sk_tof : forall cs t p,
    (exists r, In r (t :: cs) /\ (r < - Z.of_nat (length dims) \/ Z.of_nat (length dims) <= r)%Z) \/
    (forall r, In r (t :: cs) -> (r < 0)%Z) ->
    skipped dims (CTof cs t p)
| sk_list : forall u l dm,
    (exists r, In r l /\ (r < - Z.of_nat (length dims) \/ Z.of_nat (length dims) <= r)%Z) \/
    (forall r, In r l -> (r < 0)%Z) ->
    skipped dims (CGate u (RList l) dm)
| sk_measure : forall r, skipped dims (CMeasure r).

(** The calls [ks] ask for the program [prog] of valid gates, between calls
    without effect. *)
Inductive reads (dims : list nat) : list call -> list (gate S) -> Prop :=
| reads_nil : reads dims [] []
| reads_gate : forall k ks g prog, denotes dims k g -> gate_ok dims g -> reads dims ks prog -> reads dims (k :: ks) (g :: prog)
| reads_skip : forall k ks prog, skipped dims k -> reads dims ks prog -> reads dims (k :: ks) prog.

(** The call is accepted, and run() raises on the circuit from then on,
    whatever is called in between. *)
Definition accepted_but_never_runs (c : circuit S) (k : call) : Prop :=
  exists c', api c k = Ok (c', true) /\ forall (B : backend S) ks, exists e, run B (after c' ks) = Err e.

(** Calls that return True and add no gate, on [n] registers: one-register
    gates with Python-style negative index, and cx on two registers that are
    both before the first or both after the last. *)
Definition dropped (n : nat) (k : call) : Prop :=
  (exists r dm, asks_one k r dm /\ (- Z.of_nat n <= r < 0)%Z /\ (dm = None \/ dm = Some 0%Z)) \/
  (exists s t p, k = CCX [s; t] p /\ ((s < 0 /\ t < 0)%Z \/ (Z.of_nat n <= s /\ Z.of_nat n <= t)%Z)).

End CallSpec.
