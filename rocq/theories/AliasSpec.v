(** * AliasSpec: what edits of shared lists are expected to do.
    Definitions only. *)
From Coq Require Import String.
From Verif Require Import Py Scalar Mat Utils Gates Circuit Spec Calls Alias.
Set Implicit Arguments.
Local Notation length := List.length.

(** ** Register list *)

(** The place of a configuration in a list. *)
Fixpoint position (s : config) (l : list config) : nat :=
  match l with [] => 0 | x :: xs => if config_eqb x s then 0 else Datatypes.S (position s xs) end.

(** The configuration of [dims'] at the place [s] has among those of [dims]. *)
Definition renamed (dims dims' : list nat) (s : config) : option config :=
  nth_error (all_configs dims') (position s (all_configs dims)).

Fixpoint all_or_none {A} (l : list (option A)) : option (list A) :=
  match l with
  | [] => Some []
  | Some x :: xs => option_map (cons x) (all_or_none xs)
  | None :: _ => None
  end.

Section AliasSpec.
Variable S : scalar.

Definition rename_all (dims dims' : list nat) (l : list (config * S)) : option (list (config * S)) :=
  all_or_none (map (fun '(s, a) => option_map (fun s' => (s', a)) (renamed dims dims' s)) l).

(** The amplitudes of [psi], each at the configuration of [dims'] at the same
    place. *)
Definition carried (dims dims' : list nat) (psi : config -> S) : config -> S :=
  fun s' => match renamed dims' dims s' with Some s => psi s | None => s0 end.

(** h, x and z may be put into the last layer of the circuit; all other gates
    start a new one. *)
Definition starts_layer (prog : list (gate S)) : Prop :=
  match prog with GX _ _ :: _ | GH _ :: _ | GZ _ :: _ => False | _ => True end.

(** ** The list given to cx *)

(** The contents of the shared list after the acts. *)
Fixpoint contents (cur : list Z) (acts : list (act S)) : list Z :=
  match acts with
  | [] => cur
  | AEdit l :: rest => contents l rest
  | _ :: rest => contents cur rest
  end.

(** A cx that was asked for on the registers [a] and [b], with the list showing
    [v] in the end: control [c] and target [t] are counted from the smaller of
    [a] and [b], at the distance shown by [v]. *)
Definition lands (v : list Z) (a b c t : nat) : Prop :=
  exists x y, v = [x; y] /\
    ((x < y)%Z /\ c = Nat.min a b /\ t = Nat.min a b + Z.to_nat (y - x) \/
     (y <= x)%Z /\ c = Nat.min a b + Z.to_nat (x - y) /\ t = Nat.min a b) /\
    c <= Nat.max a b /\ t <= Nat.max a b.

(** [v] is no pair, or shows a larger distance than [a] and [b] have. *)
Definition outgrows (v : list Z) (a b : nat) : Prop :=
  match v with
  | [x; y] => (Z.abs (x - y) > Z.abs (Z.of_nat a - Z.of_nat b))%Z
  | _ => True
  end.

(** The gates the acts amount to, when the shared list shows [v] in the end;
    [None] for a cx that can no longer be built.  [cur] is what the list shows
    at the moment. *)
Inductive amounts (dims : list nat) (v : list Z) : list Z -> list (act S) -> list (option (gate S)) -> Prop :=
| am_nil : forall cur, amounts dims v cur [] []
| am_call : forall cur k g rest gs, denotes dims k g -> gate_ok dims g -> amounts dims v cur rest gs ->
    amounts dims v cur (ACall k :: rest) (Some g :: gs)
| am_edit : forall cur l rest gs, amounts dims v l rest gs -> amounts dims v cur (AEdit l :: rest) gs
| am_cx : forall a b p c t rest gs, a < length dims -> b < length dims -> lands v a b c t ->
    amounts dims v [Z.of_nat a; Z.of_nat b] rest gs ->
    amounts dims v [Z.of_nat a; Z.of_nat b] (AShared p :: rest) (Some (GCX c t p) :: gs)
| am_lost : forall a b p rest gs, a < length dims -> b < length dims -> outgrows v a b ->
    amounts dims v [Z.of_nat a; Z.of_nat b] rest gs ->
    amounts dims v [Z.of_nat a; Z.of_nat b] (AShared p :: rest) (None :: gs).

End AliasSpec.
