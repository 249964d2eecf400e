(** * PermSpec: swaps of basis states, affine maps, and a class of gates.  Definitions only; part of the
    specification. *)
From Verif Require Import Py Scalar Spec.
Set Implicit Arguments.

(** The function that exchanges the configurations [a] and [b]. *)
Definition swap (a b s : config) : config :=
  if config_eqb s a then b else if config_eqb s b then a else s.

(** Swaps carried out one after the other, the first of the list first. *)
Fixpoint swaps (l : list (config * config)) (s : config) : config :=
  match l with [] => s | (a, b) :: l' => swaps l' (swap a b s) end.

(** [l] lists pairs of different configurations of the line. *)
Definition real_swaps (dims : list nat) (l : list (config * config)) : Prop :=
  forall a b, In (a, b) l -> valid dims a /\ valid dims b /\ a <> b.

(** [f] permutes the configurations of the line. *)
Definition permutes (dims : list nat) (f : config -> config) : Prop :=
  (forall s, valid dims s -> valid dims (f s)) /\
  (forall s t, valid dims s -> valid dims t -> f s = f t -> s = t).

(** Configurations of qubits added modulo 2, register by register. *)
Definition xor (s t : config) : config := map (fun '(a, b) => (a + b) mod 2) (combine s t).

(** [f] is an affine map: it keeps sums of three configurations (over the
    integers modulo 2 that is a linear map followed by adding a constant). *)
Definition affine (n : nat) (f : config -> config) : Prop :=
  forall a b c, valid (repeat 2 n) a -> valid (repeat 2 n) b -> valid (repeat 2 n) c ->
  f (xor a (xor b c)) = xor (f a) (xor (f b) (f c)).

(** The gates h, x, z and cx on two different registers, and h among them. *)
Definition clifford {S : scalar} (g : gate S) : Prop :=
  match g with GX _ _ | GZ _ | GH _ => True | GCX c t _ => c <> t | _ => False end.
Definition is_h {S : scalar} (g : gate S) : bool := match g with GH _ => true | _ => false end.
