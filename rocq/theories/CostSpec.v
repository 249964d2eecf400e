(** * CostSpec: what a run costs, and the run from the other end.
    Definitions only; part of the specification. *)
From Coq Require Import List Arith.
From Verif Require Import Py Scalar Mat Gates Circuit Cost.
Import ListNotations.
Set Implicit Arguments.

(** [D] layers on a line with [N] basis states: layer times layer, until the
    initial state is reached. *)
Definition layer_by_layer (N D : nat) : nat :=
  match D with
  | 0 => 0
  | S k => k * (N * N * N) + N * N
  end.

(** Layer times state, [D] times. *)
Definition state_first (N D : nat) : nat := D * (N * N).

Section CostSpec.
Variable S : scalar.

(** The same circuit run from the initial state on. *)
Definition forward_exec (B : backend S) (f : opflow S) : res (option B) :=
  match removelast (f_list f) with
  | [] => Ok None
  | m0 :: ms =>
      v <- moment_exec B (m_list m0) ;;
      w <- fold_left (fun acc m => a <- acc ;; k <- moment_exec B (m_list m) ;; b_dot k a) ms (Ok v) ;;
      Ok (Some w)
  end.
Definition forward (B : backend S) (c : circuit S) : res (list (label * S)) :=
  r <- forward_exec B (c_flow c) ;;
  match r with
  | None => Err AttributeError
  | Some m => output_call (c_out c) (b_toarray m)
  end.
Definition forward_cost (B : backend S) (w : meter B) (c : circuit S) : res (nat * nat) :=
  r <- forward_exec (counted w) (c_flow c) ;;
  match r with
  | None => Err AttributeError
  | Some m => Ok (fst m)
  end.
End CostSpec.
