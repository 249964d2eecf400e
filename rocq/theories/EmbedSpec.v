(** * EmbedSpec: some registers of a line.  Definitions only. *)
From Verif Require Import Py Scalar Spec.
Set Implicit Arguments.

(** The entries of a list (levels or dimensions) at the registers [rs]. *)
Definition part (rs : list nat) (l : list nat) : list nat := map (fun r => nth r l 0) rs.
Definition there (rs : list nat) (s : config) : config := map (level s) rs.

(** The configuration with the levels [t] at the registers [rs]. *)
Fixpoint puts (s : config) (rs : list nat) (t : config) : config :=
  match rs, t with r :: rs, v :: t => put (puts s rs t) r v | _, _ => s end.

(** The number listed for an outcome, 0 if it is not in the list. *)
Definition listed (S : scalar) (l : list (config * S)) (s : config) : S :=
  match find (fun '(t, _) => config_eqb t s) l with Some (_, a) => a | None => s0 end.
Arguments listed {S}.
