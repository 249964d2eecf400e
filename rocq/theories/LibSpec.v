(** * LibSpec: what calls of the methods mixed with calls of gate() on classes
    of the library ask for.  Definitions only; part of the specification. *)
From Verif Require Import Py Scalar Mat Utils Gates Circuit Spec Calls HistSpec CallSpec LibGates.
Set Implicit Arguments.
Local Notation length := List.length.

Section LibSpec.
Variable S : scalar.

(** What a mixed list of calls asks for. *)
Inductive mixes (dims : list nat) : list (mixed_call S) -> list (gate S) -> Prop :=
| mix_nil : mixes dims [] []
| mix_own : forall k g ks prog, denotes dims k g -> gate_ok dims g -> mixes dims ks prog -> mixes dims (Own k :: ks) (g :: prog)
| mix_skip : forall k ks prog, skipped dims k -> mixes dims ks prog -> mixes dims (Own k :: ks) prog
| mix_h : forall r dm ks prog, dflt dims r dm -> gate_ok dims (GH (S := S) r) -> mixes dims ks prog ->
    mixes dims (Klass KlassH (Z.of_nat r) dm :: ks) (GH r :: prog)
| mix_z : forall r dm ks prog, dflt dims r dm -> gate_ok dims (GZ (S := S) r) -> mixes dims ks prog ->
    mixes dims (Klass KlassZ (Z.of_nat r) dm :: ks) (GZ r :: prog)
| mix_i : forall r dm ks prog, dflt dims r dm -> r < length dims -> mixes dims ks prog ->
    mixes dims (Klass KlassI (Z.of_nat r) dm :: ks) prog
| mix_bad : forall k q dm ks prog, ~ In k [KlassH; KlassZ; KlassI] -> mixes dims ks prog -> mixes dims (Klass k q dm :: ks) prog.

(** The identity on [r] built for dimension [d] is in one of the layers. *)
Definition holds_identity (c : circuit S) (r : nat) (d : Z) : Prop :=
  exists m, In m (f_list (c_flow c)) /\ In (OI (Z.of_nat r) d) (m_list m).
End LibSpec.
