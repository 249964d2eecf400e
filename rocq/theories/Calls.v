(** * Calls: how the gates of the specification are asked for through the API,
    and how a result is presented.  Definitions only; part of the specification. *)
From Coq Require Import String.
From Verif Require Import Py Scalar Mat Utils Gates Circuit Spec.
Set Implicit Arguments.
Local Notation length := List.length.

(** The text or tuple a configuration is reported as. *)
Definition shown (ty : output_type) (s : config) : label :=
  match ty with
  | OutPrint => LStr ("|" ++ String.concat "" (map (fun x => str_of_Z (Z.of_nat x)) s) ++ ">")%string
  | OutState => LTup (map Z.of_nat s)
  end.

Section Calls.
Variable S : scalar.
Notation call := (call S).

(** The number reported for an amplitude. *)
Definition reported (me : output_method) (a : S) : S :=
  match me with OutProbability => smul a a | OutAmplitude => a end.

Definition report (ty : output_type) (me : output_method) (l : list (config * S)) : list (label * S) :=
  map (fun '(s, a) => (shown ty s, reported me a)) l.

(** The default output, or one for the same registers. *)
Definition wants (dims : list nat) (out : option output) (ty : output_type) (me : output_method) : Prop :=
  out = Some {| o_base := map Z.of_nat dims; o_type := ty; o_method := me |} \/
  out = None /\ ty = OutPrint /\ me = OutAmplitude.

(** The optional [dims] argument: left out, 0, or the true dimension. *)
Definition dflt (dims : list nat) (r : nat) (dm : option Z) : Prop :=
  dm = None \/ dm = Some 0%Z \/ dm = Some (Z.of_nat (nth r dims 0)).

(** The entries of [M], indexed by configurations in lexicographic order. *)
Definition holds_entries (ds : list nat) (M : mat S) (u : config -> config -> S) : Prop :=
  mr M = length (all_configs ds) /\ mc M = length (all_configs ds) /\
  forall i j, i < mr M -> j < mc M -> mget M i j = u (nth i (all_configs ds) []) (nth j (all_configs ds) []).

(** [denotes dims k g]: the API call [k] is the user's way to ask for [g] on a
    circuit with registers [dims].  A multi-register arbitrary gate is asked
    for with a list of registers whose smallest is [r] and largest [r+k-1]. *)
Inductive denotes (dims : list nat) : call -> gate S -> Prop :=
| den_x : forall r dm p, dflt dims r dm -> denotes dims (CX (Z.of_nat r) dm p) (GX r p)
| den_h : forall r dm, dflt dims r dm -> denotes dims (CH (Z.of_nat r) dm) (GH r)
| den_z : forall r dm, dflt dims r dm -> denotes dims (CZ (Z.of_nat r) dm) (GZ r)
| den_cx : forall c t p, denotes dims (CCX [Z.of_nat c; Z.of_nat t] p) (GCX c t p)
| den_tof : forall cs t p, denotes dims (CTof (map Z.of_nat cs) (Z.of_nat t) p) (GTof cs t p)
| den_u : forall r dm M u, dflt dims r dm ->
    mr M = nth r dims 0 -> mc M = nth r dims 0 ->
    (forall i j, i < nth r dims 0 -> j < nth r dims 0 -> mget M i j = u i j) ->
    denotes dims (CGate M (RInt (Z.of_nat r)) dm) (GU r u)
| den_span : forall l r k dm M u, dm = None \/ dm = Some 0%Z ->
    In r l -> In (r + k - 1) l -> (forall x, In x l -> r <= x < r + k) ->
    length l = 1 \/ 3 <= length l ->
    holds_entries (span dims r k) M u ->
    denotes dims (CGate M (RList (map Z.of_nat l)) dm) (GSpan r k u).

End Calls.

Arguments reported {S}.
Arguments report {S}.
