(** * Props_Lib: gate() given one of the gate classes of the library (C111). *)
From Coq Require Import List Arith ZArith Lia Bool String.
From Verif Require Import Py Scalar Mat Utils Gates Circuit Spec Calls HistSpec CallSpec InfoSpec ShapeSpec LibGates LibSpec Blocks Ignored BadGates Props_Run LibThm ExLib.
Import ListNotations.
Local Notation length := List.length.

(** ** C111: gate(HGate, ...) is h, gate(ZGate, ...) is z, for all arguments,
    exceptions included. *)
Theorem C111_h_and_z_classes_are_the_methods : forall S (c : circuit S) q dm,
  lib_gate c KlassH q dm = api c (CH q dm) /\ lib_gate c KlassZ q dm = api c (CZ q dm).
Proof. intros S c q dm. split; reflexivity. Qed.

(** XGate, CXGate, Toffoli, Measurement and InitState are never accepted:
    TypeError on a register of the line, ValueError past it, IndexError before
    the first one. *)
Theorem C111_other_classes_raise : forall S dims init out ks (c : circuit S) k,
  history (QList (map Z.of_nat dims)) init out ks c -> In k [KlassX; KlassCX; KlassToffoli; KlassMeasurement; KlassInit] ->
  (forall q dm, exists e, lib_gate c k q dm = Err e) /\
  (forall r dm, r < length dims -> dflt dims r dm -> lib_gate c k (Z.of_nat r) dm = Err TypeError) /\
  (forall q dm, (Z.of_nat (length dims) <= q)%Z -> lib_gate c k q dm = Err ValueError) /\
  (forall q dm, (q < - Z.of_nat (length dims))%Z -> lib_gate c k q dm = Err IndexError).
Proof.
  intros S dims init out ks c k H Hk. pose proof (hl_shaped dims H) as Hs.
  assert (Hn : ~ In k [KlassH; KlassZ; KlassI]).
  { intros Hn. destruct Hk as [<-|[<-|[<-|[<-|[<-|[]]]]]]; destruct Hn as [E|[E|[E|[]]]]; discriminate. }
  split; [|split; [|split]].
  - intros q dm. rewrite (lib_bad _ _ _ Hn). destruct (validate1 c q dm); cbn [bind]; [destruct (dims_or c dm q); cbn [bind]|]; eauto.
  - intros r dm Hr Hd. rewrite (lib_bad _ _ _ Hn), (validate1_ok Hs Hr Hd), (dims_or_ok Hs Hr Hd). reflexivity.
  - intros q dm Hq. rewrite (lib_bad _ _ _ Hn). unfold validate1. rewrite (sh_len Hs).
    destruct (Z.ltb_spec (Z.of_nat (length dims) - 1) q); [reflexivity | lia].
  - intros q dm Hq. rewrite (lib_bad _ _ _ Hn).
    assert (Eg : py_get (c_dims c) q = Err IndexError).
    { rewrite (sh_dims Hs). unfold py_get, py_index. rewrite map_length.
      destruct (Z.leb_spec 0 q); [lia|]. destruct (Z.leb_spec (- Z.of_nat (length dims)) q); [lia | reflexivity]. }
    unfold validate1, dims_or. rewrite (sh_len Hs), Eg.
    destruct (Z.ltb_spec (Z.of_nat (length dims) - 1) q); [lia|].
    destruct dm as [d|]; [destruct (Z.eqb_spec d 0)|]; reflexivity.
Qed.

(** gate(IGate, r) adds a layer without a gate, wherever there is room. *)
Theorem C111_identity_adds_an_idle_layer : forall S dims init out ks (c : circuit S) r dm,
  history (QList (map Z.of_nat dims)) init out ks c -> ~ In CMeasureAll ks -> r < length dims ->
  dflt dims r dm -> exists c', lib_gate c KlassI (Z.of_nat r) dm = Ok (c', true) /\
  layers_of c' = layers_of c ++ [map (fun i => OI (Z.of_nat i) (Z.of_nat (nth i dims O))) (seq 0 (length dims))].
Proof.
  intros S dims init out ks c r dm H Hm Hr Hd. destruct (idle_layers H Hm Hr Hd) as [fl [E El]].
  eexists. split; [exact E | exact El].
Qed.

(** Calls of the methods mixed with gate() on classes of the library give the
    result of the program in which the identities are left out. *)
Theorem C111_identities_do_not_matter :
  forall S (L : scalar_laws S) (B : backend S) dims levels out ty me ms prog c0, supported B ->
  line dims levels -> wants dims out ty me -> mixes dims ms prog ->
  mk_circuit S (QList (map Z.of_nat dims)) (Some (map Z.of_nat levels)) out = Ok c0 ->
  run B (after_mixed c0 (ms ++ [Own CMeasureAll]))
  = Ok (report ty me (answer dims (final dims prog (basis S (start dims levels))))).
Proof.
  intros S L B dims levels out ty me ms prog c0 HB [Hne [Hd [Hlen Hv]]] Hw Hm E0. rewrite (supported_run S L B) by exact HB.
  assert (Hc : history (QList (map Z.of_nat dims)) (Some (map Z.of_nat levels)) out [] c0) by (exists c0; split; [exact E0 | reflexivity]).
  destruct (mixes_reads Hm Hc) as [ks' [Hr E]].
  unfold after_mixed. rewrite fold_left_app. fold (after_mixed c0 ms). rewrite E.
  apply (@history_run S L dims levels out ty me ks' prog _ Hne Hd Hlen Hv Hw Hr). exists c0. split; [exact E0 | reflexivity].
Qed.

(** An identity for a smaller dimension is accepted too.  As long as it is in
    the circuit, run() raises ... *)
Theorem C111_a_small_identity_makes_run_raise :
  forall S (L : scalar_laws S) (B : backend S) dims init out ks (c : circuit S) r d ks', supported B ->
  history (QList (map Z.of_nat dims)) init out ks c -> Forall (tame dims) ks -> Forall (tame dims) ks' ->
  r < length dims -> (0 < d < Z.of_nat (nth r dims O))%Z ->
  let c' := after_mixed c (Klass KlassI (Z.of_nat r) (Some d) :: map Own ks') in
  holds_identity c' r d -> exists e, run B c' = Err e.
Proof.
  intros S L B dims init out ks c r d ks' HB H T T' Hr Hd. cbv zeta. rewrite after_cons, after_own, (supported_run S L B) by exact HB.
  apply (wrong_raises Hr Hd H L T T').
Qed.

(** ... which it does right after the call ... *)
Theorem C111_a_small_identity_is_accepted : forall S dims init out ks (c : circuit S) r d,
  history (QList (map Z.of_nat dims)) init out ks c -> ~ In CMeasureAll ks ->
  r < length dims -> (0 < d < Z.of_nat (nth r dims O))%Z ->
  exists c', lib_gate c KlassI (Z.of_nat r) (Some d) = Ok (c', true) /\ holds_identity c' r d.
Proof.
  intros S dims init out ks c r d H Hm Hr Hd. destruct (wrong_layers dims Hr Hd H Hm) as [fl [E El]].
  eexists. split; [exact E|]. apply (wrong_holds dims d Hr _ _ _ El).
Qed.

(** ... but h, x or z on the register takes its place, and from then on the
    circuit is the one with the identity of the right size. *)
Theorem C111_the_next_gate_replaces_it :
  forall S (B : backend S) dims init out ks (c : circuit S) r d k c2 ks',
  history (QList (map Z.of_nat dims)) init out ks c -> ~ In CMeasureAll ks ->
  r < length dims -> (0 < d < Z.of_nat (nth r dims O))%Z -> may_share k (Z.of_nat r) ->
  api (mixed_step c (Klass KlassI (Z.of_nat r) (Some d))) k = Ok (c2, true) ->
  ~ holds_identity (after c2 ks') r d /\
  run B (after c2 ks') = run B (after_mixed c (Klass KlassI (Z.of_nat r) None :: map Own (k :: ks'))).
Proof.
  intros S B dims init out ks c r d k c2 ks' H Hm Hr Hd Hk E.
  pose proof (wrong_replaced dims Hr Hd H Hm k Hk E ks') as N. split; [exact N|].
  assert (Ea : after c2 ks' = after (mixed_step c (Klass KlassI (Z.of_nat r) (Some d))) (k :: ks')).
  { unfold after. cbn [fold_left]. f_equal. unfold step. rewrite E. reflexivity. }
  rewrite Ea in N |- *. rewrite (wrong_filled dims Hr Hd H B (k :: ks') N), after_cons, after_own.
  unfold mixed_step. cbn [mixed_api]. rewrite (lib_idle (hl_shaped dims H) Hr); [reflexivity | left; reflexivity].
Qed.

(** ** Concrete cases *)
Section Examples.
Open Scope Z_scope.
Let S := Zscalar.
Let dims : list nat := [3; 2]%nat.
Let on (ms : list (mixed_call S)) : circuit S := after_mixed (forced (mk_circuit S (QList (map Z.of_nat dims)) None None)) ms.
Let got (r : res (circuit S * bool)) : res (nat * bool) :=
  match r with Ok (c, b) => Ok (length (layers_of c), b) | Err e => Err e end.
Let ran (ms : list (mixed_call S)) := run (NumpyBackend S) (on (ms ++ [Own CMeasureAll])).

Example ex_C111_calls :
  got (lib_gate (on []) KlassZ 1 None) = Ok (2%nat, true) /\
  got (lib_gate (on []) KlassI 0 None) = Ok (2%nat, true) /\
  got (lib_gate (on []) KlassI (-1) None) = Ok (2%nat, true) /\
  got (lib_gate (on []) KlassX 0 None) = Err TypeError /\
  got (lib_gate (on []) KlassMeasurement 2 None) = Err ValueError /\
  got (lib_gate (on []) KlassI 0 (Some 4)) = Err ValueError /\
  got (lib_gate (on []) KlassI 0 (Some 2)) = Ok (2%nat, true) /\
  got (lib_gate (on [Own CMeasureAll]) KlassI 0 None) = Ok (2%nat, false).
Proof. vm_compute. repeat split. Qed.

(** The same program with and without identities; with one that is too small;
    and with one that is too small and replaced. *)
Example ex_C111_runs :
  ran [Own (CX 0 None 1); Own (CX 0 None 1); Own (CX 1 None 1)] = Ok [(LStr "|21>"%string, 1)] /\
  ran [Own (CX 0 None 1); Klass KlassI 1 None; Own (CX 0 None 1); Klass KlassX 0 None; Klass KlassI 0 None; Own (CX 1 None 1)]
    = Ok [(LStr "|21>"%string, 1)] /\
  ran [Own (CX 0 None 1); Klass KlassI 0 (Some 2); Own (CX 1 None 1)] = Err ValueError /\
  ran [Own (CX 0 None 1); Klass KlassI 0 (Some 2); Own (CX 1 None 1); Own (CX 0 None 1)] = Ok [(LStr "|21>"%string, 1)] /\
  length (layers_of (on [Own (CX 0 None 1); Klass KlassI 0 (Some 2); Own (CX 1 None 1); Own (CX 0 None 1)])) = 3%nat.
Proof. vm_compute. repeat split. Qed.

Example ex_C111_hypotheses :
  (exists c, history (QList (map Z.of_nat dims)) None None [CX 0 None 1] c /\ c = on [Own (CX 0 None 1)]) /\
  holds_identity (on [Klass KlassI 0 (Some 2); Own (CX 1 None 1)]) 0 2 /\
  mixes dims [Own (CX 0 None 1); Klass KlassI 1 None; Klass KlassX 7 None; Klass KlassZ 1 None] [@GX S 0 1; GZ 1] /\
  line dims [1%nat; 1%nat] /\ may_share (CX 0 None 1 : call S) (Z.of_nat 0).
Proof.
  split; [|split; [|split; [|split]]].
  - eexists. split; [eexists; split; [apply forced_ok; vm_compute; reflexivity | reflexivity] | reflexivity].
  - eexists. split; [right; left; reflexivity | left; reflexivity].
  - constructor 2; [apply den_x with (r := 0%nat); left; reflexivity | cbn; lia|].
    constructor 6 with (r := 1%nat); [left; reflexivity | cbn; lia|].
    constructor 7; [intros [X|[X|[X|[]]]]; discriminate|].
    constructor 5 with (r := 1%nat); [left; reflexivity | cbn; lia | constructor].
  - split; [discriminate|]. split; [intros x [<-|[<-|[]]]; lia|]. split; [cbn; lia|]. repeat constructor.
  - reflexivity.
Qed.
End Examples.

Print Assumptions C111_h_and_z_classes_are_the_methods.
Print Assumptions C111_other_classes_raise.
Print Assumptions C111_identity_adds_an_idle_layer.
Print Assumptions C111_identities_do_not_matter.
Print Assumptions C111_a_small_identity_makes_run_raise.
Print Assumptions C111_a_small_identity_is_accepted.
Print Assumptions C111_the_next_gate_replaces_it.
