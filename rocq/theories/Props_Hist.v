(** * Props_Hist: facts about every call history, valid or not (C07-C09, C36). *)
From Coq Require Import String.
From Verif Require Import Py Scalar Mat Utils Gates Circuit Spec HistSpec History Measured ExLib.
Local Notation length := List.length.

(** ** C07: the first layer holds the initial states; every later unmeasured
    layer occupies each register exactly once, in order. *)
Theorem C07_layers_tile_the_line :
  forall S q init out ks (c : circuit S), history q init out ks c ->
  exists first gates tail,
    map (@m_list S) (f_list (c_flow c)) = first :: gates ++ tail /\
    forallb (@is_init S) first = true /\
    map (@registers S) first = map (fun i => [Z.of_nat i]) (seq 0 (nregs q)) /\
    Forall (tiles (nregs q)) gates /\
    (if (0 <? nregs q) && existsb (@is_measure_all S) ks
     then tail = [map (fun i => OMeas (Z.of_nat i)) (seq 0 (nregs q))] else tail = []).
Proof.
  intros S q init out ks c H. destruct (layers_tile H) as [f [g [t [H1 [[H2 H3] [H4 H5]]]]]]. exists f, g, t. auto.
Qed.

(** An accepted gate either gets a new last layer of its own, with identities
    elsewhere, or replaces one identity, on the register it was issued for, in
    the last layer; all other layers and operations stay.  A gate entirely
    outside the line leaves no trace (see C15). *)
Theorem C07_accepted_gate_is_in_last_layer :
  forall S q init out ks (c : circuit S) k c', history q init out ks c -> ~ In CMeasureAll ks -> 0 < nregs q ->
  k <> CMeasureAll -> api c k = Ok (c', true) ->
  let layers (c : circuit S) := map (@m_list S) (f_list (c_flow c)) in
  exists g, made_by k g /\
    ((exists new, layers c' = layers c ++ [new] /\ (forall o, In o new -> o = g \/ is_igate o = true) /\
        (In g new \/ occupies (nregs q) g = [])) \/
     (exists before l1 d l2 r, layers c = before ++ [l1 ++ OI r d :: l2] /\
        layers c' = before ++ [l1 ++ g :: l2] /\ registers g = [r])).
Proof.
  intros S q init out ks c k c' H Hm Hn Hk Ha. destruct (gate_in_last H Hm Ha Hk Hn) as [g [H1 H2]].
  exists g. split; [exact (issues_made_by H1) | exact H2].
Qed.

(** ** C08 *)
Theorem C08_measure_all_is_final :
  forall S q init out ks (c : circuit S), history q init out ks c -> 0 < nregs q -> In CMeasureAll ks ->
  (forall k c' b, api c k = Ok (c', b) -> c' = c /\ (is_measure_all k = true -> b = true) /\
     (is_measure_all k = false -> is_toffoli k = false -> b = false)) /\
  (forall ks', after c ks' = c).
Proof. intros S q init out ks c H Hn Hm. exact (measure_all_final H Hn Hm). Qed.

(** ** C09, first half *)
Theorem C09_run_before_measure_all_raises :
  forall S (B : backend S) q init out ks (c : circuit S), history q init out ks c -> 0 < nregs q ->
  ~ In CMeasureAll ks -> run B c = Err AssertionError.
Proof. intros S B q init out ks c H Hn Hm. exact (run_unmeasured B H Hn Hm). Qed.

(** ** C09, second half: after measure_all(), and without gate() and toffoli()
    calls, run() raises nothing but the errors of mismatched gates. *)
Theorem C09_run_after_measure_all_never_asserts :
  forall S (B : backend S) q init out ks (c : circuit S) e,
  B = NumpyBackend S \/ B = SparseBackend S -> history q init out ks c -> 0 < nregs q ->
  In CMeasureAll ks -> (forall k, In k ks -> is_matrix_gate k = false) -> run B c = Err e ->
  e = ValueError \/ e = IndexError \/ e = AttributeError.
Proof. intros S B q init out ks c e HB H Hn Hm Hg Hr. exact (run_measured HB H Hn Hm Hg Hr). Qed.

(** ** C36 *)
Theorem C36_layers_are_linked :
  forall S q init out ks (c : circuit S), history q init out ks c -> linked (f_list (c_flow c)).
Proof. intros S q init out ks c H. destruct (history_inv H) as [l0 [ls I]]. exact (i_link I). Qed.

(** ** A history with rejected, ignored, merged and late calls *)
Section Examples.
Open Scope Z_scope.
Let S := Zscalar.
Let calls : list (call S) :=
  [CX 0 None 1; CX 2 None 2; CX 9 None 1; CX (-1) None 1; CH 0 (Some 7); CCX [2; 0] 1; CMeasure 0;
   CTof [0] 5 1].

Let c : circuit S := after (forced (mk_circuit S (QList [2; 3; 4]) (Some [1]) None)) calls.
Let m : circuit S := after (forced (mk_circuit S (QList [2; 3; 4]) (Some [1]) None))
                           (calls ++ [CMeasureAll; CX 0 None 1; CMeasureAll]).

(** The two x gates share a layer, the negative register left an idle layer,
    the cx has one; the rejected calls left nothing. *)
Example ex_C07 : history (QList [2; 3; 4]) (Some [1]) None calls c /\ ~ In CMeasureAll calls /\
  map (@m_list S) (tl (f_list (c_flow c))) =
    [[OX 0 2 1; OI 1 3; OX 2 4 2];
     [OI 0 2; OI 1 3; OI 2 4];
     [OCX [2; 3; 4] [2; 0] 1]] /\
  flag (api c (CZ 1 None)) = Ok true.
Proof.
  split; [|split; [|split]].
  - eexists. split; [apply forced_ok; vm_compute; reflexivity | reflexivity].
  - intros H. simpl in H. repeat (destruct H as [H|H]; [discriminate|]). contradiction.
  - vm_compute. reflexivity.
  - vm_compute. reflexivity.
Qed.

(** C08: measured, then called again. *)
Example ex_C08 : history (QList [2; 3; 4]) (Some [1]) None (calls ++ [CMeasureAll; CX 0 None 1; CMeasureAll]) m /\
  flag (api m (CX 1 None 1)) = Ok false /\ flag (api m (CTof [0; 1] 2 1)) = Ok true /\
  flag (api m CMeasureAll) = Ok true /\ flag (api m (CX 9 None 1)) = Err ValueError /\
  length (f_list (c_flow m)) = (length (f_list (c_flow c)) + 1)%nat.
Proof.
  split; [eexists; split; [apply forced_ok; vm_compute; reflexivity | reflexivity]|].
  repeat split; vm_compute; reflexivity.
Qed.

(** C09: a run that succeeds after measure_all, and three that raise. *)
Let short (ks : list (call S)) : circuit S := after (forced (mk_circuit S (QList [2; 3]) None None)) (ks ++ [CMeasureAll]).
Example ex_C09 : (forall ks, history (QList [2; 3]) None None (ks ++ [CMeasureAll]) (short ks)) /\
  is_ok (run (NumpyBackend S) (short [CX 1 None 2; CCX [0; 1] 1])) = true /\
  run (NumpyBackend S) (short [CX 1 None 3]) = Err IndexError /\
  run (NumpyBackend S) (short [CX 1 (Some 2) 1]) = Err ValueError /\
  run (SparseBackend S) (short [CCX [0; 2] 1]) = Err IndexError.
Proof.
  split; [|repeat split; vm_compute; reflexivity].
  intros ks. eexists. split; [apply forced_ok; vm_compute; reflexivity | reflexivity].
Qed.
End Examples.

Print Assumptions C07_layers_tile_the_line.
Print Assumptions C07_accepted_gate_is_in_last_layer.
Print Assumptions C08_measure_all_is_final.
Print Assumptions C09_run_before_measure_all_raises.
Print Assumptions C09_run_after_measure_all_never_asserts.
Print Assumptions C36_layers_are_linked.
