(** * Props_Flow: operator flows filled directly (C64) and gate()
    on lists of registers (C65).  Statements only. *)
From Verif Require Import Py Scalar Mat Utils Gates Circuit Spec HistSpec FlowMany FlowManyLib ExLib OneList.

(** ** C64 *)

(** Layers without h, x, z and measurements are all appended. *)
Theorem C64_wide_layers_are_all_added :
  forall S (f : opflow S) ms, f_list f <> [] -> In false (f_meas f) ->
  (forall m o, In m ms -> In o (m_list m) -> is_hxz o = false /\ is_meas o = false) ->
  exists f', populate_all f ms = Ok (f', true) /\ f_meas f' = f_meas f /\
    map (@m_list S) (f_list f') = map (@m_list S) (f_list f) ++ map (@m_list S) ms.
Proof. intros S f ms. exact (@all_added S ms f). Qed.

(** As soon as the first h, x or z gate of a layer fits into the last layer, the
    other gates of its layer and all layers after it are lost, and True is
    returned. *)
Theorem C64_everything_after_a_merged_gate_is_lost :
  forall S (f : opflow S) before last l1 r d l2 m g a b ms,
  f_list f = before ++ [last] -> In false (f_meas f) ->
  m_list last = l1 ++ OI r d :: l2 ->
  (forall o, In o l1 -> is_init o = false /\ ~ In r (registers o)) ->
  m_list m = a ++ g :: b -> (forall o, In o a -> is_hxz o = false) -> is_hxz g = true -> registers g = [r] ->
  exists f', populate_all f (m :: ms) = Ok (f', true) /\ f_meas f' = f_meas f /\
    map (@m_list S) (f_list f') = map (@m_list S) before ++ [l1 ++ g :: l2].
Proof. intros. eapply merge_loses; eassumption. Qed.

(** A flow filled with layers that do not measure, or a new one, does not run. *)
Theorem C64_a_flow_without_measurements_does_not_run :
  forall S (B : backend S) ms f b, populate_all (opflow0 S) ms = Ok (f, b) ->
  (forall m o, In m ms -> In o (m_list m) -> is_meas o = false) -> (forall m rest, ms = m :: rest -> m_list m <> []) ->
  flow_exec B f = Err AssertionError.
Proof.
  intros S B ms f b H Hm Hn. unfold flow_exec.
  rewrite (not_all _ (@fill_unmeasured S ms _ f b H Hm (fun m rest E _ => Hn m rest E) (or_introl eq_refl))). reflexivity.
Qed.

(** ** C65 *)

(** gate() on a list with one register is gate() on that register: the same
    return value or exception, and the same result of every program that goes
    on from there. *)
Theorem C65_one_register_list_is_the_register :
  forall S q init out ks (c : circuit S), history q init out ks c ->
  forall u r dm, flag (api c (CGate u (RList [r]) dm)) = flag (api c (CGate u (RInt r) dm)) /\
  forall ks' B, run B (after c (CGate u (RList [r]) dm :: ks')) = run B (after c (CGate u (RInt r) dm :: ks')).
Proof. intros S q init out ks c H u r dm. split; [exact (one_flag H u r dm) | exact (one_run H u r dm)]. Qed.

(** gate() on the empty list raises ValueError, whatever the matrix and the
    dimension. *)
Theorem C65_empty_list_raises :
  forall S (c : circuit S) u dm, api c (CGate u (RList []) dm) = Err ValueError.
Proof. exact none_raises. Qed.

(** ** A layer h, x and a cx layer are added to a flow whose last layer is idle
    on register 0: only the h arrives. *)
Section Examples.
Open Scope Z_scope.
Let S := Zscalar.
Let init : list (op S) := [OInit 2 0 0 {| mr := 2; mc := 1; md := ([[1]; [0]] : list (list (car S))) |}; OInit 3 0 1 {| mr := 3; mc := 1; md := ([[1]; [0]; [0]] : list (list (car S))) |}].
Let flow : opflow S := {| f_list := [mk_moment 0 init; mk_moment 1 [OI 0 2; OX 1 3 1]]; f_meas := [false; false] |}.
Let both : moment S := mk_moment 2 [OH 0 2; OX 1 3 2].
Let wide : moment S := mk_moment 3 [OCX [2; 3] [0; 1] 1].
Example ex_C64 :
  (exists f', populate_all flow [both; wide] = Ok (f', true) /\
     map (@m_list S) (f_list f') = [init; [OH 0 2; OX 1 3 1]]) /\
  (exists f', populate_all flow [wide; both] = Ok (f', true) /\
     map (@m_list S) (f_list f') = [init; [OI 0 2; OX 1 3 1]; [OCX [2; 3] [0; 1] 1]; [OH 0 2; OX 1 3 2]]) /\
  populate_all {| f_list := f_list flow; f_meas := [true; true] |} [wide] = Ok ({| f_list := f_list flow; f_meas := [true; true] |}, false).
Proof. repeat split; try (eexists; split; reflexivity). Qed.
Example ex_C64_run : exists f, populate_all (opflow0 S) [mk_moment 0 init; wide] = Ok (f, true) /\ length (f_list f) = 2%nat /\
  flow_exec (NumpyBackend S) f = Err AssertionError /\ flow_exec (NumpyBackend S) (opflow0 S) = Err AssertionError.
Proof. eexists. repeat split. Qed.
Let qr : qregs := QList [2; 3].
Let swap : mat S := {| mr := 2; mc := 2; md := ([[0; 1]; [1; 0]] : list (list (car S))) |}.
Example ex_C65 :
  exists c : circuit S, history qr None None [CX 1 (Some 3) 1] c /\
  flag (api c (CGate swap (RList [0]) None)) = Ok true /\
  flag (api c (CGate swap (RList [-5]) None)) = Err IndexError /\
  (exists l, run (NumpyBackend S) (after c [CGate swap (RList [0]) None; CMeasureAll]) = Ok l) /\
  flag (api c (CGate swap (RList []) (Some 2))) = Err ValueError.
Proof. eexists. split; [eexists; split; reflexivity|]. repeat split; try reflexivity. eexists; reflexivity. Qed.
End Examples.

Print Assumptions C64_wide_layers_are_all_added.
Print Assumptions C64_everything_after_a_merged_gate_is_lost.
Print Assumptions C64_a_flow_without_measurements_does_not_run.
Print Assumptions C65_one_register_list_is_the_register.
Print Assumptions C65_empty_list_raises.
