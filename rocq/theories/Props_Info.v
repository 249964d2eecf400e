(** * Props_Info: depth, gate counts and weak_compare (C21, C22, C47, C48). *)
From Coq Require Import String.
From Verif Require Import Py Scalar Mat Utils Gates Circuit Spec Calls HistSpec CallSpec Info InfoSpec InfoLib InfoCount ExLib.
Local Notation length := List.length.

(** ** C21 *)
Theorem C21_depth_is_the_number_of_gate_layers :
  forall S l init out ks (c : circuit S), history (QList l) init out ks c -> l <> [] ->
  get_circuit_config c = Ok (WInt (Z.of_nat (length l)), Z.of_nat (gate_layers c)) /\
  i_depth (get_circuit_info c) = Z.of_nat (gate_layers c).
Proof.
  intros S l init out ks c H Hl. split; [|exact (info_depth_reported H Hl)].
  rewrite (depth_reported H) by (destruct l; [congruence | simpl; lia]).
  unfold config_width. rewrite (history_qregs H). reflexivity.
Qed.

Theorem C21_a_call_raises_the_depth_by_at_most_one :
  forall S q init out ks (c : circuit S) k, history q init out ks c -> 0 < nregs q ->
  exists w d, get_circuit_config c = Ok (w, d) /\
    (get_circuit_config (step c k) = Ok (w, d) \/
     is_measure_all k = false /\ get_circuit_config (step c k) = Ok (w, (d + 1)%Z)).
Proof. intros S q init out ks c k H Hn. exact (step_depth k H Hn). Qed.

(** Among the calls that return, exactly those h, x and z calls whose register
    is idle in the last layer leave the depth unchanged. *)
Theorem C21_depth_is_kept_exactly_when_a_layer_is_shared :
  forall S q init out ks (c c' : circuit S) k b, history q init out ks c -> 0 < nregs q ->
  ~ In CMeasureAll ks -> k <> CMeasureAll -> api c k = Ok (c', b) ->
  (get_circuit_config c' = get_circuit_config c <-> exists r, may_share k r /\ idle_at_end c r).
Proof. intros S q init out ks c c' k b H Hn Hm Hk Ha. exact (step_shared H Hn Hm Hk Ha). Qed.

(** ** C22 *)
Theorem C22_counts_are_the_accepted_calls :
  forall S q init out ks (c0 : circuit S), mk_circuit S q init out = Ok c0 ->
  let f x := tally (nregs q) x c0 ks in
  holds_counts (i_details (get_circuit_info (after c0 ks))) f /\
  i_gate_count (get_circuit_info (after c0 ks)) = (f KH + f KX + f KZ + f KCX + f KToffoli + f KArbitrary)%Z.
Proof. intros S q init out ks c0 H. exact (counts_reported _ _ _ ks H). Qed.

(** For valid calls mixed with raising and dropped calls, and possibly
    followed by measure_all() and anything after it, the counts are those of
    the program asked for. *)
Theorem C22_counts_are_the_gates_of_the_program :
  forall S, scalar_laws S -> forall dims levels out ks prog tail (c : circuit S),
  dims <> [] -> (forall d, In d dims -> 2 <= d) ->
  length levels <= length dims -> valid dims (start dims levels) -> reads dims ks prog ->
  tail = [] \/ (exists rest, tail = CMeasureAll :: rest) ->
  history (QList (map Z.of_nat dims)) (Some (map Z.of_nat levels)) out (ks ++ tail) c ->
  holds_counts (i_details (get_circuit_info c)) (fun x => how_many x prog) /\
  i_gate_count (get_circuit_info c) = Z.of_nat (length prog).
Proof.
  intros S L dims levels out ks prog tail c Hne Hd Hl Hv HR Ht H. exact (@reads_reported S L dims levels out ks prog tail c Hne Hd Hl Hv HR Ht H).
Qed.

(** The entries come in a fixed order, for every circuit. *)
Theorem C22_counts_are_in_a_fixed_order :
  forall S (c : circuit S), exists present : kind -> bool,
  map fst (i_details (get_circuit_info c)) = filter present [KH; KX; KZ; KCX; KToffoli; KArbitrary].
Proof.
  intros S c. rewrite info_value. cbn [i_details]. set (f := fun x => lcount x _). exists (fun k => negb (f k =? 0)%Z).
  unfold det, kinds. cbn [map filter].
  destruct (f KH =? 0)%Z, (f KX =? 0)%Z, (f KZ =? 0)%Z, (f KCX =? 0)%Z, (f KToffoli =? 0)%Z, (f KArbitrary =? 0)%Z; reflexivity.
Qed.

(** ** C47 *)
Theorem C47_circuits_of_equal_length_compare_equal :
  forall S (B : backend S) (c1 c2 : circuit S),
  length (f_list (c_flow c1)) = length (f_list (c_flow c2)) -> weak_compare B c1 c2 = Ok None.
Proof. intros S B c1 c2 H. unfold weak_compare. rewrite H, Nat.eqb_refl. reflexivity. Qed.

(** Measured circuits with different numbers of layers never compare equal:
    a difference is reported, or the measurement layer raises. *)
Theorem C47_measured_circuits_of_different_length_never_compare_equal :
  forall S (B : backend S) q1 i1 o1 ks1 (c1 : circuit S) q2 i2 o2 ks2 (c2 : circuit S),
  history q1 i1 o1 ks1 c1 -> 0 < nregs q1 -> In CMeasureAll ks1 ->
  history q2 i2 o2 ks2 c2 -> 0 < nregs q2 -> In CMeasureAll ks2 ->
  length (f_list (c_flow c1)) <> length (f_list (c_flow c2)) -> weak_compare B c1 c2 <> Ok None.
Proof.
  intros S B q1 i1 o1 ks1 c1 q2 i2 o2 ks2 c2 H1 N1 M1 H2 N2 M2 Hl. exact (weak_compare_measured B H1 N1 M1 H2 N2 M2 Hl).
Qed.

(** A reported layer is the first one that was created with different
    operations; gates that joined a layer later are not looked at. *)
Theorem C47_reported_layer_is_the_first_difference :
  forall S (B : backend S) (c1 c2 : circuit S) i m1 m2,
  weak_compare B c1 c2 = Ok (Some (i, (m1, m2))) ->
  nth_error (f_list (c_flow c1)) i = Some m1 /\ nth_error (f_list (c_flow c2)) i = Some m2 /\ ~ same_look B m1 m2 /\
  forall j m1' m2', j < i -> nth_error (f_list (c_flow c1)) j = Some m1' -> nth_error (f_list (c_flow c2)) j = Some m2' ->
    same_look B m1' m2'.
Proof. intros S B c1 c2 i m1 m2 H. apply weak_compare_first; exact H. Qed.

(** ** C48: the tuple form *)
Theorem C48_tuple_circuits_report_the_tuple :
  forall S l init out ks (c : circuit S), history (QTuple l) init out ks c -> 0 < nregs (QTuple l) ->
  get_circuit_config c = Ok (WTuple l, Z.of_nat (gate_layers c)) /\
  i_qudit (get_circuit_info c) = Z.of_nat (length l) /\
  i_depth (get_circuit_info c)
  = (Z.of_nat (gate_layers c) +
     if existsb (@is_measure_all S) ks && (nregs (QTuple l) <? length l)%nat then 1 else 0)%Z.
Proof.
  intros S l init out ks c H Hn. assert (Eq := history_qregs H).
  split; [|split].
  - rewrite (depth_reported H Hn). unfold config_width. rewrite Eq. reflexivity.
  - rewrite info_value. cbn [i_qudit]. rewrite Eq. reflexivity.
  - destruct (history_minv H) as [l0 [ls I]]. rewrite (minv_info_depth I), (minv_gate_layers I Hn), Eq.
    cbn [qregs_list]. rewrite (proj2 (Nat.ltb_lt _ _) Hn). cbn [andb].
    destruct (existsb _ ks); cbn [andb]; [|lia].
    destruct l as [|n l]; [simpl in Hn; lia|].
    destruct (Z.ltb_spec 0 (Z.of_nat (length (n :: l)))), (Z.leb_spec (Z.of_nat (length (n :: l))) (Z.of_nat (nregs (QTuple (n :: l))))),
      (Nat.ltb_spec (nregs (QTuple (n :: l))) (length (n :: l))); cbn [andb]; cbn [length] in *; lia.
Qed.

(** ** Concrete cases *)
Section Examples.
Open Scope Z_scope.
Let S := Zscalar.
Let calls : list (call S) :=
  [CX 0 None 1; CX 2 None 2; CX 9 None 1; CX (-1) None 1; CH 0 (Some 7); CCX [2; 0] 1; CMeasure 0;
   CZ 1 None; CTof [0] 5 1].
Let c : circuit S := after (forced (mk_circuit S (QList [2; 3; 4]) (Some [1]) None)) calls.
Let m : circuit S := after (forced (mk_circuit S (QList [2; 3; 4]) (Some [1]) None))
                           (calls ++ [CMeasureAll; CX 0 None 1; CMeasureAll]).

Example info_c : history (QList [2; 3; 4]) (Some [1]) None calls c /\
  get_circuit_config c = Ok (WInt 3, 4) /\ get_circuit_config m = Ok (WInt 3, 4) /\
  get_circuit_info m = {| i_depth := 4; i_gate_count := 4; i_details := [(KX, 2); (KZ, 1); (KCX, 1)]; i_qudit := 3 |} /\
  map (fun x => tally 3 x (forced (mk_circuit S (QList [2; 3; 4]) (Some [1]) None)) calls) kinds = [0; 2; 1; 1; 0; 0].
Proof. split; [exists (forced (mk_circuit S (QList [2; 3; 4]) (Some [1]) None)); split; [apply forced_ok|]|]; vm_compute; auto. Qed.

(** All six kinds, called in another order. *)
Example info_order :
  map fst (i_details (get_circuit_info (after (forced (mk_circuit S (QList [2; 3; 2]) None None))
    [CGate (deye S 2 2) (RInt 0) None; CTof [0; 1] 2 1; CCX [0; 1] 1; CZ 0 None; CX 0 None 1; CH 0 None])))
  = [KH; KX; KZ; KCX; KToffoli; KArbitrary].
Proof. vm_compute. reflexivity. Qed.

(** After x on register 0, a z on the idle register 1 shares the layer; a z
    on register 0 and a cx do not. *)
Example sharing : let c1 := after (forced (mk_circuit S (QList [2; 3; 4]) None None)) [CX 0 None 1] in
  idle_at_end c1 1 /\ get_circuit_config (step c1 (CZ 1 None)) = get_circuit_config c1 /\
  get_circuit_config (step c1 (CZ 0 None)) <> get_circuit_config c1 /\
  get_circuit_config (step c1 (CCX [1; 2] 1)) <> get_circuit_config c1.
Proof.
  intros c1. split; [|vm_compute; repeat split; discriminate].
  exists (removelast (layers_of c1)), (List.last (layers_of c1) []), 3.
  split; [vm_compute; reflexivity | vm_compute; auto].
Qed.

Example reads_calls : reads (S := S) [2; 3; 4]%nat
  [CX 0 None 1; CX 2 None 2; CX 9 None 1; CX (-1) None 1; CH 0 (Some 7); CCX [2; 0] 1]
  [GX 0 1; GX 2 2; GCX 2 0 1].
Proof.
  apply (reads_gate (k := CX (Z.of_nat 0) None 1)); [constructor; left; reflexivity | cbn; lia |].
  apply (reads_gate (k := CX (Z.of_nat 2) None 2)); [constructor; left; reflexivity | cbn; lia |].
  apply reads_skip; [eapply sk_one; [split; reflexivity | right; cbn; lia]|].
  apply reads_skip; [eapply sk_one; [split; reflexivity | left; cbn; lia]|].
  apply reads_skip; [apply (@sk_dim S [2;3;4]%nat (CH (Z.of_nat 0) (Some 7)) 0 7); [split; reflexivity | cbn; lia | cbn; lia]|].
  apply (reads_gate (k := CCX [Z.of_nat 2; Z.of_nat 0] 1)); [constructor | cbn; lia |]. constructor.
Qed.

(** x(0) against z(1): equally many layers, no difference seen.  An empty
    circuit agrees with every circuit on the same initial states.  Measured
    circuits of different length: an error, or the first difference. *)
Example weak_compare_blind : let new := forced (mk_circuit S (QList [2; 3]) None None) in
  let a := after new [CX 0 None 1; CMeasureAll] in
  let b := after new [CZ 1 None; CMeasureAll] in
  layers_of a <> layers_of b /\ weak_compare (SparseBackend S) a b = Ok None /\
  weak_compare (SparseBackend S) a new = Ok None /\
  weak_compare (SparseBackend S) a (after new [CX 0 None 1; CX 0 None 1; CMeasureAll]) = Err AttributeError /\
  (exists x, weak_compare (SparseBackend S) a (after new [CZ 1 None; CX 1 None 1; CMeasureAll]) = Ok (Some (1%nat, x))).
Proof. split; [|split; [|split; [|split; [|eexists]]]]; vm_compute; try reflexivity. discriminate. Qed.

(** One register given as a tuple: the measurement layer is counted. *)
Example tuple_info : let c := after (forced (mk_circuit S (QTuple [1; 3]) None None)) [CX 0 None 1; CMeasureAll] in
  get_circuit_config c = Ok (WTuple [1; 3], 1) /\ i_qudit (get_circuit_info c) = 2 /\ i_depth (get_circuit_info c) = 2.
Proof. vm_compute. auto. Qed.
End Examples.

Print Assumptions C21_depth_is_the_number_of_gate_layers.
Print Assumptions C21_a_call_raises_the_depth_by_at_most_one.
Print Assumptions C21_depth_is_kept_exactly_when_a_layer_is_shared.
Print Assumptions C22_counts_are_the_accepted_calls.
Print Assumptions C22_counts_are_the_gates_of_the_program.
Print Assumptions C22_counts_are_in_a_fixed_order.
Print Assumptions C47_circuits_of_equal_length_compare_equal.
Print Assumptions C47_measured_circuits_of_different_length_never_compare_equal.
Print Assumptions C47_reported_layer_is_the_first_difference.
Print Assumptions C48_tuple_circuits_report_the_tuple.
