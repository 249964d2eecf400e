(** * Props_Attrs: what gate objects and layers answer when asked (C85, C86). *)
From Verif Require Import Py Scalar Mat Utils Gates Circuit Spec HistSpec InfoSpec History DrawLib ExLib Props_Hist Attrs AttrsLib.
Local Notation length := List.length.

(** ** C85: only cx says of itself that it is controlled and not single *)
Theorem C85_what_a_gate_says : forall S q init out ks (c : circuit S) k c' r,
  history q init out ks c -> ~ In CMeasureAll ks -> k <> CMeasureAll -> api c k = Ok (c', true) ->
  r < nregs q -> In (Z.of_nat r) (named k) ->
  exists g m before, f_list (c_flow c') = before ++ [m] /\ In g (m_list m) /\ made_by k g /\
    is_controlled g = Ok (match k with CCX _ _ => true | _ => false end) /\
    is_single_qudit g = Ok (match k with CCX _ _ => false | _ => true end).
Proof.
  intros S q init out ks c k c' r H Hm Hk Ha Hr Hin.
  destruct (C07_accepted_gate_is_in_last_layer _ _ _ _ _ _ _ _ H Hm ltac:(lia) Hk Ha) as [g [Hg D]].
  assert (Hl : exists l before, map (@m_list S) (f_list (c_flow c')) = before ++ [l] /\ In g l).
  { destruct D as [[new [E [_ [Hi|Hi]]]]|[before [l1 [d [l2 [r' [_ [E _]]]]]]]].
    - exists new. eexists. split; [exact E | exact Hi].
    - exfalso. assert (X : In r (occupies (nregs q) g)); [|rewrite Hi in X; destruct X].
      apply filter_In. split; [apply in_seq; lia|]. rewrite <- (Nat2Z.id r). apply covers_in; [|lia].
      destruct k, g; simpl in Hg, Hin |- *; try contradiction.
      all: try (subst; exact Hin).
      all: try (destruct Hg as [-> ?]; exact Hin).
      all: try (destruct Hg as [-> [-> ?]]; exact Hin).
    - exists (l1 ++ g :: l2), before. split; [exact E | apply in_or_app; right; left; reflexivity]. }
  destruct Hl as [l [before [E Hi]]]. apply map_eq_app in E as [ms [mm [E [_ E']]]].
  destruct mm as [|m [|? ?]]; try discriminate. injection E' as E'. exists g, m, ms. rewrite E'. split; [exact E|]. split; [exact Hi|]. split; [exact Hg|].
  destruct k, g; simpl in Hg; try contradiction; split; reflexivity.
Qed.

(** Initial states have neither attribute. *)
Theorem C85_initial_states_do_not_say : forall S q init out ks (c : circuit S) m o,
  history q init out ks c -> nth_error (f_list (c_flow c)) 0 = Some m -> In o (m_list m) ->
  is_controlled o = Err AttributeError /\ is_single_qudit o = Err AttributeError.
Proof.
  intros S q init out ks c m o H Hm Ho. destruct (first_layer H Hm) as [F _]. rewrite forallb_forall in F. specialize (F o Ho).
  destruct o; try discriminate. split; reflexivity.
Qed.

(** ** C86: asking a layer for the object on a register *)

(** The object found is the one that acts on the register.  A toffoli is found
    at its target only. *)
Theorem C86_object_on_a_register : forall S q init out ks (c : circuit S) i m o r,
  history q init out ks c -> nth_error (f_list (c_flow c)) (Datatypes.S i) = Some m -> In o (m_list m) ->
  r < nregs q -> In (Z.of_nat r) (match o with OTof _ t _ _ _ _ => [t] | _ => registers o end) ->
  get_qreg_moment (m_list m) (Z.of_nat r) = Ok (Some o).
Proof.
  intros S q init out ks c i m o r H Hm Ho Hr Hin. destruct (later_layers _ H Hm) as [T N].
  assert (Hreg : In (Z.of_nat r) (registers o)) by (destruct o; auto; destruct Hin as [<-|[]]; left; reflexivity).
  apply in_split in Ho as [l1 [l2 E]]. rewrite E in *. unfold get_qreg_moment.
  assert (A : exists a, acting_members o = Ok a /\ In (Z.of_nat r) a).
  { specialize (N o (in_elt _ _ _)). destruct o; try discriminate; simpl; try (eexists; split; [reflexivity | exact Hin]).
    destruct qreg; eexists; (split; [reflexivity | exact Hin]). }
  destruct A as [a [Ea Ha]]. rewrite (lookup_at l1 o l2 (Z.of_nat r) (a := a) 0); [reflexivity | | exact Ea | exact Ha].
  intros x Hx. split; [apply N, in_or_app; left; exact Hx|]. intros X.
  assert (C : covers o r = true) by (rewrite <- (Nat2Z.id r); apply covers_in; [exact Hreg | lia]).
  assert (C' : covers x r = true) by (rewrite <- (Nat2Z.id r); apply covers_in; [exact X | lia]).
  rewrite (covers_once _ _ _ _ T Hr C (in_or_app _ _ _ (or_introl Hx))) in C'. discriminate.
Qed.

(** None, although the register is taken: the registers between those of a gate,
    and the controls of a toffoli. *)
Theorem C86_nothing_on_a_taken_register : forall S q init out ks (c : circuit S) i m o r,
  history q init out ks c -> nth_error (f_list (c_flow c)) (Datatypes.S i) = Some m -> In o (m_list m) ->
  r < nregs q -> covers o r = true -> ~ In (Z.of_nat r) (match o with OTof _ t _ _ _ _ => [t] | _ => registers o end) ->
  get_qreg_moment (m_list m) (Z.of_nat r) = Ok None.
Proof.
  intros S q init out ks c i m o r H Hm Ho Hr Hc Hin. destruct (later_layers _ H Hm) as [T N].
  unfold get_qreg_moment. rewrite lookup_none; [reflexivity|].
  intros x Hx. destruct (members_registers x (N x Hx)) as [a [Ea Ha]]. exists a. split; [exact Ea|]. intros X.
  apply in_split in Ho as [l1 [l2 E]]. rewrite E in *.
  assert (C' : covers x r = true) by (rewrite <- (Nat2Z.id r); apply covers_in; [exact (Ha _ X) | lia]).
  apply in_app_or in Hx. assert (D : x = o \/ In x (l1 ++ l2)) by (destruct Hx as [Hx|[Hx|Hx]]; auto using in_or_app).
  destruct D as [->|D]; [|rewrite (covers_once _ _ _ _ T Hr Hc D) in C'; discriminate].
  apply Hin. destruct o; simpl in Ea |- *; try discriminate; try (injection Ea as <-; exact X).
  destruct qreg; injection Ea as <-; exact X.
Qed.

(** The layer of the initial states cannot be asked, nor merged into. *)
Theorem C86_first_layer_raises : forall S q init out ks (c : circuit S) m r g,
  history q init out ks c -> 0 < nregs q -> nth_error (f_list (c_flow c)) 0 = Some m ->
  get_qreg_moment (m_list m) r = Err AttributeError /\ replace_igate (m_list m) g r = Err AttributeError.
Proof.
  intros S q init out ks c m r g H Hn Hm. destruct (first_layer H Hm) as [F L].
  unfold get_qreg_moment, replace_igate. destruct (m_list m) as [|o l]; [simpl in L; lia|].
  simpl in F. apply andb_true_iff in F as [F _]. destruct o; try discriminate. split; reflexivity.
Qed.

(** Merging: an identity on the register is replaced, any other gate that acts
    there is kept and the answer is False; TypeError where nothing is found. *)
Theorem C86_replacing : forall S q init out ks (c : circuit S) i m r g l1 o l2,
  history q init out ks c -> nth_error (f_list (c_flow c)) (Datatypes.S i) = Some m -> r < nregs q ->
  m_list m = l1 ++ o :: l2 -> covers o r = true ->
  let acts := In (Z.of_nat r) (match o with OTof _ t _ _ _ _ => [t] | _ => registers o end) in
  (acts -> is_igate o = true -> replace_igate (m_list m) g (Z.of_nat r) = Ok (l1 ++ g :: l2, true)) /\
  (acts -> is_igate o = false -> replace_igate (m_list m) g (Z.of_nat r) = Ok (m_list m, false)) /\
  (~ acts -> replace_igate (m_list m) g (Z.of_nat r) = Err TypeError).
Proof.
  intros S q init out ks c i m r g l1 o l2 H Hm Hr E Hc acts.
  assert (Ho : In o (m_list m)) by (rewrite E; apply in_elt).
  destruct (later_layers _ H Hm) as [T N].
  assert (K : acts -> get_qreg_moment_from 0 (m_list m) (Z.of_nat r) = Ok (Some (o, length l1))).
  { intros A. rewrite E in *. assert (A' : exists a, acting_members o = Ok a /\ In (Z.of_nat r) a).
    { specialize (N o Ho). unfold acts in A. destruct o; try discriminate; simpl; try (eexists; split; [reflexivity | exact A]).
      destruct qreg; eexists; (split; [reflexivity | exact A]). }
    destruct A' as [a [Ea Ha]]. rewrite (lookup_at l1 o l2 (Z.of_nat r) (a := a) 0); [reflexivity | | exact Ea | exact Ha].
    intros x Hx. split; [apply N, in_or_app; left; exact Hx|]. intros X.
    assert (C' : covers x r = true) by (rewrite <- (Nat2Z.id r); apply covers_in; [exact X | lia]).
    rewrite (covers_once _ _ _ _ T Hr Hc (in_or_app _ _ _ (or_introl Hx))) in C'. discriminate. }
  unfold replace_igate. split; [|split].
  - intros A I. rewrite (K A). cbn [bind]. rewrite I, E. do 2 f_equal. clear. induction l1; simpl; congruence.
  - intros A I. rewrite (K A). cbn [bind]. rewrite I. reflexivity.
  - intros A. pose proof (C86_nothing_on_a_taken_register _ _ _ _ _ _ _ _ _ _ H Hm Ho Hr Hc A) as G. unfold get_qreg_moment in G.
    destruct (get_qreg_moment_from 0 (m_list m) (Z.of_nat r)) as [[[? ?]|]|]; try discriminate. reflexivity.
Qed.

(** [check_igate_at_qreg] counts the objects of the layer instead of asking them
    for their registers.  That is right when each occupies one register. *)
Theorem C86_check_igate_in_a_narrow_layer : forall S q init out ks (c : circuit S) i m g o r,
  history q init out ks c -> nth_error (f_list (c_flow c)) (Datatypes.S i) = Some m ->
  (forall x, In x (m_list m) -> length (occupies (nregs q) x) = 1) ->
  In o (m_list m) -> r < nregs q -> covers o r = true -> qreg_index g = Ok (Z.of_nat r) ->
  check_igate_at_qreg (m_list m) g = Ok (is_igate o).
Proof.
  intros S q init out ks c i m g o r H Hm Hw Ho Hr Hc Hg. destruct (later_layers _ H Hm) as [T N].
  pose proof (narrow_tiles T Hw) as E. unfold check_igate_at_qreg. rewrite Hg. cbn [bind].
  assert (L : length (m_list m) = nregs q) by (apply (f_equal (@List.length _)) in E; rewrite !map_length, seq_length in E; exact E).
  destruct (nth_error (m_list m) r) as [x|] eqn:Ex; [|apply nth_error_None in Ex; lia].
  assert (X : x = o).
  { assert (Hx : In r (occupies (nregs q) x)).
    { pose proof (map_nth_error (occupies (nregs q)) _ _ Ex) as M. rewrite E in M.
      rewrite (map_nth_error (fun i => [i]) r (seq 0 (nregs q)) (d := r)) in M by (rewrite (nth_error_nth' _ 0) by (rewrite seq_length; lia); rewrite seq_nth by lia; reflexivity).
      injection M as M. rewrite <- M. left. reflexivity. }
    apply in_split in Ho as [l1 [l2 El]]. apply filter_In in Hx as [_ Hx].
    apply nth_error_In in Ex. rewrite El in *. apply in_app_or in Ex. assert (D : x = o \/ In x (l1 ++ l2)) by (destruct Ex as [Y|[Y|Y]]; auto using in_or_app).
    destruct D as [->|D]; [reflexivity|]. rewrite (covers_once _ _ _ _ T Hr Hc D) in Hx. discriminate. }
  subst x. unfold py_get. rewrite py_index_in by lia. rewrite Nat2Z.id, Ex. reflexivity.
Qed.

(** Once a gate of the layer occupies two registers or more, the question for the
    last register raises IndexError. *)
Theorem C86_check_igate_beside_a_wide_gate : forall S q init out ks (c : circuit S) i m g w,
  history q init out ks c -> nth_error (f_list (c_flow c)) (Datatypes.S i) = Some m ->
  In w (m_list m) -> 2 <= length (occupies (nregs q) w) -> qreg_index g = Ok (Z.of_nat (nregs q - 1)) ->
  check_igate_at_qreg (m_list m) g = Err IndexError.
Proof.
  intros S q init out ks c i m g w H Hm Ho Hw Hg. destruct (later_layers _ H Hm) as [T N].
  assert (L : length (m_list m) < nregs q) by (apply (wide_short T); eauto).
  unfold check_igate_at_qreg. rewrite Hg. cbn [bind]. unfold py_get.
  replace (py_index (length (m_list m)) (Z.of_nat (nregs q - 1))) with (@None nat); [reflexivity|].
  symmetry. unfold py_index. rewrite (proj2 (Z.ltb_ge (Z.of_nat (nregs q - 1)) _)) by lia. rewrite andb_false_r.
  rewrite (proj2 (Z.ltb_ge (Z.of_nat (nregs q - 1)) 0)) by lia. rewrite ?andb_false_r. reflexivity.
Qed.

(** A cx, a toffoli or a gate on a list of registers cannot be asked for at all. *)
Theorem C86_check_igate_for_a_wide_gate : forall S (l : list (op S)) k g, made_by k g ->
  match k with
  | CCX _ _ => check_igate_at_qreg l g = Err AttributeError
  | CTof _ _ _ | CGate _ (RList _) _ => check_igate_at_qreg l g = Err TypeError
  | _ => True
  end.
Proof.
  intros S l k g H. destruct k, g; simpl in H; try contradiction; try exact I; try reflexivity.
  destruct H as [-> _]. destruct qreg; [exact I | reflexivity].
Qed.

(** ** Four qubits: a toffoli on (0, 1) -> 2, then an x on register 3 beside it,
    then a cx over register 1 *)
Section Examples.
Local Open Scope Z_scope.
Let S := Zscalar.
Let ks : list (call S) := [CTof [0; 1] 2 1; CX 3 None 1; CCX [0; 2] 1].
Let c : circuit S := after (forced (mk_circuit S (QList [2; 2; 2; 2]) None None)) ks.
Let ask (i : nat) (r : Z) := match nth_error (f_list (c_flow c)) i with Some m => get_qreg_moment (m_list m) r | None => Err IndexError end.
Let igate (i : nat) (g : op S) := match nth_error (f_list (c_flow c)) i with Some m => check_igate_at_qreg (m_list m) g | None => Err IndexError end.
Let said (i : nat) (r : Z) : res (option (res bool * res bool)) :=
  o <- ask i r ;; Ok (option_map (fun g => (is_controlled g, is_single_qudit g)) o).

Example ex_C85_C86 : history (QList [2; 2; 2; 2]) None None ks c /\ ~ In CMeasureAll ks /\
  flag (api c (CTof [1; 2] 3 1)) = Ok true /\
  map (fun m => length (m_list m)) (f_list (c_flow c)) = [4; 2; 2]%nat /\
  (* the toffoli: single, not controlled; found at its target only *)
  said 1 2 = Ok (Some (Ok false, Ok true)) /\ said 1 0 = Ok None /\ said 1 1 = Ok None /\
  (* the cx over register 1 *)
  said 2 0 = Ok (Some (Ok true, Ok false)) /\ said 2 1 = Ok None /\ said 2 2 = Ok (Some (Ok true, Ok false)) /\
  (* the initial states *)
  said 0 0 = Err AttributeError /\
  (* the identity on register 3 of the cx layer: an x on register 1 is told it is free, one on 3 raises *)
  ask 2 3 = Ok (Some (OI 3 2)) /\ igate 2 (OX 3 2 1) = Err IndexError /\ igate 2 (OX 1 2 1) = Ok true.
Proof.
  split; [eexists; split; [apply forced_ok; vm_compute; reflexivity | reflexivity]|].
  split; [intros H; simpl in H; repeat (destruct H as [H|H]; [discriminate|]); contradiction|].
  repeat split; vm_compute; reflexivity.
Qed.

(** A layer whose objects occupy one register each. *)
Example ex_C86_narrow :
  let c := after (forced (mk_circuit S (QList [2; 3; 4]) None None)) [CX 1 None 1; CH 2 None] in
  history (QList [2; 3; 4]) None None [CX 1 None 1; CH 2 None] c /\
  map (@m_list S) (tl (f_list (c_flow c))) = [[OI 0 2; OX 1 3 1; OH 2 4]] /\
  map (fun o : op S => length (occupies 3 o)) [OI 0 2; OX 1 3 1; OH 2 4] = [1; 1; 1]%nat /\
  check_igate_at_qreg [OI 0 2; OX 1 3 1; OH 2 4 : op S] (OX 0 2 1) = Ok true /\
  check_igate_at_qreg [OI 0 2; OX 1 3 1; OH 2 4 : op S] (OX 2 4 1) = Ok false.
Proof.
  split; [eexists; split; [apply forced_ok; vm_compute; reflexivity | reflexivity]|].
  repeat split; vm_compute; reflexivity.
Qed.
End Examples.

Print Assumptions C85_what_a_gate_says.
Print Assumptions C85_initial_states_do_not_say.
Print Assumptions C86_object_on_a_register.
Print Assumptions C86_nothing_on_a_taken_register.
Print Assumptions C86_first_layer_raises.
Print Assumptions C86_replacing.
Print Assumptions C86_check_igate_in_a_narrow_layer.
Print Assumptions C86_check_igate_beside_a_wide_gate.
Print Assumptions C86_check_igate_for_a_wide_gate.
