(** * Props_Depth: the depth of a program, and of the tree decomposition
    (C59, C60).  Statements only. *)
From Coq Require Import String.
From Verif Require Import Py Scalar Mat Utils Gates Circuit Spec Calls HistSpec Lib Run Info InfoSpec DepthSpec InfoDepth
  Tree TreeSpec TreeLib TreeMap TreeRun TreeEnd TreeCount TreeGates TreeDepth Props_Run Props_Tree ExLib.
Local Notation length := List.length.

(** ** C59 *)
Theorem C59_depth_of_a_program :
  forall S (L : scalar_laws S) dims levels out ks prog tail (c : circuit S),
  line dims levels -> asks dims ks prog ->
  tail = [] \/ (exists rest, tail = CMeasureAll :: rest) ->
  history (QList (map Z.of_nat dims)) (Some (map Z.of_nat levels)) out (ks ++ tail) c ->
  get_circuit_config c = Ok (WInt (Z.of_nat (length dims)), Z.of_nat (layering (fun _ => true) prog)).
Proof.
  intros S L dims levels out ks prog tail c [H1 [H2 [H3 H4]]] [HF Hok] Ht H.
  exact (@asks_depth_reported S L dims levels out ks prog tail c H1 H2 H3 H4 HF Hok Ht H).
Qed.

(** ** C60 *)
Open Scope Z_scope.

(** The decomposition has logarithmically many levels, and different pairs of
    one level share no node. *)
Theorem C60_levels_are_parallel : forall flog fuel n t final, large flog fuel n -> decompose flog fuel n = Ok (t, final) ->
  Z.of_nat (length final) = 2 * flog (n - 1) + 1 /\
  forall level i j l r l' r' g h, In level final ->
    nth_error level i = Some (l, r) -> nth_error level j = Some (l', r') -> i <> j ->
    (l = Some g \/ r = Some g) -> (l' = Some h \/ r' = Some h) ->
    g_control g <> g_control h /\ g_control g <> g_target h /\ g_target g <> g_control h /\ g_target g <> g_target h.
Proof.
  intros flog fuel n t final HL E. rewrite (large_decompose _ _ _ HL) in E. injection E as <- <-. destruct HL as [H1 [H2 H3]].
  set (c := n - 1) in *. assert (Hc : 2 <= c) by lia. split; [apply final_length; assumption|].
  intros level i j l r l' r' g h Hl Hi Hj Hij Hg Hh.
  assert (Hg' : In g (decomp_gates (l, r))).
  { unfold decomp_gates. apply in_app_iff. destruct Hg as [-> | ->]; [left | right]; left; reflexivity. }
  assert (Hh' : In h (decomp_gates (l', r'))).
  { unfold decomp_gates. apply in_app_iff. destruct Hh as [-> | ->]; [left | right]; left; reflexivity. }
  assert (K : forall x, (x = g_control g \/ x = g_target g) -> (x = g_control h \/ x = g_target h) -> False).
  { intros x. exact (level_apart c (flog c) level i j (l, r) (l', r') g h x Hl Hi Hj Hij Hg' Hh'). }
  repeat split; intros X; [apply (K (g_control g)) | apply (K (g_control g)) | apply (K (g_target g)) | apply (K (g_target g))]; auto.
Qed.

(** There are [2 * n - 3] gates, and the circuit RUN_CIRC builds from them has
    that depth: no two of them share a layer. *)
Theorem C60_built_circuit_has_linear_depth :
  forall S (L : scalar_laws S) flog fuel n t final bits out ks (c : circuit S),
  large flog fuel n -> decompose flog fuel n = Ok (t, final) ->
  Z.of_nat (length bits) = n -> (forall x, In x bits -> (x < 2)%nat) ->
  mapM (cnot_call S (t_mapping t)) (all_gates final) = Ok ks ->
  history (QList (tree_qregs t n)) (Some (map Z.of_nat bits)) out ks c ->
  Z.of_nat (length (all_gates final)) = 2 * n - 3 /\ get_circuit_config c = Ok (WInt n, 2 * n - 3).
Proof.
  intros S L flog fuel n t final bits out ks c HL E Hlen Hbits Hks H.
  rewrite (large_decompose _ _ _ HL) in E. injection E as <- <-. destruct HL as [H1 [H2 H3]].
  split.
  - rewrite (gates_number flog (n - 1) fuel ltac:(lia) H2). lia.
  - cut (get_circuit_config c = Ok (WInt (n - 1 + 1), 2 * (n - 1) - 1)).
    { intros ->. replace (n - 1 + 1) with n by lia. replace (2 * (n - 1) - 1) with (2 * n - 3) by lia. reflexivity. }
    apply (built_depth flog (n - 1) fuel ltac:(lia) H2 ltac:(lia) S L bits out ks c); [lia | exact Hbits | exact Hks |].
    replace (n - 1 + 1) with n by lia. exact H.
Qed.

(** ** Non-trivial instances *)
Section Examples.
Let S := Zscalar.

(** x on register 1 shares a layer with x on register 2, the cx of registers 0
    and 2 takes all three, the z and h that follow share one, and the gate on
    register 2 opens a layer that x on register 1 joins. *)
Let swapu : nat -> nat -> S := fun i j => if Nat.eqb (i + j) 1 then 1 else 0.
Let prog : list (gate S) := [GX 1 2; GX 2 (-1); GCX 0 2 1; GZ 1; GH 0; GZ 1; GU 2 swapu; GX 1 1].
Let calls : list (call S) := [CX 1 None 2; CX 2 None (-1); CCX [0; 2] 1; CZ 1 None; CH 0 None; CZ 1 None;
  CGate {| mr := 2; mc := 2; md := ([[0; 1]; [1; 0]] : list (list (car S))) |} (RInt 2) None; CX 1 None 1].
Example ex_C59 : layering (fun _ => true) prog = 5%nat /\
  history (QList [2; 3; 2]) (Some [1; 2]) None (calls ++ [CMeasureAll; CX 0 None 1])
    (after (forced (mk_circuit S (QList [2; 3; 2]) (Some [1; 2]) None)) (calls ++ [CMeasureAll; CX 0 None 1])) /\
  get_circuit_config (after (forced (mk_circuit S (QList [2; 3; 2]) (Some [1; 2]) None)) (calls ++ [CMeasureAll; CX 0 None 1]))
  = Ok (WInt 3, 5).
Proof.
  split; [reflexivity|]. split; [|vm_compute; reflexivity].
  exists (forced (mk_circuit S (QList [2; 3; 2]) (Some [1; 2]) None)). split; [apply forced_ok; vm_compute; reflexivity | reflexivity].
Qed.

(** Nine lines: seven levels, fifteen gates, two pairs in the first level. *)
Example ex_C60 : large Z.log2 9 9 /\ exists t final ks, decompose Z.log2 9 9 = Ok (t, final) /\
  length final = 7%nat /\ length (all_gates final) = 15%nat /\ map (@length _) final = [2; 1; 1; 1; 1; 1; 2]%nat /\
  mapM (cnot_call S (t_mapping t)) (all_gates final) = Ok ks.
Proof.
  split; [exact ex_large|]. do 3 eexists. split; [vm_compute; reflexivity|]. repeat split; vm_compute; reflexivity.
Qed.
End Examples.

Print Assumptions C59_depth_of_a_program.
Print Assumptions C60_levels_are_parallel.
Print Assumptions C60_built_circuit_has_linear_depth.
