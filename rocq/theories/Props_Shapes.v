(** * Props_Shapes: gates given a dims argument that is not the dimension of
    their register (C16). *)
From Verif Require Import Py Scalar Mat Utils Gates Circuit Spec Calls HistSpec CallSpec ShapeSpec
  History Reject Shapes ExactShape ExLib Props_Run.

Theorem C16_dims_too_large_raises_ValueError :
  forall S dims init out ks (c : circuit S) k r d,
  history (QList (map Z.of_nat dims)) init out ks c ->
  asks_one k (Z.of_nat r) (Some d) -> r < length dims -> (Z.of_nat (nth r dims O) < d)%Z ->
  api c k = Err ValueError /\ step c k = c.
Proof.
  intros S dims init out ks c k r d H Ha Hr Hd.
  assert (E : api c k = Err ValueError) by (eapply one_dim; eassumption).
  split; [exact E | unfold step; rewrite E; reflexivity].
Qed.

(** dims too small, or negative: the call is accepted, and whatever follows,
    run() raises. *)
Theorem C16_dims_too_small_never_runs :
  forall S (L : scalar_laws S) (B : backend S) dims init out ks (c : circuit S) k r d ks',
  supported B ->
  history (QList (map Z.of_nat dims)) init out ks c -> ~ In CMeasureAll ks ->
  asks_one k (Z.of_nat r) (Some d) -> r < length dims -> d <> 0%Z -> (d < Z.of_nat (nth r dims O))%Z ->
  Forall (tame dims) ks -> Forall (tame dims) ks' ->
  exists c', api c k = Ok (c', true) /\ exists e, run B (after c' ks') = Err e.
Proof.
  intros S L B dims init out ks c k r d ks' HB H Hm Ha Hr Hd Hlt T1 T2.
  destruct (@too_small S L dims init out ks c k r d ks' H Hm Ha Hr Hd Hlt T1 T2) as [c' [E [e He]]].
  exists c'. split; [exact E|]. exists e. rewrite (supported_run S L) by exact HB. exact He.
Qed.

(** In an otherwise valid program the exception is ValueError, for a gate that
    would be valid if register [r] had dimension [d]. *)
Theorem C16_dims_too_small_raises_ValueError :
  forall S (L : scalar_laws S) (B : backend S) dims levels out ty me ks1 ks2 k r d g prog1 prog2,
  supported B -> line dims levels -> wants dims out ty me -> asks dims ks1 prog1 -> asks dims ks2 prog2 ->
  r < length dims -> 1 <= d < nth r dims 0 ->
  asks_one k (Z.of_nat r) (Some (Z.of_nat d)) -> asks (put dims r d) [k] [g] ->
  simulate B (QList (map Z.of_nat dims)) (Some (map Z.of_nat levels)) out (ks1 ++ k :: ks2) = Err ValueError.
Proof.
  intros S L B dims levels out ty me ks1 ks2 k r d g prog1 prog2 HB [H1 [H2 [H3 H4]]] Hw [A1 A2] [A3 A4] Hr [Hd Hlt] Ha [K1 K2].
  rewrite (supported_sim S L) by exact HB. inversion K1; subst. inversion K2; subst.
  eapply exact_small; eassumption.
Qed.

(** ** Concrete cases *)
Section Examples.
Open Scope Z_scope.
Let S := Zscalar.
Let circ (q : list Z) : circuit S := forced (mk_circuit S (QList q) None None).
Let works (q : list Z) (ks : list (call S)) : bool :=
  is_ok (run (NumpyBackend S) (after (circ q) ks)) && is_ok (run (SparseBackend S) (after (circ q) ks)).

Let calls : list (call S) :=
  [CX 1 None 2; CTof [0; 1] 2 1; CGate (deye S 12 12) (RList [2; 1; 0]) None; CCX [0; 2] 1; CX 7 None 1; CH 1 (Some 4)].
Let more : list (call S) := [CX 2 None 1; CMeasureAll].
Let c : circuit S := after (circ [2; 3; 2]) calls.

Example ex_shape_history : history (QList [2; 3; 2]) None None calls c /\ ~ In CMeasureAll calls.
Proof.
  split; [exists (circ [2; 3; 2]); split; [apply forced_ok; vm_compute; reflexivity | reflexivity]|].
  intros H. simpl in H. repeat (destruct H as [H|H]; [discriminate|]). contradiction.
Qed.
Example ex_tame : Forall (tame [2; 3; 2]%nat) calls /\ Forall (tame [2; 3; 2]%nat) more.
Proof.
  split; repeat (apply Forall_cons; [cbn|]); try apply Forall_nil; try exact I.
  - intros r [<-|[<-|[<-|[]]]]; lia.
  - intros _. split; [reflexivity | vm_compute; repeat constructor].
Qed.
(** without the bad call the program runs; with dims=2, or a gate of dims=2,
    on the qutrit it does not *)
Example ex_good : works [2; 3; 2] (calls ++ more) = true.
Proof. vm_compute. reflexivity. Qed.
Example ex_small_x : flag (api c (CX 1 (Some 2) 1)) = Ok true /\
  run (NumpyBackend S) (after c (CX 1 (Some 2) 1 :: more)) = Err ValueError.
Proof. vm_compute. split; reflexivity. Qed.
Example ex_small_gate : flag (api c (CGate (deye S 2 2) (RInt 1) (Some 2))) = Ok true /\
  run (SparseBackend S) (after c (CGate (deye S 2 2) (RInt 1) (Some 2) :: more)) = Err ValueError.
Proof. vm_compute. split; reflexivity. Qed.
Example ex_negative_dims : flag (api c (CZ 0 (Some (-3)))) = Ok true /\
  is_ok (run (NumpyBackend S) (after c (CZ 0 (Some (-3)) :: more))) = false.
Proof. vm_compute. split; reflexivity. Qed.
Example ex_large : api c (CX 1 (Some 4) 1) = Err ValueError.
Proof. vm_compute. reflexivity. Qed.

(** The hypotheses of the last theorem: x+1 for a qubit, and a qubit gate, on
    the qutrit of a valid program *)
Example ex_small_asked : line [2; 3; 2]%nat [1]%nat /\ asks [2; 3; 2]%nat [CX 1 None 2; CCX [0; 2] 1 : call S] [GX 1 2; GCX 0 2 1] /\
  asks (put [2; 3; 2] 1 2)%nat [CX 1 (Some 2) 1 : call S] [GX 1 1] /\
  asks (put [2; 3; 2] 1 2)%nat [CGate (deye S 2 2) (RInt 1) (Some 2)] [GU 1 (fun i j => if Nat.eqb i j then s1 else s0)].
Proof.
  split; [|split; [|split]].
  - split; [discriminate|]. split; [intros d [<-|[<-|[<-|[]]]]; lia|]. split; [simpl; lia|].
    repeat constructor.
  - split; [constructor; [apply (@den_x S [2; 3; 2]%nat 1); left; reflexivity | constructor; [apply (@den_cx S [2; 3; 2]%nat 0 2) | constructor]]|].
    repeat (apply Forall_cons; [cbn; lia|]). apply Forall_nil.
  - split; [constructor; [apply (@den_x S (put [2; 3; 2] 1 2)%nat 1); right; right; reflexivity | constructor]|].
    repeat (apply Forall_cons; [cbn; lia|]). apply Forall_nil.
  - split.
    + constructor; [|constructor]. apply (@den_u S (put [2; 3; 2] 1 2)%nat 1); [right; right; reflexivity | reflexivity | reflexivity |].
      intros i j Hi Hj. unfold deye. apply Lib.mget_mkmat; assumption.
    + apply Forall_cons; [|apply Forall_nil]. split; [simpl; lia|]. apply (Exact.identity_rows Zscalar_laws).
Qed.
Example ex_small_raises : forall B : backend S, B = NumpyBackend S \/ B = SparseBackend S ->
  simulate B (QList [2; 3; 2]) (Some [1]) None [CX 1 None 2; CCX [0; 2] 1; CX 1 (Some 2) 1] = Err ValueError.
Proof. intros B [->| ->]; vm_compute; reflexivity. Qed.

(** Without [tame] the statement is false, in three ways.  An oversized matrix
    on three registers makes up for the missing size of its layer: *)
Example ex_oversized : works [2; 2; 2; 4] [CGate (deye S 16 16) (RList [0; 1; 2]) None; CX 3 (Some 2) 1; CMeasureAll] = true.
Proof. vm_compute. reflexivity. Qed.
(** a matrix with fewer rows than columns leaves a shorter state for the next
    layer: *)
Example ex_not_square : works [2; 2; 2; 2] [CGate (deye S 4 8) (RList [0; 1; 2]) None; CX 3 (Some 2) 0;
   CGate (deye S 8 8) (RList [0; 1; 2]) None; CX 3 (Some 1) 0; CMeasureAll] = true.
Proof. vm_compute. reflexivity. Qed.
(** a register named from the end makes the Toffoli matrix too large: *)
Example ex_wrapped : works [2; 2; 4; 2] [CTof [-1; 0] 1 1; CX 2 (Some 2) 1; CMeasureAll] = true.
Proof. vm_compute. reflexivity. Qed.

Theorem C16_dims_too_small_never_runs_unguarded_refuted :
  ~ (forall S (L : scalar_laws S) (B : backend S) dims init out ks (c : circuit S) k r d ks',
     supported B ->
     history (QList (map Z.of_nat dims)) init out ks c -> ~ In CMeasureAll ks ->
     asks_one k (Z.of_nat r) (Some d) -> (r < length dims)%nat -> d <> 0 -> d < Z.of_nat (nth r dims O) ->
     exists c', api c k = Ok (c', true) /\ exists e, run B (after c' ks') = Err e).
Proof.
  intros A.
  set (ks := [CGate (deye S 16 16) (RList [0; 1; 2]) None]).
  destruct (A S Zscalar_laws (NumpyBackend S) [2; 2; 2; 4]%nat None None ks (after (circ [2; 2; 2; 4]) ks)
    (CX 3 (Some 2) 1) 3%nat 2 [CMeasureAll]) as [c' [E [e He]]].
  - left; reflexivity.
  - exists (circ [2; 2; 2; 4]). split; [apply forced_ok; vm_compute; reflexivity | reflexivity].
  - intros [X|[]]; discriminate.
  - split; reflexivity.
  - simpl; lia.
  - lia.
  - simpl; lia.
  - assert (Es : c' = step (after (circ [2; 2; 2; 4]) ks) (CX 3 (Some 2) 1)) by (unfold step; rewrite E; reflexivity).
    rewrite Es in He. assert (W : is_ok (Err (A := list (label * S)) e) = true) by (rewrite <- He; vm_compute; reflexivity). discriminate.
Qed.
End Examples.

Print Assumptions C16_dims_too_large_raises_ValueError.
Print Assumptions C16_dims_too_small_never_runs.
Print Assumptions C16_dims_too_small_raises_ValueError.
Print Assumptions C16_dims_too_small_never_runs_unguarded_refuted.
