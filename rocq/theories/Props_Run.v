(** * Props_Run: what run() computes (C01-C06, C10, C29).
    Statements only; every proof is one application.  [NB]/[SB] are the dense
    and the sparse backend. *)
From Coq Require Import String.
From Verif Require Import Py Scalar Mat Utils Gates Circuit Spec Calls HistSpec
  Run BackendEq Reversible Merge.
Local Notation length := List.length.

Definition supported {S} (B : backend S) : Prop := B = NumpyBackend S \/ B = SparseBackend S.

Lemma supported_sim : forall S (L : scalar_laws S) (B : backend S) q init out ks, supported B ->
  simulate B q init out ks = simulate (NumpyBackend S) q init out ks.
Proof. intros S L B q init out ks [->| ->]; [reflexivity | symmetry; apply simulate_backends; exact L]. Qed.

Lemma supported_run : forall S (L : scalar_laws S) (B : backend S) (c : circuit S), supported B ->
  run B c = run (NumpyBackend S) c.
Proof. intros S L B c [->| ->]; [reflexivity | symmetry; apply run_backends; exact L]. Qed.

(** A circuit line: at least one register, all dimensions at least 2, and at
    most as many initial levels as registers, each below its dimension. *)
Definition line (dims levels : list nat) : Prop :=
  dims <> [] /\ (forall d, In d dims -> 2 <= d) /\ length levels <= length dims /\ valid dims (start dims levels).

(** The calls [ks] ask for the program [prog] of valid gates. *)
Definition asks {S} (dims : list nat) (ks : list (call S)) (prog : list (gate S)) : Prop :=
  Forall2 (denotes dims) ks prog /\ Forall (gate_ok dims) prog.

(** ** C01 *)
Theorem C01_run_applies_gates_in_order :
  forall S (L : scalar_laws S) (B : backend S) dims levels out ty me ks prog,
  supported B -> line dims levels -> wants dims out ty me -> asks dims ks prog ->
  simulate B (QList (map Z.of_nat dims)) (Some (map Z.of_nat levels)) out ks
  = Ok (report ty me (answer dims (final dims prog (basis S (start dims levels))))).
Proof.
  intros S L B dims levels out ty me ks prog HB [H1 [H2 [H3 H4]]] Hw [H5 H6].
  rewrite (supported_sim S L) by exact HB.
  exact (@simulate_correct S L dims levels out ty me ks prog H1 H2 H3 H4 Hw H5 H6).
Qed.

(** ** C02 *)
Theorem C02_x_is_cyclic_increment :
  forall S (L : scalar_laws S) (B : backend S) dims s r dm p,
  supported B -> line dims s -> length s = length dims -> r < length dims ->
  dflt dims r dm -> (- Z.of_nat (nth r dims O) <= p < Z.of_nat (nth r dims O))%Z ->
  simulate B (QList (map Z.of_nat dims)) (Some (map Z.of_nat s)) None [CX (Z.of_nat r) dm p]
  = Ok [(shown OutPrint (put s r (Z.to_nat ((Z.of_nat (level s r) + p) mod Z.of_nat (nth r dims O)))), s1)].
Proof.
  intros S L B dims s r dm p HB [H1 [H2 [H3 H4]]] Hs Hr Hd Hp. rewrite (supported_sim S L) by exact HB.
  assert (Hw : wants dims None OutPrint OutAmplitude) by (right; auto).
  assert (Es : start dims s = s) by (unfold start; rewrite Hs, Nat.sub_diag; apply app_nil_r).
  rewrite (@simulate_reversible S L dims s None OutPrint OutAmplitude [CX (Z.of_nat r) dm p] [GX r p]);
    auto.
  - rewrite Es. reflexivity.
  - constructor; [constructor; exact Hd | constructor].
  - constructor; [split; auto | constructor].
Qed.

(** ** C03 *)
Theorem C03_cx_fires_at_top_level :
  forall S (L : scalar_laws S) (B : backend S) dims s c t p,
  supported B -> line dims s -> length s = length dims -> c < length dims -> t < length dims ->
  simulate B (QList (map Z.of_nat dims)) (Some (map Z.of_nat s)) None [CCX [Z.of_nat c; Z.of_nat t] p]
  = Ok [(shown OutPrint
           (if Nat.eq_dec (level s c) (nth c dims 0 - 1)
            then put s t (Z.to_nat ((Z.of_nat (level s t) + p) mod Z.of_nat (nth t dims O)))
            else s), s1)].
Proof.
  intros S L B dims s c t p HB [H1 [H2 [H3 H4]]] Hs Hc Ht. rewrite (supported_sim S L) by exact HB.
  assert (Hw : wants dims None OutPrint OutAmplitude) by (right; auto).
  assert (Es : start dims s = s) by (unfold start; rewrite Hs, Nat.sub_diag; apply app_nil_r).
  rewrite (@simulate_reversible S L dims s None OutPrint OutAmplitude [CCX [Z.of_nat c; Z.of_nat t] p] [GCX c t p]);
    auto.
  - rewrite Es. simpl moves. unfold move, move_cx, top. pose proof (H2 _ (nth_In dims 0 Hc)).
    destruct (Nat.eqb_spec (level s c + 1) (nth c dims 0)); destruct (Nat.eq_dec (level s c) (nth c dims 0 - 1));
      try lia; reflexivity.
  - constructor; [constructor | constructor].
  - constructor; [simpl; auto | constructor].
Qed.

(** ** C04 *)
Theorem C04_toffoli_fires_when_all_controls_top :
  forall S (L : scalar_laws S) (B : backend S) dims s cs t p,
  supported B -> line dims s -> length s = length dims ->
  (forall c, In c cs -> c < length dims) -> t < length dims -> ~ In t cs -> ~ spans_two (t :: cs) ->
  ((forall c, In c cs -> level s c = nth c dims 0 - 1) ->
   simulate B (QList (map Z.of_nat dims)) (Some (map Z.of_nat s)) None [CTof (map Z.of_nat cs) (Z.of_nat t) p]
   = Ok [(shown OutPrint (put s t (Z.to_nat ((Z.of_nat (level s t) + p) mod Z.of_nat (nth t dims O)))), s1)]) /\
  ((exists c, In c cs /\ level s c <> nth c dims 0 - 1) ->
   simulate B (QList (map Z.of_nat dims)) (Some (map Z.of_nat s)) None [CTof (map Z.of_nat cs) (Z.of_nat t) p]
   = Ok [(shown OutPrint s, s1)]).
Proof.
  intros S L B dims s cs t p HB [H1 [H2 [H3 H4]]] Hs Hc Ht Hct Hsp. rewrite (supported_sim S L) by exact HB.
  assert (Hw : wants dims None OutPrint OutAmplitude) by (right; auto).
  assert (Es : start dims s = s) by (unfold start; rewrite Hs, Nat.sub_diag; apply app_nil_r).
  rewrite (@simulate_reversible S L dims s None OutPrint OutAmplitude [CTof (map Z.of_nat cs) (Z.of_nat t) p] [GTof cs t p]);
    auto.
  - rewrite Es. simpl moves. unfold move, move_tof. split.
    + intros Hall. rewrite (proj2 (forallb_forall _ _)); [reflexivity|].
      intros c Hin. unfold top. apply Nat.eqb_eq. rewrite (Hall c Hin). specialize (H2 _ (nth_In dims 0 (Hc c Hin))). lia.
    + intros [c [Hin Hne]]. destruct (forallb (top dims s) cs) eqn:E; [|reflexivity].
      rewrite forallb_forall in E. specialize (E c Hin). unfold top in E. apply Nat.eqb_eq in E. lia.
  - constructor; [constructor | constructor].
  - constructor; [simpl; auto | constructor].
Qed.

(** ** C05 *)
Theorem C05_reversible_circuits_give_one_outcome :
  forall S (L : scalar_laws S) (B : backend S) dims levels out ty me ks prog,
  supported B -> line dims levels -> wants dims out ty me -> asks dims ks prog ->
  forallb (@is_classical S) prog = true ->
  simulate B (QList (map Z.of_nat dims)) (Some (map Z.of_nat levels)) out ks
  = Ok [(shown ty (moves dims prog (start dims levels)), s1)].
Proof.
  intros S L B dims levels out ty me ks prog HB [H1 [H2 [H3 H4]]] Hw [H5 H6] Hr.
  rewrite (supported_sim S L) by exact HB.
  exact (@simulate_reversible S L dims levels out ty me ks prog H1 H2 H3 H4 Hw H5 H6 Hr).
Qed.

(** ** C06: a gate given a layer of its own, instead of being merged into the
    last layer, gives the same result ... *)
Theorem C06_merging_is_invisible :
  forall S (L : scalar_laws S) (B : backend S) dims levels out ty me ks1 ks2 k prog1 prog2 g c0 c1 data,
  supported B -> line dims levels -> wants dims out ty me -> asks dims ks1 prog1 -> asks dims ks2 prog2 ->
  denotes dims k g -> gate_ok dims g ->
  mk_circuit S (QList (map Z.of_nat dims)) (Some (map Z.of_nat levels)) out = Ok c0 ->
  script c0 ks1 = Ok c1 -> gate_layer c1 k = Ok data ->
  (c2 <- script (with_layer c1 data) (ks2 ++ [CMeasureAll]) ;; run B c2)
  = simulate B (QList (map Z.of_nat dims)) (Some (map Z.of_nat levels)) out (ks1 ++ k :: ks2).
Proof.
  intros S L B dims levels out ty me ks1 ks2 k prog1 prog2 g c0 c1 data HB [H1 [H2 [H3 H4]]] Hw [H5 H6] [H7 H8] Hk Hg Hc Hs Hl.
  rewrite (supported_sim S L) by exact HB.
  rewrite <- (@merge_invisible S L dims levels out ty me ks1 ks2 k prog1 prog2 g c0 c1 data); auto.
  destruct (script (with_layer c1 data) (ks2 ++ [CMeasureAll])) as [c2|e]; [|reflexivity].
  cbn [bind]. apply supported_run; assumption.
Qed.

(** ... and two neighbouring gates on disjoint registers may be issued in
    either order. *)
Theorem C06_disjoint_gates_commute :
  forall S (L : scalar_laws S) (B : backend S) dims levels out ty me ks1 ks2 k k' prog1 prog2 g g',
  supported B -> line dims levels -> wants dims out ty me -> asks dims ks1 prog1 -> asks dims ks2 prog2 ->
  denotes dims k g -> gate_ok dims g -> denotes dims k' g' -> gate_ok dims g' ->
  (forall r, In r (touches g) -> In r (touches g') -> False) ->
  simulate B (QList (map Z.of_nat dims)) (Some (map Z.of_nat levels)) out (ks1 ++ k :: k' :: ks2)
  = simulate B (QList (map Z.of_nat dims)) (Some (map Z.of_nat levels)) out (ks1 ++ k' :: k :: ks2).
Proof.
  intros S L B dims levels out ty me ks1 ks2 k k' prog1 prog2 g g' HB [H1 [H2 [H3 H4]]] Hw [H5 H6] [H7 H8] Hk Hg Hk' Hg' Hd.
  rewrite !(supported_sim S L B) by exact HB.
  apply (@disjoint_swap S L dims levels out ty me ks1 ks2 k k' prog1 prog2 g g'); auto.
Qed.

(** ** C10 *)
Theorem C10_backends_agree : forall S (L : scalar_laws S),
  (forall c : circuit S, run (NumpyBackend S) c = run (SparseBackend S) c) /\
  (forall q init out ks,
     simulate (NumpyBackend S) q init out ks = simulate (SparseBackend S) q init out ks).
Proof. intros S L. split; [exact (run_backends L) | exact (simulate_backends L)]. Qed.

(** ** C29 *)
Theorem C29_inverse_gates_cancel :
  forall S (L : scalar_laws S) (B : backend S) dims levels out ty me ks1 ks2 k k' prog1 prog2 g,
  supported B -> line dims levels -> wants dims out ty me -> asks dims ks1 prog1 -> asks dims ks2 prog2 ->
  reversible g -> denotes dims k g -> gate_ok dims g -> denotes dims k' (undo g) -> gate_ok dims (undo g) ->
  simulate B (QList (map Z.of_nat dims)) (Some (map Z.of_nat levels)) out (ks1 ++ k :: k' :: ks2)
  = simulate B (QList (map Z.of_nat dims)) (Some (map Z.of_nat levels)) out (ks1 ++ ks2).
Proof.
  intros S L B dims levels out ty me ks1 ks2 k k' prog1 prog2 g HB [H1 [H2 [H3 H4]]] Hw [H5 H6] [H7 H8] Hr Hk Hg Hk' Hg'.
  rewrite !(supported_sim S L B) by exact HB.
  apply (@inverse_cancels S L dims levels out ty me ks1 ks2 k k' prog1 prog2 g); auto.
Qed.

(** ** The hypotheses are met by non-trivial circuits *)
Section Examples.
Open Scope Z_scope.
Let S := Zscalar.
Let dims := [2; 3; 2]%nat.
Let levels := [1; 2]%nat.
Let full := [1; 2; 0]%nat.

Example ex_line : line dims levels.
Proof.
  unfold line, dims, levels. split; [discriminate|]. split; [|split; [simpl; lia | repeat constructor]].
  intros d H. simpl in H. lia.
Qed.
Example ex_full : line dims full /\ length full = length dims.
Proof.
  unfold line, dims, full. split; [|reflexivity]. split; [discriminate|]. split; [|split; [simpl; lia | repeat constructor]].
  intros d H. simpl in H. lia.
Qed.

(** The swap matrix on one qubit, as a user-defined gate. *)
Let swap : mat S := {| mr := 2; mc := 2; md := ([[0; 1]; [1; 0]] : list (list (car S))) |}.
Let swapu : nat -> nat -> S := fun i j => if Nat.eqb (i + j) 1 then 1 else 0.

(** Merges (two single-register gates in one layer), a reversed and a distant
    cx, a toffoli over a gap, a user-defined gate, a Hadamard (unnormalised
    over the integers) and a Z. *)
Let calls : list (call S) :=
  [CX 1 None 2; CX 2 (Some 0) (-1); CCX [1; 0] 1; CCX [0; 2] 1; CTof [0; 2] 1 1;
   CGate swap (RInt 2) None; CH 0 (Some 2); CZ 2 None].
Let prog : list (gate S) :=
  [GX 1 2; GX 2 (-1); GCX 1 0 1; GCX 0 2 1; GTof [0; 2]%nat 1 1; GU 2 swapu; GH 0; GZ 2].

Example ex_asks : asks dims calls prog.
Proof.
  unfold asks, calls, prog. split.
  - constructor; [apply (@den_x S dims 1); left; reflexivity|].
    constructor; [apply (@den_x S dims 2); right; left; reflexivity|].
    constructor; [apply (@den_cx S dims 1 0)|].
    constructor; [apply (@den_cx S dims 0 2)|].
    constructor; [apply (@den_tof S dims [0; 2]%nat 1)|].
    constructor.
    { apply (@den_u S dims 2); [left; reflexivity | reflexivity | reflexivity |].
      intros i j Hi Hj. change (nth 2 dims O) with 2%nat in Hi, Hj.
      destruct i as [|[|i]]; [| |lia]; destruct j as [|[|j]]; try lia; reflexivity. }
    constructor; [apply (@den_h S dims 0 (Some 2)); right; right; reflexivity|].
    constructor; [apply (@den_z S dims 2 None); left; reflexivity | constructor].
  - repeat (apply Forall_cons || apply Forall_nil); simpl; try lia.
    + split; [|split; [lia|split]].
      * intros c [<-|[<-|[]]]; lia.
      * intros [H|[H|[]]]; lia.
      * intros [lo [H1 [H2 H3]]]. simpl in *. assert (A := H3 0%nat). assert (B := H3 2%nat). lia.
    + split; [lia|]. intros i j Hi Hj. simpl in Hi, Hj.
      destruct i as [|[|i]]; [| |lia]; destruct j as [|[|j]]; try lia; reflexivity.
Qed.

Example ex_C01_model :
  simulate (SparseBackend S) (QList (map Z.of_nat dims)) (Some (map Z.of_nat levels)) None calls
  = Ok [(LStr "|011>"%string, 1); (LStr "|111>"%string, -1)].
Proof. vm_compute. reflexivity. Qed.
(** The specification computes the expected superposition. *)
Example ex_C01_spec :
  report OutPrint OutAmplitude
    (answer [2; 3]%nat (final [2; 3]%nat [GH 0; GCX 0 1 2; GX 0 1] (basis S (start [2; 3]%nat [1]%nat))))
  = [(LStr "|02>"%string, -1); (LStr "|10>"%string, 1)].
Proof. vm_compute. reflexivity. Qed.
Example ex_C01_out : wants dims None OutPrint OutAmplitude /\
  wants dims (Some {| o_base := [2; 3; 2]; o_type := OutState; o_method := OutProbability |}) OutState OutProbability.
Proof. split; [right; auto | left; reflexivity]. Qed.

Example ex_C02 : (1 < length dims)%nat /\ dflt dims 1 (Some 3) /\ -3 <= -2 < 3 /\
  simulate (NumpyBackend S) (QList [2; 3; 2]) (Some [1; 2; 1]) None [CX 1 (Some 3) (-2)]
  = Ok [(LStr "|101>"%string, 1)].
Proof. split; [simpl; lia|]. split; [right; right; reflexivity|]. split; [lia|]. vm_compute. reflexivity. Qed.

(** control 2 above target 0, and a control below its top level *)
Example ex_C03 :
  simulate (NumpyBackend S) (QList [2; 3; 2]) (Some [1; 2; 1]) None [CCX [2; 0] 1]
  = Ok [(LStr "|021>"%string, 1)] /\
  simulate (NumpyBackend S) (QList [2; 3; 2]) (Some [1; 1; 1]) None [CCX [1; 0] 1]
  = Ok [(LStr "|111>"%string, 1)].
Proof. split; vm_compute; reflexivity. Qed.

Example ex_C04 : ~ spans_two [1; 0; 2]%nat /\
  simulate (NumpyBackend S) (QList [2; 3; 2]) (Some [1; 2; 1]) None [CTof [0; 2] 1 5]
  = Ok [(LStr "|111>"%string, 1)] /\
  simulate (NumpyBackend S) (QList [2; 3; 2]) (Some [1; 2; 0]) None [CTof [0; 2] 1 5]
  = Ok [(LStr "|120>"%string, 1)].
Proof.
  split; [|split; vm_compute; reflexivity].
  intros [lo [_ [_ H]]]. assert (A := H 0%nat). assert (B := H 2%nat). simpl in *. lia.
Qed.

Example ex_C05 : forallb (@is_classical S) (firstn 5 prog) = true /\
  moves dims (firstn 5 prog) (start dims levels) = [1; 1; 0]%nat.
Proof. split; vm_compute; reflexivity. Qed.

(** C06: after x on register 1, x on register 2 is merged into the same layer;
    [gate_layer] is the layer it would have got, and running with that extra
    layer gives the same. *)
Example ex_C06 : exists c0 c1 c2 data,
  mk_circuit S (QList (map Z.of_nat dims)) (Some (map Z.of_nat levels)) None = Ok c0 /\
  script c0 (firstn 1 calls) = Ok c1 /\ gate_layer c1 (CX 2 (Some 0) (-1)) = Ok data /\
  api c1 (CX 2 (Some 0) (-1)) = Ok (c2, true) /\
  length (f_list (c_flow c2)) = length (f_list (c_flow c1)) /\
  length (f_list (c_flow (with_layer c1 data))) = (length (f_list (c_flow c1)) + 1)%nat.
Proof. do 4 eexists. repeat split; vm_compute; reflexivity. Qed.

Example ex_C06_swap :
  (forall r, In r (touches (GCX (S := S) 1 0 1)) -> In r (touches (GX (S := S) 2 (-1))) -> False) /\
  simulate (NumpyBackend S) (QList [2; 3; 2]) (Some [1; 2]) None [CCX [1; 0] 1; CX 2 None (-1)]
  = Ok [(LStr "|021>"%string, 1)].
Proof.
  split; [|vm_compute; reflexivity]. intros r H1 H2. simpl in *. lia.
Qed.

(** C10 also covers scripts that raise. *)
Example ex_C10 :
  simulate (NumpyBackend S) (QList [2; 3]) None None [CX 0 None 7] = Err IndexError /\
  simulate (SparseBackend S) (QList [2; 3]) None None [CX 0 None 7] = Err IndexError.
Proof. split; vm_compute; reflexivity. Qed.

Example ex_C29 : gate_ok dims (GTof (S := S) [0; 2]%nat 1 2) /\ gate_ok dims (undo (GTof (S := S) [0; 2]%nat 1 2)) /\
  simulate (NumpyBackend S) (QList [2; 3; 2]) (Some [1; 2; 1]) None
           (firstn 1 calls ++ CTof [0; 2] 1 2 :: CTof [0; 2] 1 (-2) :: skipn 2 calls)
  = Ok [(LStr "|011>"%string, 1); (LStr "|111>"%string, -1)].
Proof.
  assert (G : forall p, gate_ok dims (GTof (S := S) [0; 2]%nat 1 p)).
  { intros p. simpl. split; [|split; [lia|split]].
    - intros c [<-|[<-|[]]]; lia.
    - intros [H|[H|[]]]; lia.
    - intros [lo [_ [_ H]]]. assert (A := H 0%nat). assert (B := H 2%nat). simpl in *. lia. }
  split; [apply G|]. split; [apply G|]. vm_compute. reflexivity.
Qed.
End Examples.

Print Assumptions C01_run_applies_gates_in_order.
Print Assumptions C02_x_is_cyclic_increment.
Print Assumptions C03_cx_fires_at_top_level.
Print Assumptions C04_toffoli_fires_when_all_controls_top.
Print Assumptions C05_reversible_circuits_give_one_outcome.
Print Assumptions C06_merging_is_invisible.
Print Assumptions C06_disjoint_gates_commute.
Print Assumptions C10_backends_agree.
Print Assumptions C29_inverse_gates_cancel.
