(** * Props_Labels: the labels and numbers run() reports, and cx on a single
    register (C12, C13, C28, C31). *)
From Coq Require Import String FinFun.
From Verif Require Import Py Scalar Mat Utils Gates Circuit Spec Calls HistSpec Lib GateMat Labels Outcome Run Reversible
  ExLib Props_Run.
Local Notation length := List.length.

(** ** C12 *)
Theorem C12_labels_are_basis_states :
  forall S (L : scalar_laws S) (B : backend S) dims init out ty me ks (c : circuit S) l,
  supported B -> history (QList (map Z.of_nat dims)) init out ks c -> wants dims out ty me -> run B c = Ok l ->
  exists states, map fst l = map (shown ty) states /\ NoDup states /\
    forall s, In s states -> length s = length dims /\ forall r, r < length dims -> level s r < nth r dims 0.
Proof.
  intros S L B dims init out ty me ks c l HB H Hw Hr.
  destruct (run_labels L HB H Hw Hr) as [states [H1 [H2 H3]]]. exists states. split; [exact H1|]. split; [exact H3|].
  intros s Hs. rewrite Forall_forall in H2. specialize (H2 s Hs). split; [exact (valid_length H2)|].
  intros r Hlt. apply valid_level; assumption.
Qed.

Theorem C12_labels_are_distinct :
  forall S (L : scalar_laws S) (B : backend S) dims init out ty me ks (c : circuit S) l,
  supported B -> history (QList (map Z.of_nat dims)) init out ks c -> wants dims out ty me -> run B c = Ok l ->
  ty = OutState \/ (forall d, In d dims -> d <= 10) -> NoDup (map fst l).
Proof.
  intros S L B dims init out ty me ks c l HB H Hw Hr Hd.
  destruct (run_labels L HB H Hw Hr) as [states [H1 [H2 H3]]]. rewrite H1. destruct Hd as [->|Hd].
  - apply FinFun.Injective_map_NoDup; [|exact H3]. intros s t E. injection E as E. exact (tuple_inj _ _ E).
  - exact (shown_NoDup ty Hd H2 H3).
Qed.

(** ** C13 *)
Theorem C13_printed_labels_are_ambiguous :
  forall S (L : scalar_laws S) (B : backend S), supported B -> (sisqrt 12 : S) <> s0 ->
  let calls : list (call S) := [CH 0 None; CCX [0; 1]%Z 1] in
  let go out := simulate B (QList [12; 11]%Z) (Some [0; 10]%Z) out calls in
  exists l, go (Some {| o_base := [12; 11]%Z; o_type := OutState; o_method := OutAmplitude |})
              = Ok (report OutState OutAmplitude l) /\
            go None = Ok (report OutPrint OutAmplitude l) /\
            In ([1; 10], sisqrt 12) l /\ In ([11; 0], sisqrt 12) l /\
            shown OutPrint [1; 10] = LStr "|110>" /\ shown OutPrint [11; 0] = LStr "|110>".
Proof.
  intros S L B HB H0 calls go. unfold go.
  assert (Hl : line [12; 11] [0; 10]).
  { split; [discriminate|]. split; [intros d [<-|[<-|[]]]; lia|]. split; [simpl; lia | repeat constructor]. }
  assert (Ha : asks [12; 11] calls [GH 0; GCX 0 1 1]).
  { split; [constructor; [apply (@den_h S [12; 11] 0); left; reflexivity | constructor; [apply (@den_cx S [12; 11] 0 1) | constructor]]|]. constructor; [simpl; lia|]. constructor; [simpl; lia | constructor]. }
  eexists. split; [eapply (C01_run_applies_gates_in_order S L B [12; 11] [0; 10]); [exact HB | exact Hl | left; reflexivity | exact Ha]|].
  split; [eapply (C01_run_applies_gates_in_order S L B [12; 11] [0; 10]); [exact HB | exact Hl | right; auto | exact Ha]|].
  split; [apply (answer_in L); [repeat constructor; simpl; lia | apply (big_amp L); [repeat constructor; simpl; lia | reflexivity] | exact H0]|].
  split; [apply (answer_in L); [repeat constructor; simpl; lia | apply (big_amp L); [repeat constructor; simpl; lia | reflexivity] | exact H0]|].
  split; reflexivity.
Qed.

(** ** C28: whatever the circuit, the probability output is the amplitude
    output with every number squared, not the squared modulus. *)
Theorem C28_probability_is_the_square :
  forall S (B : backend S) q init base ty ks,
  simulate B q init (Some {| o_base := base; o_type := ty; o_method := OutProbability |}) ks
  = match simulate B q init (Some {| o_base := base; o_type := ty; o_method := OutAmplitude |}) ks with
    | Ok l => Ok (map (fun '(s, a) => (s, smul a a)) l)
    | Err e => Err e
    end.
Proof.
  intros S B q init base ty ks. rewrite simulate_square. destruct (simulate B q init _ ks); reflexivity.
Qed.

(** ** C31 *)
Theorem C31_cx_on_one_register_is_not_reversible :
  forall S (L : scalar_laws S) (B : backend S) dims s r p,
  supported B -> line dims s -> length s = length dims -> r < length dims ->
  (p mod Z.of_nat (nth r dims O) <> 0)%Z ->
  let d := nth r dims 0 in
  let a := put s r (d - 1) in
  let b := put s r (Z.to_nat ((Z.of_nat d - 1 + p) mod Z.of_nat d)) in
  a <> b /\
  forall i, i = a \/ i = b ->
  simulate B (QList (map Z.of_nat dims)) (Some (map Z.of_nat i)) None [CCX [Z.of_nat r; Z.of_nat r] p]
  = Ok [(shown OutPrint b, s1)].
Proof.
  intros S L B dims s r p HB Hl Hs Hr Hp d a b.
  assert (Hd : 2 <= d) by (apply Hl; apply nth_In; exact Hr).
  assert (Hm : (0 <= (Z.of_nat d - 1 + p) mod Z.of_nat d < Z.of_nat d)%Z) by (apply Z.mod_pos_bound; lia).
  assert (Hne : ((Z.of_nat d - 1 + p) mod Z.of_nat d <> Z.of_nat d - 1)%Z).
  { intros E. apply Hp. fold d. pose proof (Z.div_mod (Z.of_nat d - 1 + p) (Z.of_nat d) ltac:(lia)) as E'. rewrite E in E'.
    replace p with ((Z.of_nat d - 1 + p) / Z.of_nat d * Z.of_nat d)%Z by lia. apply Z.mod_mul. lia. }
  assert (Hlv : forall x, level (put s r x) r = x) by (intros x; rewrite level_put by lia; rewrite Nat.eqb_refl; reflexivity).
  split.
  { intros E. apply (f_equal (fun c => level c r)) in E. unfold a, b in E. rewrite !Hlv in E. lia. }
  intros i Hi.
  assert (Hline : line dims i /\ length i = length dims).
  { destruct Hl as [L1 [L2 [L3 L4]]]. assert (Li : length i = length dims) by (destruct Hi as [->| ->]; unfold a, b; rewrite put_length; exact Hs).
    split; [|exact Li]. split; [exact L1|]. split; [exact L2|]. split; [lia|].
    unfold start in *. rewrite Hs, Nat.sub_diag, app_nil_r in L4. rewrite Li, Nat.sub_diag, app_nil_r.
    destruct Hi as [->| ->]; apply valid_put; fold d; auto; lia. }
  destruct Hline as [Hline Li].
  rewrite (C03_cx_fires_at_top_level S L B dims i r r p HB Hline Li Hr Hr). fold d. do 4 f_equal.
  assert (Ha : level a r = d - 1) by apply Hlv.
  assert (Hb : level b r = Z.to_nat ((Z.of_nat d - 1 + p) mod Z.of_nat d)) by apply Hlv.
  destruct Hi as [->| ->].
  - rewrite Ha. destruct (Nat.eq_dec (d - 1) (d - 1)) as [_|N]; [|contradiction].
    unfold a. rewrite put_put. unfold b. do 3 f_equal. lia.
  - rewrite Hb. destruct Nat.eq_dec as [E|_]; [lia | reflexivity].
Qed.

(** ** The hypotheses are met by non-trivial circuits *)
Section Examples.
Open Scope Z_scope.
Let S := Zscalar.
Let calls : list (call S) := [CH 0 None; CX 9 None 1; CX (-1) None 1; CCX [0; 1] 2; CMeasureAll; CX 0 None 1].
Let c (o : option output) : circuit S := after (forced (mk_circuit S (QList [2; 3]) (Some [1]) o)) calls.
Let tuples : option output := Some {| o_base := [2; 3]; o_type := OutState; o_method := OutProbability |}.

(** A history with a rejected call, an ignored call and a call after the
    measurement, printed and as tuples. *)
Example ex_C12 : history (QList (map Z.of_nat [2; 3]%nat)) (Some [1]) None calls (c None) /\
  history (QList (map Z.of_nat [2; 3]%nat)) (Some [1]) tuples calls (c tuples) /\
  wants [2; 3]%nat None OutPrint OutAmplitude /\ wants [2; 3]%nat tuples OutState OutProbability /\
  run (SparseBackend S) (c None) = Ok [(LStr "|00>"%string, 1); (LStr "|12>"%string, -1)] /\
  run (NumpyBackend S) (c tuples) = Ok [(LTup [0; 0], 1); (LTup [1; 2], 1)].
Proof.
  split; [eexists; split; [apply forced_ok; vm_compute; reflexivity | reflexivity]|].
  split; [eexists; split; [apply forced_ok; vm_compute; reflexivity | reflexivity]|].
  split; [right; auto|]. split; [left; reflexivity|]. split; vm_compute; reflexivity.
Qed.

(** The guard of C13 holds over the integers, where the H matrix is not scaled. *)
Example ex_C13 : (sisqrt 12 : S) <> s0. Proof. discriminate. Qed.

Example ex_C28 :
  simulate (NumpyBackend S) (QList [2]) (Some [1]) (Some {| o_base := [2]; o_type := OutState; o_method := OutAmplitude |}) [CH 0 None]
  = Ok [(LTup [0], 1); (LTup [1], -1)] /\
  simulate (NumpyBackend S) (QList [2]) (Some [1]) (Some {| o_base := [2]; o_type := OutState; o_method := OutProbability |}) [CH 0 None]
  = Ok [(LTup [0], 1); (LTup [1], 1)].
Proof. split; vm_compute; reflexivity. Qed.

Example ex_C31 : line [2; 3]%nat [1; 0]%nat /\ 1 mod Z.of_nat (nth 1 [2; 3]%nat O) <> 0 /\
  simulate (NumpyBackend S) (QList [2; 3]) (Some [1; 2]) None [CCX [1; 1] 1] = Ok [(LStr "|10>"%string, 1)] /\
  simulate (NumpyBackend S) (QList [2; 3]) (Some [1; 0]) None [CCX [1; 1] 1] = Ok [(LStr "|10>"%string, 1)].
Proof.
  split; [|split; [discriminate | split; vm_compute; reflexivity]].
  split; [discriminate|]. split; [intros d [<-|[<-|[]]]; lia|]. split; [simpl; lia | repeat constructor].
Qed.
End Examples.

Print Assumptions C12_labels_are_basis_states.
Print Assumptions C12_labels_are_distinct.
Print Assumptions C13_printed_labels_are_ambiguous.
Print Assumptions C28_probability_is_the_square.
Print Assumptions C31_cx_on_one_register_is_not_reversible.
