(** * Props_Tuple: circuits built from a tuple (n, d) (C110). *)
From Coq Require Import List Arith ZArith Lia Bool String.
From Verif Require Import Py Scalar Mat Utils Gates Circuit Spec Calls HistSpec Info InfoSpec Draw DrawSpec Run TupleThm ExLib.
Import ListNotations.
Local Notation length := List.length.

(** The output a circuit has if none is given. *)
Definition default_output (base : list Z) : output := {| o_base := base; o_type := OutPrint; o_method := OutAmplitude |}.

(** ** C110: without toffoli, a tuple circuit is the list circuit. *)
Theorem C110_same_results_as_the_list :
  forall S (B : backend S) (n d : nat) init o ks, existsb (@is_toffoli S) ks = false ->
  simulate B (QTuple [Z.of_nat n; Z.of_nat d]) init (Some o) ks = simulate B (QList (repeat (Z.of_nat d) n)) init (Some o) ks /\
  simulate B (QTuple [Z.of_nat n; Z.of_nat d]) init None ks
    = simulate B (QList (repeat (Z.of_nat d) n)) init (Some (default_output [Z.of_nat n; Z.of_nat d])) ks.
Proof.
  intros S B n d init o ks Hk. rewrite <- (map_repeat Z.of_nat).
  split; [rewrite (simulate_tuple B n d init (Some o) ks Hk) | rewrite (simulate_tuple B n d init None ks Hk)]; reflexivity.
Qed.

(** Every call is answered in the same way, the layers are the same, and so is
    what run() gives at any time. *)
Theorem C110_same_answers_as_the_list :
  forall S (n d : nat) init o ks (c : circuit S), existsb (@is_toffoli S) ks = false ->
  history (QTuple [Z.of_nat n; Z.of_nat d]) init (Some o) ks c ->
  exists c', history (QList (repeat (Z.of_nat d) n)) init (Some o) ks c' /\
    layers_of c = layers_of c' /\ (forall k, is_toffoli k = false -> flag (api c k) = flag (api c' k)) /\
    forall B : backend S, run B c = run B c'.
Proof.
  intros S n d init o ks c Hk H. destruct (history_tuple n d Hk H) as [c' [H' ->]]. rewrite <- (map_repeat Z.of_nat).
  exists c'. split; [exact H'|]. split; [reflexivity|]. split; [|reflexivity].
  intros k Hk'. rewrite (Tuple.api_qregs _ _ _ Hk'). destruct (api c' k) as [[c2 b]|e]; reflexivity.
Qed.

(** It cannot be printed, though, if there are more registers than entries in
    the tuple: str() and draw() raise IndexError, whatever was called before. *)
Theorem C110_more_registers_than_entries_cannot_be_printed :
  forall S l init out ks (c : circuit S), history (QTuple l) init out ks c -> length l < nregs (QTuple l) ->
  circuit_str c = Err IndexError.
Proof. exact str_short. Qed.

(** For two registers the text is that of the list circuit except for the
    width at its end. *)
Theorem C110_two_registers_are_printed :
  forall S (d : nat) init o ks (c : circuit S), existsb (@is_toffoli S) ks = false ->
  history (QTuple [2; Z.of_nat d]%Z) init (Some o) ks c ->
  exists c', history (QList (repeat (Z.of_nat d) 2)) init (Some o) ks c' /\
  ((exists e, circuit_str c' = Err e /\ circuit_str c = Err e) \/
   exists t, circuit_str c' = Ok (t ++ "2")%string /\ circuit_str c = Ok (t ++ "(2, " ++ str_of_Z (Z.of_nat d) ++ ")")%string).
Proof.
  intros S d init o ks c Hk H. destruct (@history_tuple S 2 d init (Some o) ks c Hk H) as [c' [H' ->]].
  exists c'. split; [exact H'|]. exact (@str_two S d c' (InfoLib.history_qregs H')).
Qed.

(** The figure has two wires, whatever the number of registers; everything
    else in it is as for the list. *)
Theorem C110_figures_have_two_wires :
  forall S (n d : nat) init o ks (c : circuit S) wires states marks, existsb (@is_toffoli S) ks = false ->
  history (QTuple [Z.of_nat n; Z.of_nat d]) init (Some o) ks c -> draw_circuit_mpl c = Ok (wires, states, marks) ->
  wires = 2 /\ exists c', history (QList (repeat (Z.of_nat d) n)) init (Some o) ks c' /\ draw_circuit_mpl c' = Ok (n, states, marks).
Proof.
  intros S n d init o ks c wires states marks Hk H E. destruct (history_tuple n d Hk H) as [c' [H' ->]].
  destruct (figure_wires _ _ E) as [m [st [mk [E' X]]]]. injection X as -> -> ->. split; [reflexivity|]. rewrite <- (map_repeat Z.of_nat).
  exists c'. split; [exact H'|]. rewrite E'. do 3 f_equal.
  unfold draw_circuit_mpl in E'. destruct (py_get _ 1); [|discriminate]. cbn [bind] in E'. destruct (py_get _ 0); [|discriminate]. cbn [bind] in E'.
  destruct (mapM _ _); [|discriminate]. cbn [bind] in E'. destruct (mapM _ _); [|discriminate]. injection E' as <- _ _.
  rewrite (InfoLib.history_qregs H'). cbn [qregs_list]. rewrite map_length, repeat_length. reflexivity.
Qed.

(** toffoli with two different registers never works on a tuple circuit: the
    call raises IndexError if one of them is past register 1, and otherwise it is
    accepted but run() raises, whatever is called afterwards. *)
Theorem C110_no_toffoli_with_a_control :
  forall S (n d : nat) init out ks (c : circuit S) cs t p r r', history (QTuple [Z.of_nat n; Z.of_nat d]) init out ks c ->
  0 < n -> ~ In CMeasureAll ks -> In r (t :: cs) -> In r' (t :: cs) -> r <> r' ->
  api c (CTof (map Z.of_nat cs) (Z.of_nat t) p) = Err IndexError \/
  exists c', api c (CTof (map Z.of_nat cs) (Z.of_nat t) p) = Ok (c', true) /\ forall (B : backend S) ks', exists e, run B (after c' ks') = Err e.
Proof.
  intros S n d init out ks c cs t p r r' H Hn Hm Hr Hr' Hne.
  destruct (existsb (fun x => 2 <=? x) (t :: cs)) eqn:E.
  - left. apply existsb_exists in E as [x [Hx E]]. apply Nat.leb_le in E.
    apply (@Tuple.tuple_toffoli S _ _ _ _ _ _ (map Z.of_nat cs) (Z.of_nat t) p H). exists (Z.of_nat x). split; [|lia].
    change (In (Z.of_nat x) (map Z.of_nat (t :: cs))). apply in_map. exact Hx.
  - right. assert (A : forall x, In x (t :: cs) -> x = 0 \/ x = 1).
    { intros x Hx. destruct (Nat.le_gt_cases 2 x) as [Hb|Hb]; [|lia]. exfalso.
      assert (X : existsb (fun x => 2 <=? x) (t :: cs) = true) by (apply existsb_exists; exists x; split; [exact Hx | apply Nat.leb_le; exact Hb]). congruence. }
    destruct (A r Hr) as [->| ->], (A r' Hr') as [->| ->]; try congruence; apply (@tuple_toffoli_pair S n d init out ks c cs t p H Hn Hm A); assumption.
Qed.

(** ** Concrete cases *)
Section Examples.
Open Scope Z_scope.
Let S := Zscalar.
Let o : output := default_output [2; 2; 2].
Let on (l : list Z) (ks : list (call S)) : circuit S := after (forced (mk_circuit S (QTuple l) None (Some o))) ks.

Example ex_C110_history : forall ks, history (QTuple [3; 2]) None (Some o) ks (on [3; 2] ks).
Proof. intros ks. eexists. split; [apply forced_ok; vm_compute; reflexivity | reflexivity]. Qed.

Example ex_C110 :
  simulate (NumpyBackend S) (QTuple [3; 2]) None (Some o) [CX 0 None 1; CCX [0; 2] 1] = Ok [(LStr "|101>"%string, 1)] /\
  simulate (NumpyBackend S) (QTuple [3; 2]) None None [CX 0 None 1; CCX [0; 2] 1] = Ok [(LStr "|21>"%string, 1)] /\
  circuit_str (on [3; 2] [CX 0 None 1; CCX [0; 2] 1]) = Err IndexError /\
  (length [3; 2]%Z < nregs (QTuple [3; 2]%Z))%nat.
Proof. vm_compute. repeat split; repeat constructor. Qed.

Example ex_C110_two :
  circuit_str (on [2; 2] [CX 0 None 1]) =
  Ok (String.concat DrawSpec.newline ["(2)|0>-X(1)-----"; "(2)|0>----------"; ""; "depth: 1, width: (2, 2)"])%string.
Proof. vm_compute. reflexivity. Qed.

(** With one register there is an empty row. *)
Example ex_C110_one :
  circuit_str (on [1; 3] [CX 0 None 1]) =
  Ok (String.concat DrawSpec.newline ["(3)|0>-X(1)-----"; "---------------"; ""; "depth: 1, width: (1, 3)"])%string.
Proof. vm_compute. reflexivity. Qed.

Example ex_C110_figure : exists states marks, draw_circuit_mpl (on [3; 2] [CX 0 None 1]) = Ok (2%nat, states, marks) /\ length states = 3%nat.
Proof. eexists. eexists. vm_compute. split; reflexivity. Qed.

Example ex_C110_toffoli :
  flag (api (on [3; 2] [CX 0 None 1]) (CTof [0; 1] 2 1)) = Err IndexError /\
  flag (api (on [3; 2] [CX 0 None 1]) (CTof [0] 1 1)) = Ok true /\
  flag (api (on [2; 2] [CX 0 None 1]) (CTof [0] 1 1)) = Ok true /\
  match run (NumpyBackend S) (on [2; 2] [CX 0 None 1; CTof [0] 1 1; CMeasureAll]) with Ok _ => False | Err e => e = AssertionError end.
Proof. vm_compute. repeat split. Qed.
End Examples.

Print Assumptions C110_same_results_as_the_list.
Print Assumptions C110_same_answers_as_the_list.
Print Assumptions C110_more_registers_than_entries_cannot_be_printed.
Print Assumptions C110_two_registers_are_printed.
Print Assumptions C110_figures_have_two_wires.
Print Assumptions C110_no_toffoli_with_a_control.
