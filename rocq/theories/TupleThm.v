(** * TupleThm: tuple circuits and list circuits. *)
From Coq Require Import String.
From Verif Require Import Py Scalar Mat Utils Gates Circuit Spec Calls HistSpec Info InfoSpec Draw Lib Kern GateMat Flow Layers Refine Run History Construct Convert InfoLib DrawSpec DrawLib DrawFailSpec DrawFail Merge Errors Blocks GateTof Ignored BadGates Tuple.
Set Implicit Arguments.
Local Notation length := List.length.

Section TupleThm.
Variable S : scalar.
Notation circuit := (circuit S).
Notation call := (call S).

Lemma mk_tuple : forall (n d : nat) init out,
  mk_circuit S (QTuple [Z.of_nat n; Z.of_nat d]) init out
  = match mk_circuit S (QList (map Z.of_nat (repeat d n))) init
            (Some match out with Some o => o | None => {| o_base := [Z.of_nat n; Z.of_nat d]; o_type := OutPrint; o_method := OutAmplitude |} end) with
    | Ok c => Ok (with_qregs (QTuple [Z.of_nat n; Z.of_nat d]) c)
    | Err e => Err e
    end.
Proof.
  intros n d init out. unfold mk_circuit, reg_layout.
  change (py_get [Z.of_nat n; Z.of_nat d] 0) with (Ok (Z.of_nat n)).
  change (py_get [Z.of_nat n; Z.of_nat d] 1) with (Ok (Z.of_nat d)). cbn [bind].
  assert (Er : zrepeat (Z.of_nat n) (Z.of_nat d) = map Z.of_nat (repeat d n)).
  { unfold zrepeat. rewrite Nat2Z.id. symmetry. apply map_repeat. }
  rewrite Er, map_length, repeat_length.
  destruct (initialize_states _ _ _) as [f|e]; [|reflexivity]. destruct out; reflexivity.
Qed.

Lemma run_qregs : forall (B : backend S) q (c : circuit), run B (with_qregs q c) = run B c.
Proof. reflexivity. Qed.

Lemma simulate_tuple : forall (B : backend S) (n d : nat) init out ks, existsb (@is_toffoli S) ks = false ->
  simulate B (QTuple [Z.of_nat n; Z.of_nat d]) init out ks
  = simulate B (QList (map Z.of_nat (repeat d n))) init
      (Some match out with Some o => o | None => {| o_base := [Z.of_nat n; Z.of_nat d]; o_type := OutPrint; o_method := OutAmplitude |} end) ks.
Proof.
  intros B n d init out ks Hk. unfold simulate. rewrite mk_tuple.
  destruct (mk_circuit S (QList (map Z.of_nat (repeat d n))) init _) as [c|e]; [|reflexivity]. cbn [bind].
  assert (Hk' : existsb (@is_toffoli S) (ks ++ [CMeasureAll]) = false) by (rewrite existsb_app, Hk; reflexivity).
  rewrite script_qregs by exact Hk'. destruct (script c _) as [c'|e]; [|reflexivity]. cbn [bind]. apply run_qregs.
Qed.

Lemma step_qregs : forall q (c : circuit) k, is_toffoli k = false -> step (with_qregs q c) k = with_qregs q (step c k).
Proof. intros q c k Hk. unfold step. rewrite api_qregs by exact Hk. destruct (api c k) as [[c' b]|e]; reflexivity. Qed.

Lemma after_with : forall q ks (c : circuit), existsb (@is_toffoli S) ks = false -> after (with_qregs q c) ks = with_qregs q (after c ks).
Proof.
  intros q ks; induction ks as [|k ks IH]; intros c H; [reflexivity|]. cbn [existsb] in H. apply orb_false_iff in H as [H1 H2].
  unfold after in *. cbn [fold_left]. rewrite step_qregs by exact H1. apply IH; exact H2.
Qed.

Lemma history_tuple : forall (n d : nat) init out ks (c : circuit), existsb (@is_toffoli S) ks = false ->
  history (QTuple [Z.of_nat n; Z.of_nat d]) init out ks c ->
  exists c', history (QList (map Z.of_nat (repeat d n))) init
      (Some match out with Some o => o | None => {| o_base := [Z.of_nat n; Z.of_nat d]; o_type := OutPrint; o_method := OutAmplitude |} end) ks c' /\
    c = with_qregs (QTuple [Z.of_nat n; Z.of_nat d]) c'.
Proof.
  intros n d init out ks c Hk [c0 [E ->]]. rewrite mk_tuple in E.
  destruct (mk_circuit S (QList (map Z.of_nat (repeat d n))) init _) as [c1|e] eqn:E1; [|discriminate]. injection E as <-.
  exists (after c1 ks). split; [exists c1; auto|]. apply after_with. exact Hk.
Qed.

(** ** Drawing *)
Lemma str_two : forall (d : nat) (c : circuit), c_qregs c = QList (map Z.of_nat (repeat d 2)) ->
  (exists e, circuit_str c = Err e /\ circuit_str (with_qregs (QTuple [2; Z.of_nat d]%Z) c) = Err e) \/
  exists t, circuit_str c = Ok (t ++ "2")%string /\
    circuit_str (with_qregs (QTuple [2; Z.of_nat d]%Z) c) = Ok (t ++ "(2, " ++ str_of_Z (Z.of_nat d) ++ ")")%string.
Proof.
  intros d c Eq. unfold circuit_str, get_circuit_config, config_width. rewrite Eq. cbn [with_qregs c_flow c_qregs qregs_list].
  destruct (py_get (f_list (c_flow c)) (-1)) as [final|e]; [|left; exists e; split; reflexivity]. cbn [bind].
  change (length (map Z.of_nat (repeat d 2))) with 2. change (length [2; Z.of_nat d]%Z) with 2.
  match goal with |- context [draw_layers ?M ?f] => destruct (draw_layers M f) as [m|e] end; [|left; exists e; split; reflexivity].
  cbn [bind width_text]. right.
  match goal with |- exists t, Ok (?a ++ ?b ++ ?x ++ ?y ++ ?z ++ _)%string = _ /\ _ => exists (a ++ b ++ x ++ y ++ z)%string end.
  change (str_of_Z (Z.of_nat 2)) with "2"%string.
  assert (As : forall a b z, ((a ++ b) ++ z = a ++ (b ++ z))%string) by (intros a b z; induction a; cbn; congruence).
  split; [rewrite !As; reflexivity|]. rewrite !As. reflexivity.
Qed.

Lemma draw_init_rows : forall n w j (l : list (op S)) M, shape M n w -> j < w ->
  forallb (@is_init S) l = true -> (exists o, In o l /\ (Z.of_nat n <= qreg_of o)%Z) ->
  fold_left (fun acc o => m <- acc ;; draw_op j m o) l (Ok M) = Err IndexError.
Proof.
  intros n w j l; induction l as [|o l IH]; intros M HM Hj Hi [x [Hx Hb]]; [contradiction|].
  cbn [forallb] in Hi. apply andb_true_iff in Hi as [Hi1 Hi2]. cbn [fold_left bind]. destruct o; try discriminate.
  unfold draw_op at 2. cbn [op_cells bind]. unfold set_cells. cbn [fold_left bind].
  match goal with |- context [set_cell j M qreg ?s] => pose proof (@set_cell_any M n w qreg j s HM Hj) as E end.
  destruct (names_row n qreg) eqn:En.
  - destruct E as [M1 [E1 H1]]. rewrite E1. apply (IH M1 H1 Hj Hi2). exists x. split; [|exact Hb].
    destruct Hx as [<-|Hx]; [|exact Hx]. cbn [qreg_of] in Hb. apply names_row_spec in En. lia.
  - rewrite E. apply fold_ops_err.
Qed.

Theorem str_short : forall l init out ks (c : circuit), history (QTuple l) init out ks c -> length l < nregs (QTuple l) ->
  circuit_str c = Err IndexError.
Proof.
  intros l init out ks c H Hlt. destruct (history_minv H) as [l0 [ls I]]. pose proof (proj1 I) as I1.
  unfold circuit_str. rewrite (minv_config I), (history_qregs H). cbn [bind qregs_list].
  set (w := length ls + 2). replace (Z.to_nat (Z.of_nat (length ls) + 2)) with w by (unfold w; lia).
  set (n := length l) in *.
  assert (HM0 : shape (repeat (repeat None w) n) n w).
  { split; [apply repeat_length|]. intros r Hr. rewrite nth_repeat_lt by exact Hr. apply repeat_length. }
  pose proof (i_list I1) as EL. unfold layers in EL. destruct (f_list (c_flow c)) as [|m0 ms]; [discriminate|]. cbn [map] in EL. injection EL as E0 _.
  unfold draw_layers. cbn [length seq combine fold_left bind].
  rewrite (@draw_init_rows n w 0 (m_list m0) _ HM0 ltac:(unfold w; lia)).
  - rewrite layers_err. reflexivity.
  - rewrite E0. apply (i_m0 I1).
  - destruct (i_m0 I1) as [_ B]. rewrite <- E0 in B.
    assert (Hin : In (Z.of_nat n) (map (@qreg_of S) (m_list m0))) by (rewrite B; apply in_map, in_seq; lia).
    apply in_map_iff in Hin as [o [Eo Ho]]. exists o. split; [exact Ho | lia].
Qed.

(** The figure has a wire per entry of the tuple. *)
Lemma figure_wires : forall q (c : circuit) f, draw_circuit_mpl (with_qregs q c) = Ok f ->
  exists n states marks, draw_circuit_mpl c = Ok (n, states, marks) /\ f = (length (qregs_list q), states, marks).
Proof.
  intros q c f H. unfold draw_circuit_mpl in *. cbn [with_qregs c_flow c_qregs] in H.
  apply bind_ok in H as [x1 [E1 H]]. apply bind_ok in H as [x2 [E2 H]]. apply bind_ok in H as [st [E3 H]]. apply bind_ok in H as [mk [E4 H]].
  injection H as <-. rewrite E1. cbn [bind]. rewrite E2. cbn [bind]. rewrite E3. cbn [bind]. rewrite E4. cbn [bind]. eauto 8.
Qed.

(** ** toffoli *)
Lemma tuple_dims : forall (n d : nat) init out ks (c : circuit), history (QTuple [Z.of_nat n; Z.of_nat d]) init out ks c -> 0 < n -> 2 <= d.
Proof.
  intros n d init out ks c [c0 [E _]] Hn. rewrite mk_tuple in E.
  destruct (mk_circuit S (QList (map Z.of_nat (repeat d n))) init _) as [c1|e] eqn:E1; [|discriminate].
  assert (2 <= Z.of_nat d)%Z; [|lia].
  apply (@history_dims2 S _ _ _ [] c1 (ex_intro _ c1 (conj E1 eq_refl))). apply in_map. destruct n; [lia|]. left; reflexivity.
Qed.

Theorem tuple_toffoli_pair : forall (n d : nat) init out ks (c : circuit) cs t p,
  history (QTuple [Z.of_nat n; Z.of_nat d]) init out ks c -> 0 < n -> ~ In CMeasureAll ks ->
  (forall r, In r (t :: cs) -> r = 0 \/ r = 1) -> In 0 (t :: cs) -> In 1 (t :: cs) ->
  exists c', api c (CTof (map Z.of_nat cs) (Z.of_nat t) p) = Ok (c', true) /\ never_runs c'.
Proof.
  intros n d init out ks c cs t p H Hn Hm Hr H0 H1. pose proof (@tuple_dims n d init out ks c H Hn) as Hd.
  destruct (@mk_toffoli_spec S [n; d] cs t p 0 1) as [u [E _]].
  - intros x Hx. apply in_snoc_cons in Hx. destruct (Hr x Hx); lia.
  - apply in_snoc_cons; exact H0.
  - apply in_snoc_cons; exact H1.
  - simpl; lia.
  - intros x [<-|[<-|[]]]; lia.
  - cbn [sub Nat.sub Nat.add skipn firstn seq map] in E.
    assert (Nr : nregs (QTuple [Z.of_nat n; Z.of_nat d]) = n) by (cbn; lia).
    eapply (@poison S (QTuple [Z.of_nat n; Z.of_nat d]) init out ks c _ _ (if is_unitary u then AssertionError else PlainException)); [exact H | rewrite Nr; exact Hn | exact Hm | | | ].
    + constructor. rewrite (history_qregs H). exact E.
    + rewrite Nr. apply (@occupies_in S n _ 0%Z 1%Z 0).
      * change 0%Z with (Z.of_nat 0). cbn [registers]. change (In (Z.of_nat 0) (map Z.of_nat (t :: cs))). apply in_map; exact H0.
      * change 1%Z with (Z.of_nat 1). cbn [registers]. change (In (Z.of_nat 1) (map Z.of_nat (t :: cs))). apply in_map; exact H1.
      * lia.
      * lia.
    + cbn [unitary]. unfold arb_unitary. destruct (is_unitary u); reflexivity.
Qed.
End TupleThm.
