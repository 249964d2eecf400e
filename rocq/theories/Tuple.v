(** * Tuple: circuits built from a tuple (n, d). *)
From Coq Require Import String.
From Verif Require Import Py Scalar Mat Utils Gates Circuit Spec Calls HistSpec Lib Kern Flow Refine Run BackendEq Reversible History Construct Convert.
Set Implicit Arguments.
Local Notation length := List.length.

Section Tuple.
Variable S : scalar.
Variable L : scalar_laws S.
Notation circuit := (circuit S).
Notation call := (call S).
Notation NB := (NumpyBackend S).

Definition with_qregs (q : qregs) (c : circuit) : circuit :=
  {| c_qregs := q; c_init := c_init c; c_len := c_len c; c_dims := c_dims c; c_out := c_out c; c_flow := c_flow c |}.

Lemma api_qregs : forall q (c : circuit) k, is_toffoli k = false ->
  api (with_qregs q c) k = match api c k with Ok (c', b) => Ok (with_qregs q c', b) | Err e => Err e end.
Proof.
  intros q c k Hk.
  assert (A : forall r g, add_moment (with_qregs q c) r g
    = match add_moment c r g with Ok (c', b) => Ok (with_qregs q c', b) | Err e => Err e end).
  { intros r g. unfold add_moment. change (moment_data (with_qregs q c) r g) with (moment_data c r g).
    destruct (moment_data c r g); [|reflexivity]. cbn [bind with_qregs c_flow].
    destruct (populate_opflow _ _) as [[f b]|e]; reflexivity. }
  destruct k as [r dm|r dm p|r dm|a p|cs t p|u r dm|r|]; cbn [api]; try discriminate;
    try change (validate1 (with_qregs q c)) with (validate1 c);
    try change (validate (with_qregs q c)) with (validate c);
    try change (dims_or (with_qregs q c)) with (dims_or c);
    try change (c_dims (with_qregs q c)) with (c_dims c).
  1-3: destruct (validate1 c r dm); [|reflexivity]; cbn [bind]; destruct (dims_or c dm r); [|reflexivity]; cbn [bind]; apply A.
  - destruct (py_get a 0); [|reflexivity]. cbn [bind]. destruct (py_get a 1); [|reflexivity]. cbn [bind]. apply A.
  - destruct (validate c r dm); [|reflexivity]. cbn [bind].
    match goal with |- bind ?x _ = _ => destruct x end; [|reflexivity]. cbn [bind]. apply A.
  - reflexivity.
  - cbn [with_qregs c_flow c_len]. destruct (populate_opflow _ _) as [[f b]|e]; reflexivity.
Qed.

Lemma script_qregs : forall q ks (c : circuit), existsb (@is_toffoli S) ks = false ->
  script (with_qregs q c) ks = match script c ks with Ok c' => Ok (with_qregs q c') | Err e => Err e end.
Proof.
  intros q ks; induction ks as [|k ks IH]; intros c H; [reflexivity|]. cbn [script]. cbn [existsb] in H.
  apply orb_false_iff in H as [H1 H2]. rewrite api_qregs by exact H1.
  destruct (api c k) as [[c' b]|e]; [|reflexivity]. cbn [bind]. apply IH; exact H2.
Qed.

(** A tuple circuit behaves like the list circuit on [n] registers of
    dimension [d], except that its labels are written in the base (n, d). *)
Theorem tuple_as_list : forall (B : backend S) (n d : nat) init ks, existsb (@is_toffoli S) ks = false ->
  simulate B (QTuple [Z.of_nat n; Z.of_nat d]) init None ks
  = simulate B (QList (map Z.of_nat (repeat d n))) init
      (Some {| o_base := [Z.of_nat n; Z.of_nat d]; o_type := OutPrint; o_method := OutAmplitude |}) ks.
Proof.
  intros B n d init ks Hk. unfold simulate, mk_circuit, reg_layout.
  assert (Er : zrepeat (Z.of_nat n) (Z.of_nat d) = map Z.of_nat (repeat d n)).
  { unfold zrepeat. rewrite Nat2Z.id. symmetry. apply map_repeat. }
  assert (El : Z.of_nat (length (map Z.of_nat (repeat d n))) = Z.of_nat n).
  { rewrite map_length, repeat_length. reflexivity. }
  change (py_get [Z.of_nat n; Z.of_nat d] 0) with (Ok (Z.of_nat n)).
  change (py_get [Z.of_nat n; Z.of_nat d] 1) with (Ok (Z.of_nat d)).
  cbn [bind]. rewrite Er, El.
  destruct (initialize_states _ _) as [f|e]; [|reflexivity]. cbn [bind].
  match goal with |- context [script ?c1 _] =>
    match goal with |- _ = bind (script ?c2 _) _ => change c1 with (with_qregs (QTuple [Z.of_nat n; Z.of_nat d]) c2) end end.
  rewrite script_qregs.
  - destruct (script _ _) as [c|e]; reflexivity.
  - rewrite existsb_app, Hk. reflexivity.
Qed.

Lemma simulate_sup : forall (B : backend S) q init out ks, B = NB \/ B = SparseBackend S ->
  simulate B q init out ks = simulate NB q init out ks.
Proof. intros B q init out ks [->| ->]; [reflexivity | symmetry; apply (simulate_backends L)]. Qed.

(** What a tuple circuit reports, in terms of the state it computes. *)
Theorem tuple_labels : forall (n d : nat) ks prog, 0 < n -> 2 <= d ->
  existsb (@is_toffoli S) ks = false ->
  Forall2 (denotes (repeat d n)) ks prog -> Forall (gate_ok (repeat d n)) prog ->
  simulate NB (QTuple [Z.of_nat n; Z.of_nat d]) (Some []) None ks
  = labelled S (repeat d n) {| o_base := [Z.of_nat n; Z.of_nat d]; o_type := OutPrint; o_method := OutAmplitude |}
      (answer (repeat d n) (final (repeat d n) prog (basis S (repeat 0 n)))).
Proof.
  intros n d ks prog Hn Hd Hk HF Hok. rewrite tuple_as_list by exact Hk.
  assert (E : start (repeat d n) [] = repeat 0 n) by (unfold start; simpl; rewrite repeat_length, Nat.sub_0_r; reflexivity).
  change (Some []) with (Some (map Z.of_nat [])).
  rewrite (@simulate_any S L (repeat d n) [] _ ks prog).
  - rewrite E. reflexivity.
  - destruct n; [lia | discriminate].
  - intros x Hx. apply repeat_spec in Hx. lia.
  - simpl; lia.
  - rewrite E. clear - Hd. induction n; simpl; constructor; [lia | assumption].
  - exact HF.
  - exact Hok.
Qed.

Lemma lin_repeat0 : forall d n, lin (repeat d n) (repeat 0 n) = 0.
Proof. intros d n; induction n; simpl; [reflexivity|]. rewrite IHn. lia. Qed.

Lemma valid_repeat0 : forall d n, 0 < d -> valid (repeat d n) (repeat 0 n).
Proof. intros d n Hd; induction n; simpl; constructor; auto. Qed.

(** The measured empty circuit: label |00> whatever the number of registers. *)
Theorem tuple_empty : forall (n d : nat), 0 < n -> 2 <= d ->
  simulate NB (QTuple [Z.of_nat n; Z.of_nat d]) (Some []) None [] = Ok [(LStr "|00>"%string, s1)].
Proof.
  intros n d Hn Hd. rewrite (@tuple_labels n d [] []); try constructor; auto.
  simpl final. rewrite (answer_basis L) by (apply valid_repeat0; lia).
  unfold labelled. cbn [mapM o_base o_type o_method reported]. rewrite lin_repeat0.
  change (Nbase_to_bin (Z.of_nat 0) [Z.of_nat n; Z.of_nat d]) with (Ok [0%Z; 0%Z]). reflexivity.
Qed.

(** An outcome whose index does not fit the base (n, d) makes run raise: x on
    the first of four or more registers. *)
Theorem tuple_overflow : forall (n d : nat), 2 <= d -> n <= d ^ (n - 2) -> 3 <= n ->
  simulate NB (QTuple [Z.of_nat n; Z.of_nat d]) (Some []) None [CX 0 None 1] = Err IndexError.
Proof.
  intros n d Hd Hnd Hn.
  rewrite (@tuple_labels n d [CX 0 None 1] [GX 0 1]); auto; try lia.
  - assert (Hr : nth 0 (repeat d n) 0 = d) by (destruct n; [lia | reflexivity]).
    assert (E : answer (repeat d n) (final (repeat d n) [GX 0 1] (basis S (repeat 0 n)))
                = [(1 :: repeat 0 (n - 1), s1)]).
    { assert (Hv1 : valid (repeat d n) (1 :: repeat 0 (n - 1))).
      { destruct n as [|n]; [lia|]. simpl. rewrite Nat.sub_0_r. constructor; [lia | apply valid_repeat0; lia]. }
      refine (eq_trans _ (answer_basis L Hv1)). apply answer_ext. intros s Hs.
      destruct (@final_reversible S L (repeat d n) [GX 0 1] (repeat 0 n)) as [E _]; auto.
      - constructor; [|constructor]. simpl. rewrite repeat_length. rewrite Hr. lia.
      - apply valid_repeat0; lia.
      - rewrite E by exact Hs. f_equal.
        unfold moves, move, move_x, shift. rewrite Hr. destruct n as [|n']; [lia|].
        cbn [repeat level nth put]. replace (Datatypes.S n' - 1) with n' by lia.
        f_equal. change (Z.of_nat (level (0 :: repeat 0 n') 0)) with 0%Z. rewrite Z.mod_small by lia. reflexivity. }
    rewrite E. unfold labelled. cbn [mapM]. cbn [o_base].
    assert (Ev : lin (repeat d n) (1 :: repeat 0 (n - 1)) = d ^ (n - 1)).
    { destruct n as [|n]; [lia|]. cbn [repeat lin]. rewrite Nat.sub_succ, Nat.sub_0_r, lin_repeat0.
      rewrite Nat.mul_1_l, Nat.add_0_r. clear. induction n as [|n IH]; [reflexivity|].
      cbn [repeat]. rewrite prodn_cons, IH. reflexivity. }
    rewrite Ev. rewrite nbase_big; [reflexivity | | ].
    + intros b [<-|[<-|[]]]; lia.
    + cbn [map fold_right zprod]. replace (n - 1) with (Datatypes.S (n - 2)) by lia.
      rewrite Nat.pow_succ_r'. nia.
  - constructor; [|constructor]. apply (@den_x S (repeat d n) 0 None 1%Z). left; reflexivity.
  - constructor; [|constructor]. simpl. rewrite repeat_length. destruct n; [lia|]. simpl nth. lia.
Qed.

Lemma str_app_assoc : forall a b c : string, ((a ++ b) ++ c = a ++ (b ++ c))%string.
Proof. intros a b c; induction a; simpl; congruence. Qed.

(** The number spelled by the digits [s] in base [d]. *)
Definition in_base (d : nat) (s : list nat) : nat := fold_left (fun a x => a * d + x) s 0.

Lemma in_base_lin : forall d n s, length s = n -> in_base d s = lin (repeat d n) s.
Proof.
  intros d n s Hn. unfold in_base.
  assert (G : forall s n a, length s = n -> fold_left (fun a x => a * d + x) s a = a * prodn (repeat d n) + lin (repeat d n) s).
  { clear. induction s as [|x s IH]; intros n a <-; [cbn; change (prodn []) with 1; lia|]. cbn [length repeat fold_left lin].
    rewrite (IH (length s)) by reflexivity. rewrite prodn_cons. ring. }
  rewrite (G s n 0 Hn). reflexivity.
Qed.

(** Every classical program on a tuple circuit, toffolis excepted: the outcome
    is labelled with the two digits of its index in base (n, d), if it has
    two. *)
Theorem tuple_reversible : forall (n d : nat) ks prog, 0 < n -> 2 <= d ->
  existsb (@is_toffoli S) ks = false ->
  Forall2 (denotes (repeat d n)) ks prog -> Forall (gate_ok (repeat d n)) prog ->
  forallb (@is_classical S) prog = true ->
  let v := in_base d (moves (repeat d n) prog (repeat 0 n)) in
  simulate NB (QTuple [Z.of_nat n; Z.of_nat d]) (Some []) None ks
  = if v <? n * d
    then Ok [(LStr ("|" ++ str_of_Z (Z.of_nat (v / d)) ++ str_of_Z (Z.of_nat (v mod d)) ++ ">")%string, s1)]
    else Err IndexError.
Proof.
  intros n d ks prog Hn Hd Hk HF Hok Hr v. rewrite (@tuple_labels n d ks prog) by assumption.
  destruct (final_reversible L Hr Hok (@valid_repeat0 d n ltac:(lia))) as [E Hv].
  rewrite (answer_ext S _ _ E).
  assert (Ea : answer (repeat d n) (basis S (moves (repeat d n) prog (repeat 0 n))) = [(moves (repeat d n) prog (repeat 0 n), s1)])
    by exact (answer_basis L Hv).
  rewrite Ea. unfold labelled. cbn [mapM o_base o_type o_method reported].
  assert (Hlen : length (moves (repeat d n) prog (repeat 0 n)) = n).
  { rewrite (valid_length Hv). apply repeat_length. }
  rewrite <- (@in_base_lin d n _ Hlen). fold v.
  destruct (Nat.ltb_spec v (n * d)) as [Hlt|Hge].
  - assert (Hb : v = v / d * d + v mod d) by (rewrite Nat.mul_comm; apply Nat.div_mod; lia).
    assert (Hm : v mod d < d) by (apply Nat.mod_upper_bound; lia).
    assert (Hq : v / d < n) by (apply Nat.div_lt_upper_bound; lia).
    replace (Z.of_nat v) with (value [Z.of_nat n; Z.of_nat d] [Z.of_nat (v / d); Z.of_nat (v mod d)])
      by (cbn [value zprod]; rewrite Hb at 3; rewrite Nat2Z.inj_add, Nat2Z.inj_mul; ring).
    rewrite nbase_value by (constructor; [lia|]; constructor; [lia | constructor]).
    cbn [bind mk_label map String.concat]. change ("" ++ str_of_Z (Z.of_nat (v mod d)))%string with (str_of_Z (Z.of_nat (v mod d))).
    rewrite str_app_assoc. reflexivity.
  - rewrite nbase_big; [reflexivity | |].
    + intros b [<-|[<-|[]]]; lia.
    + right. cbn [zprod]. lia.
Qed.

(** toffoli reads the pair (n, d) as if it were the list of dimensions. *)
Lemma after_qregs : forall ks (c : circuit), c_qregs (after c ks) = c_qregs c.
Proof.
  intros ks; induction ks as [|k ks IH]; intros c; [reflexivity|]. unfold after. cbn [fold_left]. fold (after (step c k) ks).
  rewrite IH. unfold step. destruct (api c k) as [[c' b]|e] eqn:E; [|reflexivity].
  assert (A : forall r g x, add_moment c r g = Ok x -> c_qregs (fst x) = c_qregs c).
  { intros r g x H. unfold add_moment in H. apply bind_ok in H as [data [_ H]]. apply bind_ok in H as [[f b'] [_ H]].
    injection H as <-. reflexivity. }
  destruct k; cbn [api] in E.
  1-3: apply bind_ok in E as [u [_ E]]; apply bind_ok in E as [d [_ E]]; exact (A _ _ _ E).
  - apply bind_ok in E as [u [_ E]]; apply bind_ok in E as [d [_ E]]; exact (A _ _ _ E).
  - apply bind_ok in E as [g [_ E]]. destruct g; try discriminate. apply bind_ok in E as [[c1 b1] [E1 E]].
    injection E as <- <-. exact (A _ _ _ E1).
  - apply bind_ok in E as [u' [_ E]]; apply bind_ok in E as [d [_ E]]; exact (A _ _ _ E).
  - discriminate.
  - apply bind_ok in E as [[f b'] [_ E]]. injection E as <- <-. reflexivity.
Qed.

Theorem tuple_toffoli : forall (n d : Z) init out ks (c : circuit) cs t p,
  history (QTuple [n; d]) init out ks c -> (exists r, In r (t :: cs) /\ (2 <= r)%Z) ->
  api c (CTof cs t p) = Err IndexError.
Proof.
  intros n d init out ks c cs t p [c0 [H ->]] [r [Hin Hr]]. cbn [api]. rewrite after_qregs.
  assert (E : c_qregs c0 = QTuple [n; d]).
  { unfold mk_circuit in H. apply bind_ok in H as [[len dims] [_ H]]. apply bind_ok in H as [f [_ H]]. injection H as <-. reflexivity. }
  rewrite E. cbn [qregs_list]. unfold mk_toffoli, toffoli_dm.
  assert (Hin' : In r (cs ++ [t])) by (apply in_snoc_cons; exact Hin).
  destruct (cs ++ [t]) as [|x l] eqn:El; [contradiction|].
  destruct (py_min_ex x l) as [lb [-> [Il Bl]]]. destruct (py_max_ex x l) as [ub [-> [Iu Bu]]]. cbn [bind].
  destruct (mapM (py_get [n; d]) (zrange lb (ub + 1))) as [sp|e] eqn:Ee; cbn [bind].
  - exfalso. apply mapM_forall2 in Ee. assert (Hz : In r (zrange lb (ub + 1))).
    { apply in_zrange. specialize (Bl _ Hin'). specialize (Bu _ Hin'). lia. }
    clear - Ee Hz Hr. induction Ee as [|y b l1 l2 Hy _ IH]; [contradiction|]. destruct Hz as [->|Hz]; [|auto].
    unfold py_get, py_index in Hy. simpl length in Hy. replace (r <? Z.of_nat 2)%Z with false in Hy by (symmetry; apply Z.ltb_ge; lia).
    rewrite andb_false_r in Hy. replace (r <? 0)%Z with false in Hy by (symmetry; apply Z.ltb_ge; lia). rewrite andb_false_r in Hy. discriminate.
  - f_equal. apply mapM_first in Ee as [l1 [y [l2 [_ [Ey _]]]]]. clear - Ey. unfold py_get, py_index in Ey.
    destruct (_ && _); [destruct (nth_error _ _); congruence|]. destruct (_ && _); [destruct (nth_error _ _); congruence | congruence].
Qed.

End Tuple.
