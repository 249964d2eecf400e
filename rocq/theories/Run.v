(** * Run: constructor, measurement, output, and the headline theorem. *)
From Coq Require Import String.
From Verif Require Import Py Scalar Mat Utils Gates Circuit Spec Calls Lib Kern GateMat GateTof Flow Layers Blocks Refine.
Set Implicit Arguments.
Local Notation length := List.length.

(** ** Mixed-radix digits *)
Lemma lin_zero : forall dims s, valid dims s -> lin dims s = 0 -> s = repeat 0 (length dims).
Proof.
  intros dims s H; induction H as [|x d s ds Hx Hs IH]; intros E; simpl in *; [reflexivity|].
  pose proof (lin_lt Hs). assert (x * prodn ds = 0) as E1 by lia. assert (x = 0) by nia. subst x.
  f_equal. apply IH. lia.
Qed.

Lemma map_repeat : forall A B (f : A -> B) x n, map f (repeat x n) = repeat (f x) n.
Proof. intros A B f x n; induction n as [|n IH]; simpl; congruence. Qed.

Lemma rev_repeat' : forall A (x : A) n, rev (repeat x n) = repeat x n.
Proof.
  intros A x n; induction n as [|n IH]; simpl; [reflexivity|]. rewrite IH.
  clear IH; induction n as [|n IH]; simpl; [reflexivity | congruence].
Qed.

Lemma valid_snoc : forall dims d s, valid (dims ++ [d]) s -> exists s' x, s = s' ++ [x] /\ valid dims s' /\ x < d.
Proof.
  intros dims d s H. apply Forall2_app_inv_r in H as [s1 [s2 [H1 [H2 ->]]]].
  inversion H2 as [|x d' l l' Hx Hn]; subst. inversion Hn; subst. exists s1, x. auto.
Qed.

Lemma nbase_digits_lin : forall dims s, valid dims s ->
  nbase_digits (Z.of_nat (lin dims s)) (rev (map Z.of_nat dims)) = Ok (rev (map Z.of_nat s)).
Proof.
  induction dims as [|d dims IH] using rev_ind; intros s H.
  - inversion H; subst. reflexivity.
  - destruct (Z.eqb_spec (Z.of_nat (lin (dims ++ [d]) s)) 0) as [E|E].
    + assert (E' : lin (dims ++ [d]) s = 0) by lia.
      rewrite (lin_zero H E'), map_repeat, rev_repeat'.
      rewrite <- (lin_zero H E'), E'. 
      rewrite map_app, rev_app_distr. cbn [rev map app nbase_digits]. simpl Z.of_nat. cbn [Z.eqb].
      f_equal. simpl length. rewrite rev_length, map_length, app_length. simpl. rewrite Nat.add_1_r. reflexivity.
    + apply valid_snoc in H as [s' [x [-> [Hs Hx]]]].
      assert (El : lin (dims ++ [d]) (s' ++ [x]) = lin dims s' * d + x).
      { rewrite lin_app by (apply valid_length; exact Hs). rewrite lin_single. unfold prodn. simpl. lia. }
      rewrite El in *. rewrite !map_app, !rev_app_distr. cbn [rev map app nbase_digits].
      rewrite (proj2 (Z.eqb_neq _ _) E).
      replace (Z.of_nat (lin dims s' * d + x) / Z.of_nat d)%Z with (Z.of_nat (lin dims s')).
      2: { rewrite <- Nat2Z.inj_div. f_equal. rewrite Nat.div_add_l, Nat.div_small by lia. lia. }
      rewrite IH by exact Hs. cbn [bind].
      replace (Z.of_nat (lin dims s' * d + x) mod Z.of_nat d)%Z with (Z.of_nat x).
      2: { rewrite <- Nat2Z.inj_mod. f_equal. rewrite Nat.add_comm, Nat.mod_add, Nat.mod_small by lia. reflexivity. }
      reflexivity.
Qed.

Lemma Nbase_to_bin_lin : forall dims s, valid dims s ->
  Nbase_to_bin (Z.of_nat (lin dims s)) (map Z.of_nat dims) = Ok (map Z.of_nat s).
Proof.
  intros dims s H. unfold Nbase_to_bin. rewrite (nbase_digits_lin H). cbn [bind].
  rewrite rev_involutive. reflexivity.
Qed.

Lemma mk_label_shown : forall ty s, mk_label ty (map Z.of_nat s) = shown ty s.
Proof. intros [|] s; unfold mk_label, shown; rewrite ?map_map; reflexivity. Qed.

Section Run.
Variable S : scalar.
Hypothesis L : scalar_laws S.
Add Ring Sring : (sl_ring L).
Notation NB := (NumpyBackend S).
Notation circuit := (circuit S).
Notation moment := (moment S).
Notation call := (call S).

(** ** Constructor *)
Lemma mk_circuit_good : forall dims levels out,
  (forall d, In d dims -> 2 <= d) -> length levels <= length dims -> valid dims (start dims levels) ->
  exists c, mk_circuit S (QList (map Z.of_nat dims)) (Some (map Z.of_nat levels)) out = Ok c /\
    good dims (start dims levels) [] c /\
    c_out c = match out with
              | Some o => o
              | None => {| o_base := map Z.of_nat dims; o_type := OutPrint; o_method := OutAmplitude |}
              end.
Proof.
  intros dims levels out Hd Hlen Hv. set (init := start dims levels) in *.
  unfold mk_circuit. cbn [reg_layout bind]. rewrite map_length.
  assert (Ep : pad_init (Z.of_nat (length dims)) (map Z.of_nat levels) = map Z.of_nat init).
  { unfold pad_init, init, start. rewrite map_length, map_app, map_repeat.
    destruct (Z.of_nat (length levels) <? Z.of_nat (length dims))%Z eqn:E.
    - apply Z.ltb_lt in E. unfold zrepeat.
      replace (Z.to_nat (Z.of_nat (length dims) - Z.of_nat (length levels))) with (length dims - length levels) by lia.
      reflexivity.
    - apply Z.ltb_ge in E. replace (length dims - length levels) with 0 by lia. simpl. rewrite app_nil_r. reflexivity. }
  rewrite Ep. clear Ep.
  assert (Ei : initialize_states S (map Z.of_nat dims) (map Z.of_nat init)
               = Ok {| f_list := [mk_moment 0 (init_ops S dims init)]; f_meas := repeat false (length dims) |}).
  { unfold initialize_states. rewrite map_length, (valid_length Hv).
    assert (Eg : mapM (fun '(i, e) => d <- py_get (map Z.of_nat dims) (Z.of_nat i) ;; init_state S d e (Z.of_nat i))
                   (combine (seq 0 (length dims)) (map Z.of_nat init)) = Ok (init_ops S dims init)).
    { pose proof (combine_seq_nth (map Z.of_nat init) 0 0%Z) as Ec.
      rewrite map_length, (valid_length Hv) in Ec. rewrite Ec, mapM_map. clear Ec.
      unfold init_ops. apply mapM_ok. intros i Hi. apply in_seq in Hi. rewrite Nat.add_0_l.
      rewrite (@py_get_nat Z _ _ 0%Z) by (rewrite map_length; lia). cbn [bind]. rewrite !nth_map_Z.
      assert (Hdi : 2 <= nth i dims 0) by (apply Hd, nth_In; lia).
      assert (Hx : nth i init 0 < nth i dims 0) by (apply (valid_level Hv); lia).
      unfold init_state.
      replace (Z.of_nat (nth i dims O) <? Z.of_nat (nth i init O))%Z with false by (symmetry; apply Z.ltb_ge; lia).
      replace (Z.of_nat (nth i dims O) <? 2)%Z with false by (symmetry; apply Z.ltb_ge; lia). cbn [orb].
      rewrite Nat2Z.id, py_index_nat by exact Hx. reflexivity. }
    rewrite Eg. cbn [bind]. unfold populate_opflow. cbn [opflow0 f_list rev mk_moment m_list].
    rewrite detect_none.
    - cbn [bind]. unfold init_ops at 2. rewrite map_length, seq_length. reflexivity.
    - apply forallb_forall. intros x Hx. apply in_map_iff in Hx as [i [<- _]]. reflexivity. }
  rewrite Ei. cbn [bind]. eexists. split; [reflexivity|]. split; [|destruct out; reflexivity].
  constructor.
  - constructor; reflexivity.
  - reflexivity.
  - exists (mk_moment 0 (init_ops S dims init)), []. repeat split. constructor.
Qed.

(** ** measure_all *)
Lemma detect_all : forall n k (meas : list bool), k + n <= length meas ->
  detect_measurement k (map (fun i => OMeas (S := S) (Z.of_nat i)) (seq k n)) meas
  = Ok (firstn k meas ++ repeat true n ++ skipn (k + n) meas).
Proof.
  induction n as [|n IH]; intros k meas H; cbn [seq map detect_measurement].
  - rewrite Nat.add_0_r. simpl. rewrite firstn_skipn. reflexivity.
  - cbn [is_meas]. unfold py_set. rewrite py_index_nat by lia. cbn [bind].
    rewrite IH by (rewrite upd_length; lia). f_equal.
    assert (E : meas = firstn k meas ++ nth k meas false :: skipn (Datatypes.S k) meas).
    { clear -H. revert k H; induction meas as [|x meas IH]; intros [|k] H; simpl in *; try lia; auto.
      f_equal. apply IH. lia. }
    assert (Hk : length (firstn k meas) = k) by (rewrite firstn_length; lia).
    assert (Eu : upd meas k true = firstn k meas ++ true :: skipn (Datatypes.S k) meas).
    { rewrite E at 1. pose proof (upd_split (firstn k meas) (skipn (Datatypes.S k) meas) (nth k meas false) true) as U.
      rewrite Hk in U. exact U. }
    rewrite Eu. rewrite firstn_app, Hk.
    replace (Datatypes.S k - k) with 1 by lia. rewrite firstn_all2 by lia. cbn [firstn].
    rewrite <- app_assoc. cbn [app repeat]. f_equal. f_equal. f_equal.
    rewrite skipn_app, Hk. rewrite skipn_all2 by lia. cbn [app].
    replace (Datatypes.S k + n - k) with (Datatypes.S n) by lia.
    change (skipn n (skipn (Datatypes.S k) meas) = skipn (k + Datatypes.S n) meas).
    rewrite skipn_skipn'. f_equal. lia.
Qed.

Lemma measure_all_good : forall dims init bss (c : circuit), dims <> [] -> good dims init bss c ->
  exists c' before last mm,
    api c CMeasureAll = Ok (c', true) /\ c_out c' = c_out c /\
    f_list (c_flow c) = before ++ [last] /\
    f_list (c_flow c') = before ++ [set_next (length (f_list (c_flow c))) last; mm] /\
    forallb (fun b => b) (f_meas (c_flow c')) = true.
Proof.
  intros dims init bss c Hne [Hsh Hmeas [m0 [ms [El [Em0 HF]]]]].
  assert (Hn : 0 < length dims) by (destruct dims; [contradiction | simpl; lia]).
  destruct (snoc_cases (f_list (c_flow c))) as [E|[before [last Elast]]]; [congruence|].
  cbn [api]. rewrite (shaped_len_ok Hsh), map_map, (sh_dims Hsh), map_length.
  set (ops := map (fun x => OMeas (S := S) (Z.of_nat x)) (seq 0 (length dims))).
  assert (Ef : find (@is_hxz S) ops = None) by (unfold ops; induction (seq 0 (length dims)); simpl; auto).
  unfold populate_opflow. rewrite Elast, rev_unit, Hmeas, all_false_meas by exact Hn.
  cbn [mk_moment m_list]. rewrite Ef. cbn [bind]. unfold ops at 1. rewrite detect_all by (rewrite repeat_length; lia).
  cbn [bind]. rewrite append_moment_snoc.
  eexists. exists before, last. eexists. split; [reflexivity|]. repeat split.
  cbn [set_flow c_flow f_meas]. simpl firstn. rewrite skipn_all2 by (rewrite repeat_length; lia).
  simpl app. rewrite app_nil_r. clear. induction (length dims); simpl; auto.
Qed.

(** ** Output *)

(** What an output reports for a list of basis states with amplitudes. *)
Definition labelled (dims : list nat) (o : output) (l : list (config * S)) : res (list (label * S)) :=
  mapM (fun '(s, a) => st <- Nbase_to_bin (Z.of_nat (lin dims s)) (o_base o) ;;
                       Ok (mk_label (o_type o) st, reported (o_method o) a)) l.

Lemma output_any : forall dims (o : output) (M : mat S) (psi : config -> S),
  repr dims [] M (fun s _ => psi s) -> output_call o M = labelled dims o (answer dims psi).
Proof.
  intros dims o M psi [R1 R2 R3]. unfold output_call.
  assert (Ev : flat_map (fun i => flat_map (fun j => if seqb (mget M i j) s0 then [] else [i]) (seq 0 (mc M)))
                 (seq 0 (mr M))
               = map (lin dims) (filter (fun s => negb (seqb (psi s) s0)) (all_configs dims))).
  { rewrite R1, R2. change (prodn []) with 1. rewrite <- lin_all_configs, flat_map_map.
    rewrite flat_map_ext_in with (g := fun s => if seqb (psi s) s0 then [] else [lin dims s]).
    - induction (all_configs dims) as [|s l IH]; [reflexivity|]. simpl.
      destruct (seqb (psi s) s0); simpl; rewrite IH; reflexivity.
    - intros s Hs. apply in_all_configs in Hs. simpl.
      change (mget M (lin dims s) 0) with (mget M (lin dims s) (lin [] [])). rewrite R3 by (assumption || constructor).
      destruct (seqb (psi s) s0); reflexivity. }
  rewrite Ev, mapM_map. unfold labelled, answer. rewrite mapM_map. apply mapM_ext.
  intros s Hs. apply filter_In in Hs as [Hs _]. apply in_all_configs in Hs.
  change (mget M (lin dims s) 0) with (mget M (lin dims s) (lin [] [])). rewrite R3 by (assumption || constructor).
  destruct (Nbase_to_bin _ _); [|reflexivity]. cbn [bind]. destruct (o_method o); reflexivity.
Qed.

Lemma labelled_own : forall dims (o : output) psi, o_base o = map Z.of_nat dims ->
  labelled dims o (answer dims psi) = Ok (report (o_type o) (o_method o) (answer dims psi)).
Proof.
  intros dims o psi Hb. unfold labelled, report. apply mapM_ok. intros [s a] Hs.
  unfold answer in Hs. apply in_map_iff in Hs as [s' [E Hs]]. injection E as -> <-.
  apply filter_In in Hs as [Hs _]. apply in_all_configs in Hs.
  rewrite Hb, (Nbase_to_bin_lin Hs). cbn [bind]. rewrite mk_label_shown. reflexivity.
Qed.

Lemma answer_ext : forall dims psi psi', (forall s, valid dims s -> psi s = psi' s) ->
  answer (S := S) dims psi = answer dims psi'.
Proof.
  intros dims psi psi' E. unfold answer.
  assert (Hin : forall s, In s (all_configs dims) -> psi s = psi' s)
    by (intros s Hs; apply E, in_all_configs; exact Hs).
  induction (all_configs dims) as [|s l IH]; simpl; [reflexivity|].
  rewrite (Hin s (or_introl eq_refl)).
  destruct (seqb (psi' s) s0); simpl; [|rewrite (Hin s (or_introl eq_refl)); f_equal];
  apply IH; intros u Hu; apply Hin; right; exact Hu.
Qed.

(** A finished circuit reports the state of its layers. *)
Lemma run_any : forall dims init bss (c : circuit),
  dims <> [] -> (forall d, In d dims -> 0 < d) -> valid dims init -> good dims init bss c ->
  exists c', api c CMeasureAll = Ok (c', true) /\
    run NB c' = labelled dims (c_out c) (answer dims (vec dims (basis S init) bss)).
Proof.
  intros dims init bss c Hne Hpos Hv Hg.
  destruct (measure_all_good Hne Hg) as [c' [before [last [mm [Eapi [Eo [Elast [Efl Em]]]]]]]].
  exists c'. split; [exact Eapi|].
  destruct Hg as [Hsh Hmeas [m0 [ms [El [Em0 HF]]]]].
  unfold run, flow_exec. rewrite Em, Efl.
  replace (before ++ [set_next (length (f_list (c_flow c))) last; mm])
    with ((before ++ [set_next (length (f_list (c_flow c))) last]) ++ [mm]) by (rewrite <- app_assoc; reflexivity).
  rewrite rev_unit.
  assert (Hshape : exists m0' ms', before ++ [set_next (length (f_list (c_flow c))) last] = m0' :: ms' /\
            m_list m0' = init_ops S dims init /\ Forall2 (layer_of dims) ms' bss).
  { rewrite El in Elast. destruct before as [|x before]; simpl in Elast; injection Elast as -> ->.
    - eexists. exists []. split; [reflexivity|]. split; [exact Em0|]. exact HF.
    - exists x. eexists. split; [reflexivity|]. split; [exact Em0|].
      apply Forall2_snoc_l in HF as [bss0 [bs [-> [HF1 HF2]]]].
      apply Forall2_app; [exact HF1|]. constructor; [exact HF2 | constructor]. }
  destruct Hshape as [m0' [ms' [Es [Em0' HF']]]]. rewrite Es.
  destruct (exec_all L _ Hne Hv Em0' HF') as [M [EM RM]].
  match goal with |- context [fold_left ?f ?l ?a] => change (fold_left f l a) with (@fold_left (res (option (mat S))) _ (@exec_step S) l (Ok None)) end.
  rewrite EM. cbn [bind b_toarray NumpyBackend].
  rewrite Eo. apply output_any. exact RM.
Qed.

Lemma run_good : forall dims init bss (c : circuit) ty me,
  dims <> [] -> (forall d, In d dims -> 0 < d) -> valid dims init -> good dims init bss c ->
  c_out c = {| o_base := map Z.of_nat dims; o_type := ty; o_method := me |} ->
  exists c', api c CMeasureAll = Ok (c', true) /\
    run NB c' = Ok (report ty me (answer dims (vec dims (basis S init) bss))).
Proof.
  intros dims init bss c ty me Hne Hpos Hv Hg Hout. destruct (run_any Hne Hpos Hv Hg) as [c' [E1 E2]].
  exists c'. split; [exact E1|]. rewrite E2, Hout. apply labelled_own. reflexivity.
Qed.

(** The same for any Output object. *)
Theorem simulate_any : forall dims levels o ks prog,
  dims <> [] -> (forall d, In d dims -> 2 <= d) ->
  length levels <= length dims -> valid dims (start dims levels) ->
  Forall2 (denotes dims) ks prog -> Forall (gate_ok dims) prog ->
  simulate NB (QList (map Z.of_nat dims)) (Some (map Z.of_nat levels)) (Some o) ks
  = labelled dims o (answer dims (final dims prog (basis S (start dims levels)))).
Proof.
  intros dims levels o ks prog Hne Hd Hlen Hv HF Hok.
  assert (Hpos : forall d, In d dims -> 0 < d) by (intros d H; specialize (Hd d H); lia).
  destruct (@mk_circuit_good dims levels (Some o) Hd Hlen Hv) as [c0 [E0 [Hg0 Eo0]]].
  unfold simulate. rewrite E0. cbn [bind]. rewrite script_app.
  destruct (script_good L Hne Hpos HF Hok Hg0) as [c1 [bss1 [E1 [Hg1 [Eo1 Ev1]]]]].
  rewrite E1. cbn [bind].
  destruct (@run_any dims _ bss1 c1 Hne Hpos Hv Hg1) as [c2 [E2 Er]].
  cbn [script]. rewrite E2. cbn [bind]. rewrite Er, Eo1, Eo0. f_equal.
  apply answer_ext. intros s Hs. rewrite Ev1 by exact Hs. reflexivity.
Qed.

Theorem simulate_correct : forall dims levels out ty me ks prog,
  dims <> [] -> (forall d, In d dims -> 2 <= d) ->
  length levels <= length dims -> valid dims (start dims levels) ->
  wants dims out ty me ->
  Forall2 (denotes dims) ks prog -> Forall (gate_ok dims) prog ->
  simulate NB (QList (map Z.of_nat dims)) (Some (map Z.of_nat levels)) out ks
  = Ok (report ty me (answer dims (final dims prog (basis S (start dims levels))))).
Proof.
  intros dims levels out ty me ks prog Hne Hd Hlen Hv Hw HF Hok.
  assert (Hpos : forall d, In d dims -> 0 < d) by (intros d H; specialize (Hd d H); lia).
  destruct (@mk_circuit_good dims levels out Hd Hlen Hv) as [c0 [E0 [Hg0 Eo0]]].
  unfold simulate. rewrite E0. cbn [bind]. rewrite script_app.
  destruct (script_good L Hne Hpos HF Hok Hg0) as [c1 [bss1 [E1 [Hg1 [Eo1 Ev1]]]]].
  rewrite E1. cbn [bind].
  destruct (@run_good dims _ bss1 c1 ty me Hne Hpos Hv Hg1) as [c2 [E2 Er]].
  { rewrite Eo1, Eo0. destruct Hw as [->|[-> [-> ->]]]; reflexivity. }
  cbn [script]. rewrite E2. cbn [bind]. rewrite Er. do 2 f_equal.
  apply answer_ext. intros s Hs. rewrite Ev1 by exact Hs. reflexivity.
Qed.

End Run.
