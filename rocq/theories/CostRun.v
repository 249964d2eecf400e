(** * CostRun: the layers of a valid program, and what they cost. *)
From Coq Require Import List Arith ZArith Lia.
From Verif Require Import Py Scalar Mat Utils Gates Circuit Spec Calls Lib Kern GateMat GateTof Flow Layers Blocks Refine Run
  HistSpec Info InfoLib DepthSpec InfoDepth Exact BackendEq BackendSpec BackendAny Csr CsrLib CsrThm Cost CostSpec CostThm.
Import ListNotations.
Set Implicit Arguments.

Section CostRun.
Variable S : scalar.
Hypothesis L : scalar_laws S.
Notation op := (op S).
Notation moment := (moment S).
Notation NB := (NumpyBackend S).
Notation block := (block S).

Lemma layer_not_meas : forall dims (m : moment) bs, layer_of dims m bs -> existsb (@is_meas S) (m_list m) = false.
Proof.
  intros dims m bs [-> Hs]. induction Hs as [|p b bs q Hb Hs IH]; [reflexivity|]. cbn [map existsb]. rewrite (bok_m Hb), IH. reflexivity.
Qed.
Lemma init_not_meas : forall dims init, existsb (@is_meas S) (init_ops S dims init) = false.
Proof. intros dims init. unfold init_ops. induction (seq 0 (length dims)); cbn; auto. Qed.

Lemma program_layers : forall dims levels out ks prog (c : circuit S),
  dims <> [] -> (forall d, In d dims -> 2 <= d) ->
  length levels <= length dims -> valid dims (start dims levels) ->
  Forall2 (denotes dims) ks prog -> Forall (gate_ok dims) prog ->
  history (QList (map Z.of_nat dims)) (Some (map Z.of_nat levels)) out (ks ++ [CMeasureAll]) c ->
  exists m0 ms mm bss,
    forallb (fun b => b) (f_meas (c_flow c)) = true /\
    f_list (c_flow c) = (m0 :: ms) ++ [mm] /\ m_list m0 = init_ops S dims (start dims levels) /\
    Forall2 (layer_of dims) ms bss /\ length ms = layering (fun _ => true) prog.
Proof.
  intros dims levels out ks prog c Hne Hd Hlen Hv HF Hok [c0 [E0 ->]].
  assert (Hpos : forall d, In d dims -> 0 < d) by (intros d X; specialize (Hd d X); lia).
  destruct (@mk_circuit_good S dims levels out Hd Hlen Hv) as [c0' [E0' [Hg0 _]]]. rewrite E0 in E0'. injection E0' as <-.
  destruct (script_good L Hne Hpos HF Hok Hg0) as [c1 [bss [E1 [Hg1 [_ _]]]]].
  pose proof (script_after _ _ E1) as A1.
  assert (HD : get_circuit_config c1 = Ok (WInt (Z.of_nat (length dims)), Z.of_nat (layering (fun _ => true) prog))).
  { apply (@asks_depth_reported S L dims levels out ks prog [] c1 Hne Hd Hlen Hv HF Hok (or_introl eq_refl)).
    rewrite app_nil_r. exists c0. split; [exact E0 | symmetry; exact A1]. }
  destruct (measure_all_good Hne Hg1) as [c' [before [last [mm [Eapi [_ [Elast [Efl Em]]]]]]]].
  assert (after c0 (ks ++ [CMeasureAll]) = c') as ->.
  { unfold after in *. rewrite fold_left_app, A1. cbn [fold_left]. unfold step. rewrite Eapi. reflexivity. }
  destruct Hg1 as [Hsh Hmeas [m0 [ms [El [Em0 HF1]]]]].
  assert (HL : existsb (@is_meas S) (m_list last) = false).
  { rewrite El in Elast. destruct before as [|x before]; injection Elast as E2 E3.
    - rewrite <- E2, Em0. apply init_not_meas.
    - rewrite E3 in HF1. apply Forall2_snoc_l in HF1 as [bss0 [bs [_ [_ X]]]]. exact (layer_not_meas X). }
  assert (Hlen1 : length ms = layering (fun _ => true) prog).
  { unfold get_circuit_config in HD. rewrite Elast, py_get_last in HD. cbn [bind] in HD. rewrite HL in HD. injection HD as _ HD.
    rewrite <- Elast, El in HD. cbn [length] in HD. lia. }
  rewrite El in Elast. destruct before as [|x before]; injection Elast as E2 E3.
  - subst last ms. eexists _, [], _, bss. split; [exact Em|]. split; [rewrite Efl; reflexivity|]. cbn [set_next m_list]. auto.
  - subst x ms. exists m0, (before ++ [set_next (length (f_list (c_flow c1))) last]), mm, bss.
    split; [exact Em|]. split; [rewrite Efl; cbn; rewrite <- app_assoc; reflexivity|]. split; [exact Em0|]. split.
    + apply Forall2_snoc_l in HF1 as [bss0 [bs [-> [HF2 HF3]]]]. apply Forall2_app; [exact HF2|]. constructor; [exact HF3 | constructor].
    + rewrite <- Hlen1, !app_length. reflexivity.
Qed.

Section AnyMeter.
Variable B : backend S.
Variable ok : B -> Prop.
Hypothesis H : computes B ok.
Variable w : meter B.
Variable Rel : nat -> nat -> Prop.
Hypothesis rel_0 : Rel 0 0.
Hypothesis rel_add : forall a b a' b', Rel a b -> Rel a' b' -> Rel (a + a') (b + b').
Hypothesis kron_le : forall a b r c r' c', sized B ok a r c -> sized B ok b r' c' -> in_kron w a b <= (r * r') * (c * c').
Hypothesis dot_rel : forall a b r c c', sized B ok a r c -> sized B ok b c c' -> Rel (in_dot w a b) (r * c * c').

Theorem program_cost : forall dims levels out ks prog (c : circuit S),
  dims <> [] -> (forall d, In d dims -> 2 <= d) ->
  length levels <= length dims -> valid dims (start dims levels) ->
  Forall2 (denotes dims) ks prog -> Forall (gate_ok dims) prog ->
  history (QList (map Z.of_nat dims)) (Some (map Z.of_nat levels)) out (ks ++ [CMeasureAll]) c ->
  let N := prodn dims in let D := layering (fun _ => true) prog in
  exists k d k' d',
    run_cost w c = Ok (k, d) /\ 3 * k <= 4 * (D * (N * N)) + 6 * N /\ Rel d (layer_by_layer N D) /\
    forward_cost w c = Ok (k', d') /\ 3 * k' <= 4 * (D * (N * N)) + 6 * N /\ Rel d' (state_first N D).
Proof.
  intros dims levels out ks prog c Hne Hd Hlen Hv HF Hok Hh N D.
  destruct (@program_layers dims levels out ks prog c Hne Hd Hlen Hv HF Hok Hh) as [m0 [ms [mm [bss [Em [El [E0 [HL Hn]]]]]]]].
  destruct (count_all H w Rel rel_0 rel_add kron_le dot_rel _ Hd Hne m0 E0 HL) as [k [d [a [E [Hk HR]]]]].
  destruct (count_forward H w Rel rel_0 rel_add kron_le dot_rel _ Hd Hne m0 E0 HL) as [k' [d' [a' [E' [_ [Hk' HR']]]]]].
  rewrite Hn in *. fold D in Hk, HR, Hk', HR'. exists k, d, k', d'.
  split; [|split; [exact Hk|]; split; [exact HR|]; split; [|auto]].
  - unfold run_cost, flow_exec. rewrite Em, El, rev_unit, E. reflexivity.
  - unfold forward_cost, forward_exec. rewrite El, removelast_last.
    destruct (moment_exec (counted w) (m_list m0)) as [v|e]; [|discriminate]. cbn [bind] in *. rewrite E'. reflexivity.
Qed.
End AnyMeter.

(** ** The same result from the other end *)
Lemma forward_layers : forall dims, dims <> [] ->
  forall (bss : list (list block)) (ms : list moment), Forall2 (layer_of dims) ms bss ->
  forall A phi, repr dims [] A (fun s _ => phi s) ->
  exists M, fold_left (fun acc (m : moment) => a <- acc ;; k <- moment_exec NB (m_list m) ;; b_dot (b := NB) k a) ms (Ok A) = Ok M /\
    repr dims [] M (fun s _ => vec dims phi bss s).
Proof.
  intros dims Hne bss; induction bss as [|bs bss IH] using rev_ind; intros ms HF A phi RA.
  - inversion HF; subst. exists A. split; [reflexivity | exact RA].
  - apply Forall2_app_inv_r in HF as [ms1 [ms2 [HF1 [HF2 ->]]]].
    inversion HF2 as [|m bs' l1 l2 [Hml Hseg] Hn]; subst. inversion Hn; subst.
    destruct (IH ms1 HF1 A phi RA) as [M1 [E1 R1]]. rewrite fold_left_app, E1. cbn [fold_left bind]. rewrite Hml.
    destruct (exec_layer L Hseg Hne) as [Mb [Eb Rb]]. rewrite Eb. cbn [bind b_dot NumpyBackend].
    destruct (repr_dot Rb R1) as [M [ED R]]. exists M. split; [exact ED|]. rewrite vec_snoc. exact R.
Qed.

Theorem forward_same : forall dims levels out ks prog (c : circuit S),
  dims <> [] -> (forall d, In d dims -> 2 <= d) ->
  length levels <= length dims -> valid dims (start dims levels) ->
  Forall2 (denotes dims) ks prog -> Forall (gate_ok dims) prog ->
  history (QList (map Z.of_nat dims)) (Some (map Z.of_nat levels)) out (ks ++ [CMeasureAll]) c ->
  forward NB c = run NB c.
Proof.
  intros dims levels out ks prog c Hne Hd Hlen Hv HF Hok Hh.
  destruct (@program_layers dims levels out ks prog c Hne Hd Hlen Hv HF Hok Hh) as [m0 [ms [mm [bss [Em [El [E0 [HL Hn]]]]]]]].
  destruct (exec_all L m0 Hne Hv E0 HL) as [M [EM RM]].
  destruct (init_exec L Hne Hv) as [M0 [EM0 R0]].
  destruct (@forward_layers dims Hne bss ms HL M0 _ R0) as [M' [EM' RM']].
  unfold forward, run, flow_exec, forward_exec. rewrite Em, El, rev_unit, removelast_last, E0, EM0. cbn [bind].
  match goal with |- context [fold_left ?f ms ?a] => assert (X : fold_left f ms a = Ok M') by exact EM'; rewrite X; clear X end. cbn [bind].
  match goal with |- context [fold_left ?f ?l ?a] => change (fold_left f l a) with (@fold_left (res (option (mat S))) _ (@exec_step S) l (Ok None)) end.
  rewrite EM. cbn [bind b_toarray NumpyBackend]. rewrite (output_any _ _ RM), (output_any _ _ RM'). reflexivity.
Qed.

(** ** The meters *)
Lemma dense_kron : forall (a b : mat S) r c r' c', sized NB (fun _ => True) a r c -> sized NB (fun _ => True) b r' c' ->
  in_kron (dense_meter S) a b <= (r * r') * (c * c').
Proof. intros a b r c r' c' [f [_ [E1 [E2 _]]]] [g [_ [E3 [E4 _]]]]. cbn in *. subst. lia. Qed.
Lemma dense_dot : forall (a b : mat S) r c c', sized NB (fun _ => True) a r c -> sized NB (fun _ => True) b c c' ->
  in_dot (dense_meter S) a b = r * c * c'.
Proof. intros a b r c c' [f [_ [E1 [E2 _]]]] [g [_ [E3 [E4 _]]]]. cbn in *. subst. reflexivity. Qed.

Lemma sum_le : forall A (f : A -> nat) l n, (forall x, In x l -> f x <= n) -> list_sum (map f l) <= length l * n.
Proof.
  intros A f l n; induction l as [|x l IH]; intros Hl; [apply Nat.le_refl|]. cbn [map list_sum fold_right length Nat.mul].
  change (fold_right Nat.add 0 (map f l)) with (list_sum (map f l)).
  pose proof (Hl x (or_introl eq_refl)). assert (list_sum (map f l) <= length l * n) by (apply IH; intros y Y; apply Hl; right; exact Y). lia.
Qed.

Lemma row_short : forall c (row : srow S), row_ok c row -> length row <= c.
Proof.
  intros c row [Hn Hb]. rewrite <- (map_length fst), <- (seq_length c 0). apply NoDup_incl_length; [exact Hn|].
  intros q Hq. apply in_map_iff in Hq as [[q' v] [<- Hq]]. apply in_seq. cbn. split; [lia|]. exact (Hb _ _ Hq).
Qed.

Lemma csr_full : forall a : csr S, csr_ok a -> stored_entries a <= rr a * rc a.
Proof. intros a [E Hr]. rewrite <- E. apply sum_le. intros x X. apply row_short. apply Hr. exact X. Qed.

Notation KB := (CsrBackend S).
Lemma csr_kron_le : forall (a b : csr S) r c r' c', sized KB (@csr_ok S) a r c -> sized KB (@csr_ok S) b r' c' ->
  in_kron (csr_meter S) a b <= (r * r') * (c * c').
Proof.
  intros a b r c r' c' [f [Ha [E1 [E2 _]]]] [g [Hb [E3 [E4 _]]]]. cbn in *. subst.
  pose proof (csr_full Ha). pose proof (csr_full Hb). etransitivity; [apply Nat.mul_le_mono; eassumption|]. lia.
Qed.
Lemma csr_dot_le : forall (a b : csr S) r c c', sized KB (@csr_ok S) a r c -> sized KB (@csr_ok S) b c c' ->
  in_dot (csr_meter S) a b <= r * c * c'.
Proof.
  intros a b r c c' [f [Ha [E1 [E2 _]]]] [g [Hb [E3 [E4 _]]]]. cbn in *. subst. rewrite <- Nat.mul_assoc.
  destruct Ha as [El Hr]. rewrite <- El. apply sum_le. intros x X.
  etransitivity; [apply (@sum_le _ _ _ (rc b))|].
  - intros [k v] _. apply row_short. apply ok_row. exact Hb.
  - apply Nat.mul_le_mono_r. apply row_short. apply Hr. exact X.
Qed.
End CostRun.
