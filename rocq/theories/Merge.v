(** * Merge: giving every gate a layer of its own changes nothing. *)
From Coq Require String.
From Verif Require Import Py Scalar Mat Utils Gates Circuit Spec Calls HistSpec Lib Kern GateMat GateTof Flow Layers Blocks Refine Run.
Set Implicit Arguments.

Section Merge.
Variable S : scalar.
Hypothesis L : scalar_laws S.
Notation circuit := (circuit S).
Notation call := (call S).
Notation block := (block S).
Notation NB := (NumpyBackend S).

(** Every gate call offers its layer to the operator flow. *)
Lemma api_layer : forall (c : circuit) k,
  api c k = (data <- gate_layer c k ;;
             '(f, b) <- populate_opflow (c_flow c) (mk_moment (length (f_list (c_flow c))) data) ;;
             Ok (set_flow c f, is_toffoli k || is_measure_all k || b)).
Proof.
  intros c k. destruct k as [q dm|q dm p|q dm|a p|cs t p|u q dm|q|]; cbn [api gate_layer is_toffoli is_measure_all orb].
  - destruct (validate1 c q dm); cbn [bind]; [|reflexivity]. destruct (dims_or c dm q); reflexivity.
  - destruct (validate1 c q dm); cbn [bind]; [|reflexivity]. destruct (dims_or c dm q); reflexivity.
  - destruct (validate1 c q dm); cbn [bind]; [|reflexivity]. destruct (dims_or c dm q); reflexivity.
  - destruct (py_get a 0); cbn [bind]; [|reflexivity]. destruct (py_get a 1); reflexivity.
  - destruct (mk_toffoli S cs t p (qregs_list (c_qregs c))) as [g|e]; cbn [bind]; [|reflexivity].
    destruct g; try reflexivity. unfold add_moment. destruct (moment_data _ _ _); cbn [bind]; [|reflexivity].
    destruct (populate_opflow _ _) as [[f b]|e]; reflexivity.
  - destruct (validate c q dm); cbn [bind]; [|reflexivity].
    match goal with |- bind ?x _ = bind (bind ?x _) _ => destruct x; reflexivity end.
  - reflexivity.
  - cbn [bind]. destruct (populate_opflow _ _) as [[f b]|e]; reflexivity.
Qed.

(** A call that offers a block builds exactly the layer with that block. *)
Lemma gate_layer_offers : forall dims init bss (c : circuit) k g p (b : block) data,
  dims <> [] -> good dims init bss c -> offers dims k g p b -> gate_layer c k = Ok data ->
  k <> CMeasureAll ->
  (forall c', shaped dims c' -> gate_layer c' k = Ok data) ->
  data = map (@bo S) (fresh dims p b).
Proof.
  intros dims init bss c k g p b data Hne Hg Ho Hd Hk Hall.
  (* on a circuit without any layer, populate_opflow stores the layer itself *)
  set (c0 := set_flow c (opflow0 S)).
  assert (Hs0 : shaped dims c0) by (apply shaped_set_flow, (g_shaped Hg)).
  destruct (of_api Ho Hs0) as [rv [_ E]]. rewrite api_layer, (Hall _ Hs0) in E. cbn [bind] in E.
  unfold populate_opflow in E. cbn [c0 set_flow c_flow opflow0 f_list rev length mk_moment m_list] in E.
  rewrite (@detect_none S (map (@bo S) (fresh dims p b))) in E
    by (apply (seg_no_meas (fresh_seg (of_ok Ho)))).
  cbn [bind] in E. destruct (detect_measurement 0 data (repeat false (length data))) as [ms|e]; cbn [bind] in E; [|discriminate].
  injection E as E1 _ _. exact E1.
Qed.

Lemma gate_layer_flow : forall (c : circuit) f k, k <> CMeasureAll -> gate_layer (set_flow c f) k = gate_layer c k.
Proof. intros c f k Hk. destruct k; try reflexivity. Qed.

Lemma gate_layer_shaped : forall dims (c c' : circuit) k, shaped dims c -> shaped dims c' -> k <> CMeasureAll ->
  gate_layer c' k = gate_layer c k.
Proof.
  intros dims c c' k [A1 A2 A3] [B1 B2 B3] Hk.
  assert (V : forall q dm, validate1 c' q dm = validate1 c q dm) by (intros; unfold validate1; rewrite A3, B3, A1, B1; reflexivity).
  assert (D : forall q dm, dims_or c' dm q = dims_or c dm q) by (intros; unfold dims_or; rewrite A1, B1; reflexivity).
  assert (M : forall q g, moment_data c' q g = moment_data c q g) by (intros; unfold moment_data; rewrite A3, B3, A1, B1; reflexivity).
  assert (VL : forall q dm, validate c' q dm = validate c q dm).
  { intros [z|l] dm; simpl; [apply V|]. f_equal. induction l as [|x l IH]; simpl; [reflexivity|]. rewrite V, IH. reflexivity. }
  destruct k as [q dm|q dm p|q dm|a p|cs t p|u q dm|q|]; cbn [gate_layer]; try congruence;
    rewrite ?V, ?VL, ?D, ?M.
  1-3: destruct (validate1 c q dm); cbn [bind]; [|reflexivity]; destruct (dims_or c dm q); cbn [bind]; [apply M|reflexivity].
  - destruct (py_get a 0); cbn [bind]; [|reflexivity]. destruct (py_get a 1); cbn [bind]; [|reflexivity].
    rewrite M, A1, B1. reflexivity.
  - rewrite A2, B2. destruct (mk_toffoli _ _ _ _ _) as [g|e]; cbn [bind]; [|reflexivity]. destruct g; auto.
  - rewrite A1, B1. destruct (validate c q dm); cbn [bind]; [|reflexivity].
    assert (E : forall X (r r' : res regs) (f f' : regs -> res X), r = r' -> (forall x, f x = f' x) -> bind r f = bind r' f').
    { intros X r r' f f' -> H. destruct r'; simpl; auto. }
    apply E; [|intros; apply M]. destruct q; [rewrite D; reflexivity|]. reflexivity.
Qed.

Lemma with_layer_good : forall dims init bss (c : circuit) bs,
  good dims init bss c -> seg dims 0 bs (length dims) ->
  good dims init (bss ++ [bs]) (with_layer c (map (@bo S) bs)).
Proof.
  intros dims init bss c bs [Hsh Hmeas [m0 [ms [El [Em0 HF]]]]] Hseg.
  constructor; [apply shaped_set_flow; exact Hsh | exact Hmeas |].
  cbn [with_layer set_flow c_flow f_list].
  set (M := mk_moment (length (f_list (c_flow c))) (map (@bo S) bs)).
  destruct (snoc_cases (f_list (c_flow c))) as [E|[before [last Elast]]]; [congruence|].
  rewrite Elast, append_moment_snoc.
  assert (HL : layer_of dims (set_prev (m_name last) M) bs) by (split; [reflexivity | exact Hseg]).
  rewrite El in Elast. destruct before as [|x before]; simpl in Elast; injection Elast as -> ->.
  - exists (set_next (m_name M) last), [set_prev (m_name last) M]. simpl. split; [reflexivity|].
    split; [exact Em0|]. inversion HF; subst. simpl. constructor; [exact HL | constructor].
  - exists x, (before ++ [set_next (m_name M) last; set_prev (m_name last) M]).
    split; [reflexivity|]. split; [exact Em0|].
    apply Forall2_snoc_l in HF as [bss0 [bs' [-> [HF1 HF2]]]].
    rewrite <- app_assoc. apply Forall2_app; [exact HF1|]. simpl.
    constructor; [exact HF2|]. constructor; [exact HL | constructor].
Qed.

(** After any valid calls, issuing a gate through the API or giving it a layer
    of its own leads to the same result after any further valid calls. *)
Theorem merge_invisible : forall dims levels out ty me ks1 ks2 k prog1 prog2 g c0 c1 data,
  dims <> [] -> (forall d, In d dims -> 2 <= d) ->
  length levels <= length dims -> valid dims (start dims levels) -> wants dims out ty me ->
  Forall2 (denotes dims) ks1 prog1 -> Forall (gate_ok dims) prog1 ->
  Forall2 (denotes dims) ks2 prog2 -> Forall (gate_ok dims) prog2 ->
  denotes dims k g -> gate_ok dims g ->
  mk_circuit S (QList (map Z.of_nat dims)) (Some (map Z.of_nat levels)) out = Ok c0 ->
  script c0 ks1 = Ok c1 -> gate_layer c1 k = Ok data ->
  (c2 <- script (with_layer c1 data) (ks2 ++ [CMeasureAll]) ;; run NB c2)
  = simulate NB (QList (map Z.of_nat dims)) (Some (map Z.of_nat levels)) out (ks1 ++ k :: ks2).
Proof.
  intros dims levels out ty me ks1 ks2 k prog1 prog2 g c0 c1 data
    Hne Hd Hlen Hv Hw HF1 Hok1 HF2 Hok2 Hk Hg Ec0 Ec1 Edata.
  assert (Hpos : forall d, In d dims -> 0 < d) by (intros d H; specialize (Hd d H); lia).
  rewrite (@simulate_correct S L dims levels out ty me (ks1 ++ k :: ks2) (prog1 ++ g :: prog2));
    [ | assumption | assumption | assumption | assumption | assumption
      | apply Forall2_app; [assumption | constructor; assumption]
      | apply Forall_app; split; [assumption | constructor; assumption] ].
  destruct (@mk_circuit_good S dims levels out Hd Hlen Hv) as [c0' [E0 [Hg0 Eo0]]].
  rewrite Ec0 in E0. injection E0 as <-.
  destruct (script_good L Hne Hpos HF1 Hok1 Hg0) as [c1' [bss1 [E1 [Hg1 [Eo1 Ev1]]]]].
  rewrite Ec1 in E1. injection E1 as <-.
  destruct (denotes_offers L Hpos Hk Hg) as [p [b Ho]].
  assert (Hkm : k <> CMeasureAll) by (intros ->; inversion Hk).
  assert (Ed : data = map (@bo S) (fresh dims p b)).
  { apply (@gate_layer_offers dims _ bss1 c1 k g p b data Hne Hg1 Ho Edata Hkm).
    intros c' Hc'. rewrite (@gate_layer_shaped dims c1 c' k (g_shaped Hg1) Hc' Hkm). exact Edata. }
  subst data.
  pose proof (@with_layer_good dims _ bss1 c1 (fresh dims p b) Hg1 (fresh_seg (of_ok Ho))) as Hg2.
  destruct (script_good L Hne Hpos HF2 Hok2 Hg2) as [c2 [bss2 [E2 [Hg2' [Eo2 Ev2]]]]].
  rewrite script_app, E2. cbn [bind].
  destruct (@run_good S L dims _ bss2 c2 ty me Hne Hpos Hv Hg2') as [c3 [E3 Er]].
  { rewrite Eo2. change (c_out (with_layer c1 (map (@bo S) (fresh dims p b)))) with (c_out c1).
    rewrite Eo1, Eo0. destruct Hw as [->|[-> [-> ->]]]; reflexivity. }
  cbn [script]. rewrite E3. cbn [bind]. rewrite Er. do 2 f_equal.
  apply answer_ext. intros s Hs. rewrite Ev2 by exact Hs.
  assert (Fapp : forall p1 p2 psi, final (S := S) dims (p1 ++ p2) psi = final dims p2 (final dims p1 psi)).
  { induction p1 as [|x p1 IH]; intros p2 psi; simpl; auto. }
  rewrite Fapp. simpl. apply final_ext; [|exact Hs]. intros t Ht. rewrite vec_snoc, apply_kapply.
  apply kapply_ext; [exact Ht | | ].
  - intros u Hu. symmetry. apply (of_amp Ho); assumption.
  - intros u Hu. apply Ev1; exact Hu.
Qed.

End Merge.
