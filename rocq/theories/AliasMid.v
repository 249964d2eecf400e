(** * AliasMid: the register list edited between two calls. *)
From Coq Require Import String.
From Verif Require Import Py Scalar Mat Utils Gates Circuit Spec Calls HistSpec Lib Kern GateMat GateTof Flow Layers Blocks Refine Run
  History Alias AliasSpec AliasLib AliasRun.
Set Implicit Arguments.
Local Notation length := List.length.

Section AliasMid.
Variable S : scalar.
Hypothesis L : scalar_laws S.
Add Ring Sring : (sl_ring L).
Notation op := (op S).
Notation NB := (NumpyBackend S).
Notation block := (block S).
Notation circuit := (circuit S).
Notation moment := (moment S).
Notation call := (call S).
Notation kapply := (kapply S).
Notation exec_ops := (@exec_ops S).

(** A circuit whose layers are [pre] followed by layers for [dims]. *)
Record good_from (dims : list nat) (pre : list (list op)) (bss : list (list block)) (c : circuit) : Prop := {
  gf_shaped : shaped dims c;
  gf_meas : f_meas (c_flow c) = repeat false (length dims);
  gf_list : layers c = pre ++ map (map (@bo S)) bss;
  gf_seg : Forall (fun bs => seg dims 0 bs (length dims)) bss }.

Definition quiet (pre : list (list op)) : Prop :=
  forall pre' l, pre = pre' ++ [l] -> filter (@is_igate S) l = [].

Lemma add_gate_from : forall dims pre bss c k g p b,
  dims <> [] -> pre <> [] -> good_from dims pre bss c -> offers dims k g p b ->
  (bss <> [] \/ quiet pre \/ is_hxz (bo b) = false) ->
  exists c' bss', api c k = Ok (c', true) /\ good_from dims pre bss' c' /\ bss' <> [] /\ c_out c' = c_out c /\
    forall psi s, valid dims s -> vec dims psi bss' s = kapply dims (amp dims g) (vec dims psi bss) s.
Proof.
  intros dims pre bss c k g p b Hne Hpre Hg Ho Hfirst.
  destruct Hg as [Hsh Hmeas El HF].
  destruct (of_api Ho Hsh) as [rv [Hrv Eapi]].
  set (M := mk_moment (length (f_list (c_flow c))) (map (@bo S) (fresh dims p b))) in *.
  pose proof (fresh_seg (of_ok Ho)) as Hfseg.
  assert (Hamp : forall s t, valid dims s -> valid dims t -> lkern (fresh dims p b) s t = amp dims g s t).
  { intros s t Hs Ht. symmetry. apply (of_amp Ho); assumption. }
  assert (Hn : 0 < length dims) by (destruct dims; [contradiction | simpl; lia]).
  assert (Hmf : forallb (fun b => b) (f_meas (c_flow c)) = false) by (rewrite Hmeas; apply all_false_meas; exact Hn).
  assert (Hnm : forallb (fun o => negb (is_meas o)) (m_list M) = true) by (apply (seg_no_meas Hfseg)).
  (* appending *)
  assert (Happend : forall before last, f_list (c_flow c) = before ++ [last] ->
     (forall h, find (@is_hxz S) (m_list M) = Some h ->
        zmem (qreg_of h) (map (@qreg_of S) (filter (@is_igate S) (m_list last))) = false) ->
     exists c' bss', api c k = Ok (c', true) /\ good_from dims pre bss' c' /\ bss' <> [] /\ c_out c' = c_out c /\
       forall psi s, valid dims s -> vec dims psi bss' s = kapply dims (amp dims g) (vec dims psi bss) s).
  { intros before last Elast Hno.
    pose proof (@populate_append S (c_flow c) before last M Elast Hmf Hnm Hno) as EP.
    rewrite EP in Eapi. cbn [bind] in Eapi. rewrite Hrv in Eapi.
    eexists. exists (bss ++ [fresh dims p b]). split; [exact Eapi|]. split; [|split; [|split]].
    - constructor.
      + apply shaped_set_flow; exact Hsh.
      + exact Hmeas.
      + unfold layers in *. cbn [set_flow c_flow f_list]. rewrite Elast in El. rewrite map_app in *. cbn [map] in *.
        rewrite map_app, app_assoc, <- El, <- app_assoc. reflexivity.
      + apply Forall_app. split; [exact HF|]. constructor; [exact Hfseg | constructor].
    - intros E. apply app_eq_nil in E as [_ E]. discriminate.
    - reflexivity.
    - intros psi s Hs. rewrite vec_snoc. apply kapply_ext; auto. }
  unfold layers in El.
  destruct (snoc_cases bss) as [->|[bss0 [bs ->]]].
  - cbn [map] in El. rewrite app_nil_r in El.
    destruct (snoc_cases pre) as [E|[pre' [l ->]]]; [contradiction|].
    apply map_snoc_inv in El as [before [last [Elast [E1 E2]]]].
    apply (Happend before last Elast). intros h Eh. destruct Hfirst as [Hf|[Hf|Hf]].
    + congruence.
    + rewrite E2, (Hf pre' l eq_refl). reflexivity.
    + unfold M in Eh. cbn [m_list mk_moment] in Eh. rewrite find_fresh, Hf in Eh. discriminate.
  - rewrite map_app, app_assoc in El. cbn [map] in El. apply map_snoc_inv in El as [before [last [Elast [E1 Hml]]]].
    apply Forall_app in HF as [HF1 HF2]. inversion HF2 as [|? ? Hseg _]; subst.
    destruct (find (@is_hxz S) (m_list M)) as [h|] eqn:Efind.
    2: { apply (Happend before last Elast). congruence. }
    destruct (zmem (qreg_of h) (map (@qreg_of S) (filter (@is_igate S) (m_list last)))) eqn:Ez.
    2: { apply (Happend before last Elast). intros h' E'. injection E' as <-. exact Ez. }
    rewrite Hml in Ez. apply igates_in in Ez as [bs1 [b0 [bs2 [-> [Hi Hq]]]]].
    pose proof (@populate_merge S (c_flow c) before last M h bs1 b0 bs2 dims Elast Hmf Efind Hml Hseg Hi Hq) as EP.
    rewrite EP in Eapi. cbn [bind] in Eapi. rewrite Hrv in Eapi.
    unfold M in Efind. cbn [m_list mk_moment] in Efind. rewrite find_fresh in Efind.
    destruct (is_hxz (bo b)) eqn:Ehxz; [|discriminate]. injection Efind as <-.
    destruct (of_hxz Ho Ehxz) as [Hw Hqb].
    pose proof (seg_app_inv _ _ Hseg) as [q [Hs1 Hs2]].
    pose proof (seg_width Hs1) as Ewq. simpl in Ewq.
    inversion Hs2 as [|p' b' bs' q' Hb0 Hs3]; subst p' b' bs' q'.
    destruct (bok_i Hb0 Hi) as [Eb0 [Ew0 Ek0]].
    assert (Epq : p = q).
    { rewrite Eb0 in Hq. simpl in Hq. rewrite Hqb in Hq. lia. }
    assert (Hseg' : seg dims 0 (bs1 ++ b :: bs2) (length dims)).
    { apply merge_seg with (b0 := b0); [exact Hseg | congruence|]. rewrite <- Ewq, <- Epq. apply (of_ok Ho). }
    eexists. exists (bss0 ++ [bs1 ++ b :: bs2]). split; [exact Eapi|]. split; [|split; [|split]].
    + constructor.
      * apply shaped_set_flow; exact Hsh.
      * exact Hmeas.
      * unfold layers. cbn [set_flow c_flow f_list]. rewrite !map_app, E1. cbn [map set_list m_list].
        rewrite map_app, <- app_assoc. reflexivity.
      * apply Forall_app. split; [exact HF1|]. constructor; [exact Hseg' | constructor].
    + intros E. apply app_eq_nil in E as [_ E]. discriminate.
    + reflexivity.
    + intros psi s Hs. rewrite !vec_snoc.
      rewrite kapply_ext with (K' := fun a t => bsum (fun u => smul (lkern (fresh dims p b) a u) (lkern (bs1 ++ b0 :: bs2) u t)) (all_configs dims))
                              (psi' := vec dims psi bss0); auto.
      * rewrite (kapply_comp L). apply kapply_ext; auto.
      * intros u Hu. apply (@merge_kern S L dims bs1 b0 b bs2 p s u Hseg); auto; congruence.
Qed.

(** The block of a gate that starts a layer. *)
Lemma starts_not_hxz : forall dims (k : call) (g : gate S) p (b : block), dims <> [] -> (forall d, In d dims -> 2 <= d) ->
  denotes dims k g -> starts_layer [g] -> offers dims k g p b -> is_hxz (bo b) = false.
Proof.
  intros dims k g p b Hne Hd Hk Hs Ho.
  assert (Hpos : forall d, In d dims -> 0 < d) by (intros d H; specialize (Hd d H); lia).
  assert (Hv : valid dims (start dims [])).
  { unfold start. cbn [app length]. rewrite Nat.sub_0_r. clear - Hpos. induction dims as [|d dims IH]; [constructor|].
    constructor; [apply Hpos; left; reflexivity | apply IH; intros x Hx; apply Hpos; right; exact Hx]. }
  destruct (@mk_circuit_good S dims [] None Hd (Nat.le_0_l _) Hv) as [y [Ey [Hg _]]].
  destruct (inv_new _ _ _ Ey) as [l0 I]. unfold nregs in I. rewrite map_length in I.
  destruct (add_gate L Hne Hg Ho) as [y' [bss' [Ea [Hg' [Hb [_ _]]]]]].
  assert (Eb : bss' = [fresh dims p b]).
  { destruct Hb as [Hb|[b1 [b2 [b3 [b4 [Hb _]]]]]]; [exact Hb|]. destruct b1; discriminate. }
  subst bss'. destruct Hg' as [_ _ [m0 [ms [El [_ HF]]]]]. inversion HF as [|m bs ? ? [Hm _] HF' Em]; subst. inversion HF'; subst.
  assert (Hkm : k <> CMeasureAll) by (destruct Hk; discriminate).
  destruct (inv_gate I Hkm Ea) as [[[X|X] _]|[_ [_ [_ [g0 [lo [hi [ls' [Hi [_ [Hadd [I' _]]]]]]]]]]]].
  - discriminate.
  - destruct dims; [contradiction | discriminate].
  - assert (Ns : is_hxz g0 = false) by (destruct Hk; cbn in Hs; try contradiction; inversion Hi; reflexivity).
    destruct Hadd as [-> _|lsb l1 d l2 Hh _ _ _]; [|congruence].
    pose proof (i_list I') as E. unfold layers in E. rewrite El in E. cbn [map app] in E. injection E as _ E. rewrite Hm in E.
    assert (Hin : In (bo b) (map (@bo S) (fresh dims p b))) by (apply in_map; unfold fresh; apply in_or_app; right; left; reflexivity).
    rewrite E in Hin. revert Hin. apply (@layer_forall S (fun o => is_hxz o = false)); [reflexivity | exact Ns].
Qed.

Lemma script_good_from : forall dims pre ks prog, dims <> [] -> (forall d, In d dims -> 0 < d) -> pre <> [] ->
  Forall2 (denotes dims) ks prog -> Forall (gate_ok dims) prog ->
  forall bss c, good_from dims pre bss c -> bss <> [] \/ quiet pre ->
  exists c' bss', script c ks = Ok c' /\ good_from dims pre bss' c' /\ c_out c' = c_out c /\
    (bss <> [] \/ prog <> [] -> bss' <> []) /\
    forall psi s, valid dims s -> vec dims psi bss' s = final dims prog (vec dims psi bss) s.
Proof.
  intros dims pre ks prog Hne Hpos Hpre HF; induction HF as [|k g ks prog Hkg HF IH]; intros Hok bss c Hg Hq.
  - exists c, bss. simpl. repeat split; auto; try apply Hg. intros [H|H]; [exact H | congruence].
  - inversion Hok as [|g' prog' Hok1 Hok2]; subst.
    destruct (denotes_offers L Hpos Hkg Hok1) as [p [b Ho]].
    assert (Hq' : bss <> [] \/ quiet pre \/ is_hxz (bo b) = false) by tauto.
    destruct (add_gate_from Hne Hpre Hg Ho Hq') as [c1 [bss1 [E1 [Hg1 [Hn1 [Eo1 Ev1]]]]]].
    destruct (IH Hok2 _ _ Hg1 (or_introl Hn1)) as [c2 [bss2 [E2 [Hg2 [Eo2 [Hn2 Ev2]]]]]].
    exists c2, bss2. split; [simpl; rewrite E1; exact E2|]. split; [exact Hg2|].
    split; [congruence|]. split; [auto|]. intros psi s Hs. rewrite Ev2 by exact Hs. simpl.
    apply final_ext; [|exact Hs]. intros u Hu. rewrite apply_kapply. apply Ev1; exact Hu.
Qed.

Lemma script_starts : forall dims pre ks prog, dims <> [] -> (forall d, In d dims -> 2 <= d) -> pre <> [] ->
  Forall2 (denotes dims) ks prog -> Forall (gate_ok dims) prog -> quiet pre \/ starts_layer prog ->
  forall c, good_from dims pre [] c ->
  exists c' bss', script c ks = Ok c' /\ good_from dims pre bss' c' /\ c_out c' = c_out c /\
    (prog <> [] -> bss' <> []) /\
    forall psi s, valid dims s -> vec dims psi bss' s = final dims prog psi s.
Proof.
  intros dims pre ks prog Hne Hd Hpre HF Hok Hq c Hg.
  assert (Hpos : forall d, In d dims -> 0 < d) by (intros d H; specialize (Hd d H); lia).
  destruct Hq as [Hq|Hq].
  - destruct (@script_good_from dims pre ks prog Hne Hpos Hpre HF Hok [] c Hg (or_intror Hq)) as [c' [bss' [E1 [E2 [E3 [E4 E5]]]]]].
    exists c', bss'. repeat split; auto; apply E2.
  - destruct HF as [|k g ks prog Hkg HF].
    + exists c, []. split; [reflexivity|]. split; [exact Hg|]. split; [reflexivity|]. split; [congruence | reflexivity].
    + inversion Hok as [|g' prog' Hok1 Hok2]; subst.
      destruct (denotes_offers L Hpos Hkg Hok1) as [p [b Ho]].
      assert (Hb : is_hxz (bo b) = false) by (eapply starts_not_hxz; eassumption).
      destruct (add_gate_from Hne Hpre Hg Ho (or_intror (or_intror Hb))) as [c1 [bss1 [E1 [Hg1 [Hn1 [Eo1 Ev1]]]]]].
      destruct (@script_good_from dims pre ks prog Hne Hpos Hpre HF Hok2 _ _ Hg1 (or_introl Hn1)) as [c2 [bss2 [E2 [Hg2 [Eo2 [Hn2 Ev2]]]]]].
      exists c2, bss2. split; [simpl; rewrite E1; exact E2|]. split; [exact Hg2|].
      split; [congruence|]. split; [intros _; auto|]. intros psi s Hs. rewrite Ev2 by exact Hs. simpl.
      apply final_ext; [|exact Hs]. intros u Hu. rewrite apply_kapply. apply Ev1; exact Hu.
Qed.

(** ** Measuring and running *)
Lemma measure_from : forall dims pre bss c, dims <> [] -> pre <> [] -> good_from dims pre bss c ->
  exists c', api c CMeasureAll = Ok (c', true) /\ c_out c' = c_out c /\
    flow_exec NB (c_flow c') = fold_left exec_ops (rev (pre ++ map (map (@bo S)) bss)) (Ok None).
Proof.
  intros dims pre bss c Hne Hpre [Hsh Hmeas El HF].
  assert (Hn : 0 < length dims) by (destruct dims; [contradiction | simpl; lia]).
  destruct (snoc_cases (f_list (c_flow c))) as [E|[before [last Elast]]].
  { unfold layers in El. rewrite E in El. destruct pre; [contradiction | discriminate]. }
  cbn [api]. rewrite (shaped_len_ok Hsh), map_map, (sh_dims Hsh), map_length.
  set (ops := map (fun x => OMeas (S := S) (Z.of_nat x)) (seq 0 (length dims))).
  assert (Ef : find (@is_hxz S) ops = None) by (unfold ops; induction (seq 0 (length dims)); simpl; auto).
  unfold populate_opflow. rewrite Elast, rev_unit, Hmeas, all_false_meas by exact Hn.
  cbn [mk_moment m_list]. rewrite Ef. cbn [bind]. unfold ops at 1. rewrite detect_all by (rewrite repeat_length; lia).
  cbn [bind]. rewrite append_moment_snoc.
  eexists. split; [reflexivity|]. split; [reflexivity|].
  unfold flow_exec. cbn [set_flow c_flow f_meas f_list]. simpl firstn. rewrite skipn_all2 by (rewrite repeat_length; lia).
  simpl app. rewrite app_nil_r.
  replace (forallb (fun b => b) (repeat true (length dims))) with true by (clear; induction (length dims); simpl; auto).
  replace (before ++ [set_next _ last; _]) with ((before ++ [set_next (length (before ++ [last])) last]) ++ [set_prev (m_name last) (mk_moment (length (before ++ [last])) ops)])
    by (rewrite <- app_assoc; reflexivity).
  rewrite rev_unit.
  match goal with |- fold_left ?f ?l ?a = _ => change (fold_left f l a) with (@fold_left (res (option (mat S))) _ (@exec_step S) l (Ok None)) end.
  rewrite exec_ops_steps, map_rev. f_equal. f_equal. rewrite <- El. unfold layers. rewrite Elast, !map_app. reflexivity.
Qed.

Lemma exec_gate_layers : forall dims, dims <> [] -> forall bss, Forall (fun bs => seg dims 0 bs (length dims)) bss -> bss <> [] ->
  exists A, fold_left exec_ops (rev (map (map (@bo S)) bss)) (Ok None) = Ok (Some A) /\
    exists Ka, repr dims dims A Ka /\ forall psi s, valid dims s -> kapply dims Ka psi s = vec dims psi bss s.
Proof.
  intros dims Hne.
  assert (G : forall bss, Forall (fun bs => seg dims 0 bs (length dims)) bss -> forall A Ka, repr dims dims A Ka ->
    exists A', fold_left exec_ops (rev (map (map (@bo S)) bss)) (Ok (Some A)) = Ok (Some A') /\
    exists Ka', repr dims dims A' Ka' /\ forall psi s, valid dims s -> kapply dims Ka' psi s = kapply dims Ka (vec dims psi bss) s).
  { induction bss as [|bs bss IH] using rev_ind; intros HF A Ka RA.
    - exists A. split; [reflexivity|]. exists Ka. split; [exact RA|]. reflexivity.
    - apply Forall_app in HF as [HF HF2]. inversion HF2 as [|? ? Hseg _]; subst.
      rewrite map_app. cbn [map]. rewrite rev_unit. cbn [fold_left]. unfold AliasRun.exec_ops at 2. cbn [bind].
      destruct (exec_layer L Hseg Hne) as [Mb [Eb Rb]]. rewrite Eb. cbn [bind b_dot NumpyBackend].
      destruct (repr_dot RA Rb) as [M1 [ED R1]]. rewrite ED. cbn [bind].
      destruct (IH HF M1 _ R1) as [A' [EA [Ka' [RA' EK]]]]. exists A'. split; [exact EA|]. exists Ka'. split; [exact RA'|].
      intros psi s Hs. rewrite EK, (kapply_comp L), vec_snoc by exact Hs. reflexivity. }
  intros bss HF Hn. destruct (snoc_cases bss) as [->|[bss' [bs ->]]]; [congruence|].
  apply Forall_app in HF as [HF HF2]. inversion HF2 as [|? ? Hseg _]; subst.
  rewrite map_app. cbn [map]. rewrite rev_unit. cbn [fold_left]. unfold AliasRun.exec_ops at 2. cbn [bind].
  destruct (exec_layer L Hseg Hne) as [Mb [Eb Rb]]. rewrite Eb. cbn [bind].
  destruct (G bss' HF Mb _ Rb) as [A' [EA [Ka' [RA' EK]]]]. exists A'. split; [exact EA|]. exists Ka'. split; [exact RA'|].
  intros psi s Hs. rewrite EK, vec_snoc by exact Hs. reflexivity.
Qed.

(** A circuit as it was before the edit. *)
Lemma exec_before : forall dims init bss ls, dims <> [] -> valid dims init ->
  ls = init_ops S dims init :: map (map (@bo S)) bss -> Forall (fun bs => seg dims 0 bs (length dims)) bss ->
  forall A Ka, repr dims dims A Ka ->
  exists M, fold_left exec_ops (rev ls) (Ok (Some A)) = Ok (Some M) /\
    repr dims [] M (fun s _ => kapply dims Ka (vec dims (basis S init) bss) s).
Proof.
  intros dims init bss ls Hne Hv -> HF A Ka RA.
  set (mk := fun l => mk_moment (S := S) 0 l).
  destruct (@exec_layers S L dims init (mk (init_ops S dims init)) Hne Hv eq_refl bss (map mk (map (map (@bo S)) bss))) with (A := A) (Ka := Ka) as [M [E R]].
  - clear - HF. induction HF as [|bs bss H HF IH]; cbn [map]; constructor; [split; [reflexivity | exact H] | exact IH].
  - exact RA.
  - exists M. split; [|exact R]. rewrite exec_ops_steps, map_rev in E. cbn [map] in E. rewrite map_map in E.
    replace (map (fun x => m_list (mk x)) (map (map (@bo S)) bss)) with (map (map (@bo S)) bss) in E by (symmetry; apply map_id).
    exact E.
Qed.

(** ** The same amplitudes at other places *)
Lemma renamed_some : forall dims dims' s, valid dims s -> prodn dims = prodn dims' ->
  renamed dims dims' s = Some (unlin dims' (lin dims s)).
Proof.
  intros dims dims' s Hs Hp. unfold renamed. rewrite (position_lin Hs). pose proof (lin_lt Hs) as Hlt. rewrite Hp in Hlt.
  destruct (nth_error_lin _ Hlt) as [s' [Hs' [El En]]]. rewrite En, <- El, unlin_lin by exact Hs'. reflexivity.
Qed.

Lemma carried_eq : forall dims dims' psi s, valid dims' s -> prodn dims = prodn dims' ->
  carried S dims dims' psi s = psi (unlin dims (lin dims' s)).
Proof. intros dims dims' psi s Hs Hp. unfold carried. rewrite renamed_some by auto. reflexivity. Qed.

Lemma repr_moved : forall dims dims' (A : mat S) Ka, prodn dims = prodn dims' -> repr dims' dims' A Ka ->
  repr dims dims A (fun s t => Ka (unlin dims' (lin dims s)) (unlin dims' (lin dims t))).
Proof.
  intros dims dims' A Ka Hp [H1 H2 H3]. constructor; [congruence | congruence|]. intros s t Hs Ht.
  pose proof (lin_lt Hs) as Ls. pose proof (lin_lt Ht) as Lt. rewrite Hp in Ls, Lt.
  rewrite <- H3 by (apply unlin_valid; assumption). rewrite !lin_unlin by assumption. reflexivity.
Qed.

Lemma bsum_moved : forall dims dims' f, prodn dims = prodn dims' ->
  bsum f (all_configs dims) = bsum (S := S) (fun s => f (unlin dims (lin dims' s))) (all_configs dims').
Proof.
  intros dims dims' f Hp.
  assert (E : all_configs dims = map (unlin dims) (seq 0 (prodn dims))).
  { rewrite <- lin_all_configs, map_map. symmetry. rewrite <- (map_id (all_configs dims)) at 2. apply map_ext_in.
    intros s Hs. apply unlin_lin, in_all_configs, Hs. }
  rewrite E, bsum_map, Hp, <- (lin_all_configs dims'), bsum_map. reflexivity.
Qed.

Lemma kapply_moved : forall dims dims' Ka psi s, prodn dims = prodn dims' -> valid dims' s ->
  kapply dims (fun s t => Ka (unlin dims' (lin dims s)) (unlin dims' (lin dims t))) psi (unlin dims (lin dims' s))
  = kapply dims' Ka (carried S dims dims' psi) s.
Proof.
  intros dims dims' Ka psi s Hp Hs. unfold Layers.kapply. rewrite (bsum_moved dims dims') by exact Hp.
  apply bsum_ext. intros u Hu. apply in_all_configs in Hu.
  pose proof (lin_lt Hs) as Ls. pose proof (lin_lt Hu) as Lu. rewrite <- Hp in Ls, Lu.
  rewrite !lin_unlin, !unlin_lin, carried_eq by assumption. reflexivity.
Qed.

Lemma repr_carried : forall dims dims' (M : mat S) psi, prodn dims = prodn dims' -> repr dims [] M (fun s _ => psi s) ->
  repr dims' [] M (fun s _ => carried S dims dims' psi s).
Proof.
  intros dims dims' M psi Hp [H1 H2 H3]. constructor; [congruence | exact H2|]. intros s t Hs Ht.
  pose proof (lin_lt Hs) as Ls. rewrite <- Hp in Ls.
  rewrite carried_eq, <- (H3 _ t) by (auto using unlin_valid). rewrite lin_unlin by exact Ls. reflexivity.
Qed.

(** ** Everything together *)
Section Main.
Variables (dims levels dims' : list nat) (ks ks' : list call) (prog prog' : list (gate S)).
Hypothesis Hne : dims <> [].
Hypothesis Hd : forall d, In d dims -> 2 <= d.
Hypothesis Hlen : length levels <= length dims.
Hypothesis Hv : valid dims (start dims levels).
Hypothesis HF : Forall2 (denotes dims) ks prog.
Hypothesis Hok : Forall (gate_ok dims) prog.
Hypothesis Hsame : length dims' = length dims.
Hypothesis Hd' : forall d, In d dims' -> 2 <= d.
Hypothesis HF' : Forall2 (denotes dims') ks' prog'.
Hypothesis Hok' : Forall (gate_ok dims') prog'.
Hypothesis Hstart : ks = [] \/ starts_layer prog'.

(** Without an Output, or with one of the caller. *)
Variable oo : option output.
Let out' := match oo with Some o => o | None => {| o_base := map Z.of_nat dims'; o_type := OutPrint; o_method := OutAmplitude |} end.
Let edited := match oo with
  | None => simulate_edited_between NB (map Z.of_nat dims) (Some (map Z.of_nat levels)) ks (map Z.of_nat dims') ks'
  | Some o => simulate_edited_output NB (map Z.of_nat dims) (Some (map Z.of_nat levels)) o ks (map Z.of_nat dims') ks'
  end.

Lemma between_layers : exists bss bss',
  edited
  = (r <- fold_left exec_ops (rev ((init_ops S dims (start dims levels) :: map (map (@bo S)) bss) ++ map (map (@bo S)) bss')) (Ok None) ;;
     match r with Some M => output_call out' M | None => Err AttributeError end) /\
  Forall (fun bs => seg dims 0 bs (length dims)) bss /\ Forall (fun bs => seg dims' 0 bs (length dims')) bss' /\
  (prog' <> [] -> bss' <> []) /\
  (forall psi s, valid dims s -> vec dims psi bss s = final dims prog psi s) /\
  (forall psi s, valid dims' s -> vec dims' psi bss' s = final dims' prog' psi s).
Proof.
  assert (Hpos : forall d, In d dims -> 0 < d) by (intros d H; specialize (Hd d H); lia).
  assert (Hne' : dims' <> []) by (intros ->; destruct dims; [contradiction | discriminate]).
  destruct (@mk_circuit_good S dims levels oo Hd Hlen Hv) as [c0 [E0 [Hg0 Eo0]]].
  destruct (script_good L Hne Hpos HF Hok Hg0) as [c1 [bss1 [E1 [Hg1 [Eo1 Ev1]]]]].
  set (c1' := match oo with None => edit_regs (map Z.of_nat dims') c1 | Some _ => edit_dims (map Z.of_nat dims') c1 end).
  assert (Ee : edited = (c'' <- script c1' (ks' ++ [CMeasureAll]) ;; run NB c'')).
  { unfold edited, c1', simulate_edited_between, simulate_edited_output. destruct oo; rewrite E0; cbn [bind]; rewrite E1; reflexivity. }
  rewrite Ee. clear Ee.
  destruct Hg1 as [Hsh Hmeas [m0 [ms [El [Em0 HFl]]]]].
  set (pre := init_ops S dims (start dims levels) :: map (map (@bo S)) bss1).
  assert (Epre : layers c1 = pre).
  { unfold layers, pre. rewrite El. cbn [map]. rewrite Em0. f_equal. clear - HFl. induction HFl as [|m bs ms bss [H _] _ IH]; [reflexivity|].
    cbn [map]. rewrite H, IH. reflexivity. }
  assert (Hseg : Forall (fun bs => seg dims 0 bs (length dims)) bss1).
  { clear - HFl. induction HFl as [|m bs ms bss [_ H] _ IH]; constructor; assumption. }
  assert (Hg1' : good_from dims' pre [] c1').
  { constructor.
    - constructor; [unfold c1'; destruct oo; reflexivity.. |]. replace (c_len c1') with (c_len c1) by (unfold c1'; destruct oo; reflexivity). rewrite (sh_len Hsh), Hsame. reflexivity.
    - replace (c_flow c1') with (c_flow c1) by (unfold c1'; destruct oo; reflexivity). rewrite Hmeas, Hsame. reflexivity.
    - cbn [map]. rewrite app_nil_r. rewrite <- Epre. unfold c1'; destruct oo; reflexivity.
    - constructor. }
  assert (Hq : quiet pre \/ starts_layer prog').
  { destruct Hstart as [Hk|Hk]; [left|right; exact Hk]. subst ks. inversion HF; subst. cbn [script] in E1. injection E1 as <-.
    destruct Hg0 as [_ _ [m0' [ms' [El' [Em0' HF0]]]]]. inversion HF0; subst. rewrite El in El'. injection El' as <- ->. inversion HFl; subst.
    intros pre' l E. unfold pre in E. cbn [map] in E. destruct pre' as [|? [|? ?]]; try discriminate. injection E as <-. apply no_igates_init. }
  assert (Hpre : pre <> []) by discriminate.
  destruct (@script_starts dims' pre ks' prog' Hne' Hd' Hpre HF' Hok' Hq c1' Hg1') as [c2 [bss2 [E2 [Hg2 [Eo2 [Hn2 Ev2]]]]]].
  rewrite script_app, E2. cbn [bind script].
  destruct (measure_from Hne' Hpre Hg2) as [c3 [E3 [Eo3 Ex3]]]. rewrite E3. cbn [bind].
  exists bss1, bss2. split; [|split; [exact Hseg|]; split; [exact (gf_seg Hg2)|]; split; [exact Hn2|]; split; [exact Ev1 | exact Ev2]].
  unfold run. assert (Eo : c_out c3 = out').
  { rewrite Eo3, Eo2. unfold c1', out'. destruct oo; cbn [edit_regs edit_dims c_out]; rewrite Eo1, Eo0; reflexivity. }
  rewrite Eo, Ex3. reflexivity.
Qed.

Lemma edited_same : prodn dims = prodn dims' ->
  edited = labelled S dims' out' (answer dims' (final dims' prog'
      (carried S dims dims' (final dims prog (basis S (start dims levels)))))).
Proof.
  intros Hp. destruct between_layers as [bss [bss' [E [H1 [H2 [_ [V1 V2]]]]]]]. rewrite E. clear E.
  assert (Hne' : dims' <> []) by (intros ->; destruct dims; [contradiction | discriminate]).
  set (psi := vec dims (basis S (start dims levels)) bss).
  assert (G : exists M, fold_left exec_ops (rev ((init_ops S dims (start dims levels) :: map (map (@bo S)) bss) ++ map (map (@bo S)) bss')) (Ok None) = Ok (Some M) /\
            repr dims' [] M (fun s _ => vec dims' (carried S dims dims' psi) bss' s)).
  { rewrite rev_app_distr, fold_left_app. destruct bss' as [|bs bss2] eqn:Eb.
    - cbn [map rev fold_left]. set (mk := fun l => mk_moment (S := S) 0 l).
      destruct (@exec_all S L dims (start dims levels) (mk (init_ops S dims (start dims levels))) bss (map mk (map (map (@bo S)) bss)) Hne Hv eq_refl) as [M [EM R]].
      + clear - H1. induction H1 as [|bs bss H HF IH]; cbn [map]; constructor; [split; [reflexivity | exact H] | exact IH].
      + exists M. split; [|apply repr_carried; assumption]. rewrite exec_ops_steps, map_rev in EM. cbn [map] in EM. rewrite map_map in EM.
        replace (map (fun x => m_list (mk x)) (map (map (@bo S)) bss)) with (map (map (@bo S)) bss) in EM by (symmetry; apply map_id).
        exact EM.
    - rewrite <- Eb in *. destruct (exec_gate_layers Hne' H2) as [A [EA [Ka [RA EK]]]]; [congruence|]. rewrite EA.
      destruct (exec_before Hne Hv eq_refl H1 (repr_moved dims Hp RA)) as [M [EM R]]. exists M. split; [exact EM|].
      apply (@repr_carried dims dims' M _ Hp) in R. eapply repr_ext; [|exact R]. intros s t Hs _. cbn beta.
      rewrite carried_eq, (@kapply_moved dims dims' Ka _ s Hp Hs), EK by auto. reflexivity. }
  destruct G as [M [EM R]]. rewrite EM. cbn [bind]. rewrite (output_any _ _ R).
  rewrite (answer_ext S _ _ (fun s Hs => V2 _ s Hs)).
  rewrite (answer_ext S (final dims' prog' (carried S dims dims' psi)) (final dims' prog' (carried S dims dims' (final dims prog (basis S (start dims levels)))))).
  - reflexivity.
  - apply final_ext. intros s Hs. rewrite !carried_eq by assumption. unfold psi. apply V1, unlin_valid.
    pose proof (lin_lt Hs). lia.
Qed.

Lemma edited_other : prodn dims <> prodn dims' -> ks' <> [] -> edited = Err ValueError.
Proof.
  intros Hp Hk. destruct between_layers as [bss [bss' [E [H1 [H2 [Hn [_ _]]]]]]]. rewrite E. clear E.
  assert (Hne' : dims' <> []) by (intros ->; destruct dims; [contradiction | discriminate]).
  assert (Hn' : bss' <> []) by (apply Hn; destruct HF'; [contradiction | discriminate]).
  rewrite rev_app_distr, fold_left_app. destruct (exec_gate_layers Hne' H2 Hn') as [A [EA [Ka [RA EK]]]]. rewrite EA.
  assert (G : fold_left exec_ops (rev (init_ops S dims (start dims levels) :: map (map (@bo S)) bss)) (Ok (Some A)) = Err ValueError).
  { assert (Bad : forall (M : mat S) rest l, moment_exec NB l = Ok M -> mr M = prodn dims ->
      fold_left exec_ops rest (exec_ops (Ok (Some A)) l) = Err ValueError).
    { intros M rest l EM Em. unfold AliasRun.exec_ops at 2. cbn [bind]. rewrite EM. cbn [bind b_dot NumpyBackend].
      unfold ddot. rewrite Em, (repr_mc RA). destruct (Nat.eqb_spec (prodn dims') (prodn dims)); [congruence|]. cbn [bind]. apply exec_ops_err. }
    destruct (snoc_cases bss) as [->|[bss0 [bs ->]]].
    - cbn [map rev app fold_left]. destruct (@init_exec S L dims (start dims levels) Hne Hv) as [M0 [EM R0]].
      apply (Bad M0 [] _ EM (repr_mr R0)).
    - apply Forall_app in H1 as [_ H1]. inversion H1 as [|? ? Hseg _]; subst.
      rewrite map_app. cbn [map]. rewrite app_comm_cons, rev_unit. cbn [fold_left].
      destruct (exec_layer L Hseg Hne) as [Mb [Eb Rb]]. apply (Bad Mb _ _ Eb (repr_mr Rb)). }
  rewrite G. reflexivity.
Qed.
End Main.

Theorem between_same : forall dims levels dims' ks ks' prog prog', dims <> [] -> (forall d, In d dims -> 2 <= d) -> length levels <= length dims -> valid dims (start dims levels) ->
  Forall2 (denotes dims) ks prog -> Forall (gate_ok dims) prog -> length dims' = length dims -> (forall d, In d dims' -> 2 <= d) ->
  Forall2 (denotes dims') ks' prog' -> Forall (gate_ok dims') prog' -> ks = [] \/ starts_layer prog' ->
  prodn dims = prodn dims' ->
  simulate_edited_between NB (map Z.of_nat dims) (Some (map Z.of_nat levels)) ks (map Z.of_nat dims') ks'
  = Ok (report OutPrint OutAmplitude (answer dims' (final dims' prog'
      (carried S dims dims' (final dims prog (basis S (start dims levels))))))).
Proof.
  intros dims levels dims' ks ks' prog prog' H1 H2 H3 H4 H5 H6 H7 H8 H9 H10 H11 Hp.
  rewrite (@edited_same dims levels dims' ks ks' prog prog' H1 H2 H3 H4 H5 H6 H7 H8 H9 H10 H11 None Hp), labelled_own by reflexivity. reflexivity.
Qed.

Theorem output_same : forall dims levels dims' ks ks' prog prog', dims <> [] -> (forall d, In d dims -> 2 <= d) -> length levels <= length dims -> valid dims (start dims levels) ->
  Forall2 (denotes dims) ks prog -> Forall (gate_ok dims) prog -> length dims' = length dims -> (forall d, In d dims' -> 2 <= d) ->
  Forall2 (denotes dims') ks' prog' -> Forall (gate_ok dims') prog' -> ks = [] \/ starts_layer prog' ->
  forall o, prodn dims = prodn dims' ->
  simulate_edited_output NB (map Z.of_nat dims) (Some (map Z.of_nat levels)) o ks (map Z.of_nat dims') ks'
  = labelled S dims' o (answer dims' (final dims' prog' (carried S dims dims' (final dims prog (basis S (start dims levels)))))).
Proof.
  intros dims levels dims' ks ks' prog prog' H1 H2 H3 H4 H5 H6 H7 H8 H9 H10 H11 o Hp.
  exact (@edited_same dims levels dims' ks ks' prog prog' H1 H2 H3 H4 H5 H6 H7 H8 H9 H10 H11 (Some o) Hp).
Qed.

Theorem between_other : forall dims levels dims' ks ks' prog prog', dims <> [] -> (forall d, In d dims -> 2 <= d) -> length levels <= length dims -> valid dims (start dims levels) ->
  Forall2 (denotes dims) ks prog -> Forall (gate_ok dims) prog -> length dims' = length dims -> (forall d, In d dims' -> 2 <= d) ->
  Forall2 (denotes dims') ks' prog' -> Forall (gate_ok dims') prog' -> ks = [] \/ starts_layer prog' ->
  prodn dims <> prodn dims' -> ks' <> [] ->
  simulate_edited_between NB (map Z.of_nat dims) (Some (map Z.of_nat levels)) ks (map Z.of_nat dims') ks' = Err ValueError /\
  forall o, simulate_edited_output NB (map Z.of_nat dims) (Some (map Z.of_nat levels)) o ks (map Z.of_nat dims') ks' = Err ValueError.
Proof.
  intros dims levels dims' ks ks' prog prog' H1 H2 H3 H4 H5 H6 H7 H8 H9 H10 H11 Hp Hk.
  split; [exact (@edited_other dims levels dims' ks ks' prog prog' H1 H2 H3 H4 H5 H6 H7 H8 H9 H10 H11 None Hp Hk)|].
  intros o. exact (@edited_other dims levels dims' ks ks' prog prog' H1 H2 H3 H4 H5 H6 H7 H8 H9 H10 H11 (Some o) Hp Hk).
Qed.

(** The number of registers is that at construction. *)
Lemma script_len : forall dims levels out ks prog, dims <> [] -> (forall d, In d dims -> 2 <= d) -> length levels <= length dims ->
  valid dims (start dims levels) -> Forall2 (denotes dims) ks prog -> Forall (gate_ok dims) prog ->
  exists c0 c1, mk_circuit S (QList (map Z.of_nat dims)) (Some (map Z.of_nat levels)) out = Ok c0 /\ script c0 ks = Ok c1 /\
    c_len c1 = Z.of_nat (length dims).
Proof.
  intros dims levels out ks prog Hne Hd Hlen Hv HF Hok.
  assert (Hpos : forall d, In d dims -> 0 < d) by (intros d H; specialize (Hd d H); lia).
  destruct (@mk_circuit_good S dims levels out Hd Hlen Hv) as [c0 [E0 [Hg0 _]]].
  destruct (script_good L Hne Hpos HF Hok Hg0) as [c1 [bss1 [E1 [Hg1 _]]]].
  exists c0, c1. split; [exact E0|]. split; [exact E1|]. destruct Hg1 as [Hsh _ _]. exact (sh_len Hsh).
Qed.

(** Without calls after the edit. *)
Lemma between_none : forall (B : backend S) regs init ks l,
  simulate_edited_between B regs init ks l [] = simulate_edited B regs init ks l.
Proof.
  intros B regs init ks l. unfold simulate_edited_between, simulate_edited.
  destruct (mk_circuit S (QList regs) init None) as [c|e]; [|reflexivity]. cbn [bind]. rewrite script_app.
  destruct (script c ks) as [c1|e]; [|reflexivity]. cbn [bind app script api edit_regs c_len c_flow].
  destruct (populate_opflow _ _) as [[f b]|e]; reflexivity.
Qed.
End AliasMid.
