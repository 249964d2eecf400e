(** * BadGates: gates that are accepted but make every later run fail. *)
From Verif Require Import Py Scalar Mat Utils Gates Circuit Spec Calls HistSpec CallSpec Lib Kern GateMat GateTof Flow Layers Blocks Refine History Merge Errors Construct Ignored.
Set Implicit Arguments.

Section BadGates.
Variable S : scalar.
Notation op := (op S).
Notation circuit := (circuit S).
Notation call := (call S).
Notation NB := (NumpyBackend S).

Lemma issues_fun : forall (c : circuit) k g g', issues c k g -> issues c k g' -> g = g'.
Proof.
  intros c k g g' H H'. destruct H; inversion H'; subst; try congruence.
  assert (a3 = a0) as -> by congruence. assert (a4 = a1) as -> by congruence. reflexivity.
Qed.

Lemma issues_layer : forall (c : circuit) k g, len_ok c -> issues c k g -> registers g <> [] ->
  exists lo hi, ranges g lo hi /\ gate_layer c k = Ok (layer_list (c_dims c) lo hi g (length (c_dims c))).
Proof.
  intros c k g Hl H Hr.
  assert (Lst : forall l, l <> [] -> exists lo hi, py_min l = Ok lo /\ py_max l = Ok hi /\
     forall g, moment_data c (RList l) g = Ok (layer_list (c_dims c) lo hi g (length (c_dims c)))).
  { intros [|x l] Hne; [congruence|]. destruct (py_min_ex x l) as [lo [Elo _]]. destruct (py_max_ex x l) as [hi [Ehi _]].
    exists lo, hi. split; [exact Elo|]. split; [exact Ehi|]. intros g0. apply moment_data_list; assumption. }
  destruct H as [q dm d V D|q dm p d V D|q dm d V D|a p a0 a1 A0 A1|cs t p ds acting u Hm|q dm d u V D|l dm ds u V D];
    cbn [gate_layer validate].
  1-3: rewrite V, D; cbn [bind]; rewrite moment_data_int by exact Hl; rewrite layer_int_list;
       exists q, q; split; [apply ranges_single; reflexivity | reflexivity].
  - rewrite A0, A1. cbn [bind]. destruct (Lst a Hr) as [lo [hi [E1 [E2 E]]]]. exists lo, hi. split; [|apply E].
    eapply ranges_list; eauto.
  - rewrite Hm. cbn [bind]. pose proof Hm as Hm'. apply mk_toffoli_shape in Hm' as [lb [ub [ds' [u' [E1 [E2 X]]]]]].
    injection X as -> -> ->. assert (Hle : (lb <= ub)%Z) by (eapply py_min_max_le; eauto).
    destruct (@zrange_minmax lb ub Hle) as [Z1 Z2]. exists lb, ub. split.
    + eapply ranges_list; [reflexivity| |].
      * eapply py_min_perm; [|exact E1]. intros x. apply in_snoc_cons.
      * eapply py_max_perm; [|exact E2]. intros x. apply in_snoc_cons.
    + apply moment_data_list; assumption.
  - rewrite V, D. cbn [bind]. rewrite moment_data_int by exact Hl. rewrite layer_int_list.
    exists q, q. split; [apply ranges_single; reflexivity | reflexivity].
  - cbn [validate] in V. rewrite V. cbn [bind]. rewrite D. cbn [bind].
    destruct (Lst l Hr) as [lo [hi [E1 [E2 E]]]]. exists lo, hi. split; [|apply E]. eapply ranges_list; eauto.
Qed.

(** A call that builds a gate is accepted. *)
Theorem accepts : forall q init out ks (c : circuit) k g, history q init out ks c -> 0 < nregs q ->
  ~ In CMeasureAll ks -> issues c k g -> registers g <> [] -> exists c', api c k = Ok (c', true).
Proof.
  intros q init out ks c k g H Hn Hm Hi Hr. destruct (history_inv H) as [l0 [ls I]].
  assert (Em : (0 <? nregs q) && existsb (@is_measure_all S) ks = false).
  { destruct (existsb _ ks) eqn:E; [|apply andb_false_r]. apply measured_in in E. contradiction. }
  rewrite Em in I. destruct (issues_layer (i_len I) Hi Hr) as [lo [hi [Hrg E]]].
  rewrite (i_dims I) in E. destruct (populate_gate I Hi Hrg) as [f [b [Ep X]]].
  rewrite api_layer, E. cbn [bind]. unfold new_moment in Ep. rewrite Ep. cbn [bind].
  destruct X as [[[X|X] _]|[_ [_ [-> _]]]]; [discriminate | lia |]. rewrite orb_true_r. eauto.
Qed.

Lemma occupies_regs : forall n (g : op), occupies n g <> [] -> registers g <> [].
Proof.
  intros n g H E. apply H. unfold occupies, covers. rewrite E. simpl. clear. induction (seq 0 n); simpl; auto.
Qed.

(** A placed gate whose matrix cannot be computed is accepted, and the circuit
    never runs again. *)
Theorem poison : forall q init out ks (c : circuit) k g e, history q init out ks c -> 0 < nregs q ->
  ~ In CMeasureAll ks -> issues c k g -> occupies (nregs q) g <> [] -> unitary NB g = Err e ->
  exists c', api c k = Ok (c', true) /\ never_runs c'.
Proof.
  intros q init out ks c k g e H Hn Hm Hi Ho He.
  destruct (accepts H Hn Hm Hi (occupies_regs _ _ Ho)) as [c' E]. exists c'. split; [exact E|].
  assert (Hk : k <> CMeasureAll) by (intros ->; inversion Hi).
  apply (@bad_gate S q init out ks c k c' true H Hn Hm Hk E).
  intros g' Hg'. rewrite <- (issues_fun Hi Hg'). eauto.
Qed.

Lemma x_out : forall q d p, (p < - Z.of_nat d \/ Z.of_nat d <= p)%Z -> unitary NB (OX q (Z.of_nat d) p) = Err IndexError.
Proof.
  intros q d p Hp. cbn [unitary]. unfold x_unitary. destruct (Z.ltb_spec (Z.of_nat d) 0); [lia|]. rewrite Nat2Z.id.
  unfold py_index.
  replace ((0 <=? p) && (p <? Z.of_nat d))%Z with false by (symmetry; apply andb_false_iff; rewrite Z.leb_gt, Z.ltb_ge; lia).
  replace ((- Z.of_nat d <=? p) && (p <? 0))%Z with false by (symmetry; apply andb_false_iff; rewrite Z.leb_gt, Z.ltb_ge; lia).
  reflexivity.
Qed.

Section List.
Variable dims : list nat.
Variables (init : option (list Z)) (out : option output) (ks : list call) (c : circuit).
Hypothesis H : history (QList (map Z.of_nat dims)) init out ks c.
Hypothesis Hm : ~ In CMeasureAll ks.

Lemma hl_shaped : shaped dims c.
Proof. destruct (history_layout H) as [H1 [H2 [H3 _]]]. constructor; auto. rewrite H2, map_length. reflexivity. Qed.

Lemma hl_nregs : nregs (QList (map Z.of_nat dims)) = length dims.
Proof. simpl. apply map_length. Qed.

Lemma hl_dims : forall r, r < length dims -> 2 <= nth r dims 0.
Proof.
  intros r Hr. assert (2 <= Z.of_nat (nth r dims O))%Z; [|lia].
  apply (history_dims2 H). apply in_map. apply nth_In. exact Hr.
Qed.

Lemma hl_get : forall r, r < length dims -> py_get (c_dims c) (Z.of_nat r) = Ok (Z.of_nat (nth r dims 0)).
Proof.
  intros r Hr. rewrite (sh_dims hl_shaped). 
  rewrite (@Lib.py_get_nat Z _ _ 0%Z) by (rewrite map_length; exact Hr). f_equal. apply GateTof.nth_map_Z.
Qed.

Lemma hl_valid1 : forall r dm, r < length dims -> dflt dims r dm -> validate1 c (Z.of_nat r) dm = Ok tt.
Proof.
  intros r dm Hr Hd. unfold validate1. rewrite (sh_len hl_shaped).
  destruct (Z.ltb_spec (Z.of_nat (length dims) - 1) (Z.of_nat r)); [lia|].
  destruct Hd as [->|[->| ->]]; [reflexivity | reflexivity |].
  rewrite (hl_get Hr). pose proof (hl_dims Hr). destruct (Z.eqb_spec (Z.of_nat (nth r dims 0%nat)) 0); [reflexivity|].
  cbn [bind]. rewrite Z.ltb_irrefl. reflexivity.
Qed.

Lemma hl_dims_or : forall r dm, r < length dims -> dflt dims r dm -> dims_or c dm (Z.of_nat r) = Ok (Z.of_nat (nth r dims 0)).
Proof.
  intros r dm Hr Hd. unfold dims_or. destruct Hd as [->|[->| ->]]; [apply hl_get; exact Hr | apply hl_get; exact Hr |].
  pose proof (hl_dims Hr). destruct (Z.eqb_spec (Z.of_nat (nth r dims 0%nat)) 0); [lia | reflexivity].
Qed.

Lemma hl_one : forall (g : op) r, registers g = [Z.of_nat r] -> r < length dims ->
  occupies (nregs (QList (map Z.of_nat dims))) g <> [].
Proof. intros g r E Hr. rewrite hl_nregs, (occupies_single g E Hr). discriminate. Qed.

(** x with an increment outside -d .. d-1 *)
Theorem bad_x : forall r dm p, r < length dims -> dflt dims r dm ->
  (p < - Z.of_nat (nth r dims O) \/ Z.of_nat (nth r dims O) <= p)%Z ->
  exists c', api c (CX (Z.of_nat r) dm p) = Ok (c', true) /\ never_runs c'.
Proof.
  intros r dm p Hr Hd Hp.
  apply (@poison (QList (map Z.of_nat dims)) init out ks c (CX (Z.of_nat r) dm p) (OX (Z.of_nat r) (Z.of_nat (nth r dims 0)) p) IndexError H).
  - rewrite hl_nregs. lia.
  - exact Hm.
  - constructor; [apply hl_valid1 | apply hl_dims_or]; assumption.
  - apply (@hl_one _ r); [reflexivity | exact Hr].
  - apply x_out; exact Hp.
Qed.

(** gate with a matrix that is not unitary or of the wrong shape *)
Theorem bad_arb1 : forall r dm u, r < length dims -> dflt dims r dm ->
  is_unitary u = false \/ mr u <> nth r dims 0 \/ mc u <> nth r dims 0 ->
  exists c', api c (CGate u (RInt (Z.of_nat r)) dm) = Ok (c', true) /\ never_runs c'.
Proof.
  intros r dm u Hr Hd Hu.
  assert (He : exists e, unitary NB (OArb (RInt (Z.of_nat r)) (RInt (Z.of_nat (nth r dims 0%nat))) u) = Err e).
  { cbn [unitary]. unfold arb_unitary. destruct (is_unitary u); [|eexists; reflexivity].
    destruct (Z.eqb_spec (Z.of_nat (mr u)) (Z.of_nat (nth r dims 0%nat))); [|eexists; reflexivity].
    destruct (Z.eqb_spec (Z.of_nat (mc u)) (Z.of_nat (nth r dims 0%nat))); [|eexists; reflexivity].
    exfalso. destruct Hu as [Hu|[Hu|Hu]]; [discriminate | lia | lia]. }
  destruct He as [e He].
  eapply (@poison (QList (map Z.of_nat dims)) init out ks c (CGate u (RInt (Z.of_nat r)) dm)); [exact H | | exact Hm | | | exact He].
  - rewrite hl_nregs. lia.
  - constructor; [apply hl_valid1 | apply hl_dims_or]; assumption.
  - apply (@hl_one _ r); [reflexivity | exact Hr].
Qed.

Lemma occupies_in : forall n (g : op) a b r, In a (registers g) -> In b (registers g) ->
  (a <= Z.of_nat r <= b)%Z -> r < n -> occupies n g <> [].
Proof.
  intros n g a b r Ha Hb Hr Hn E.
  assert (X : In r (occupies n g)).
  { unfold occupies. apply filter_In. split; [apply in_seq; lia|]. unfold covers. apply andb_true_iff. split; apply existsb_exists.
    - exists a. split; [exact Ha | apply Z.leb_le; lia].
    - exists b. split; [exact Hb | apply Z.leb_le; lia]. }
  rewrite E in X. contradiction.
Qed.

(** gate on two registers (default dims) *)
Theorem bad_arb2 : forall a b dm u, dm = None \/ dm = Some 0%Z -> a < length dims -> b < length dims ->
  exists c', api c (CGate u (RList [Z.of_nat a; Z.of_nat b]) dm) = Ok (c', true) /\ never_runs c'.
Proof.
  intros a b dm u Hd Ha Hb.
  set (ds := RList [Z.of_nat (nth a dims 0%nat); Z.of_nat (nth b dims 0%nat)]).
  assert (He : exists e, unitary NB (OArb (RList [Z.of_nat a; Z.of_nat b]) ds u) = Err e).
  { cbn [unitary]. unfold arb_unitary. destruct (is_unitary u); eexists; reflexivity. }
  destruct He as [e He].
  assert (Hd' : forall r, dflt dims r dm) by (intros r; destruct Hd as [->| ->]; [left | right; left]; reflexivity).
  eapply (@poison (QList (map Z.of_nat dims)) init out ks c); [exact H | | exact Hm | | | exact He].
  - rewrite hl_nregs. lia.
  - constructor.
    + cbn [validate mapM]. rewrite !hl_valid1 by auto. reflexivity.
    + assert (E : mapM (py_get (c_dims c)) [Z.of_nat a; Z.of_nat b] = Ok [Z.of_nat (nth a dims 0%nat); Z.of_nat (nth b dims 0%nat)]).
      { cbn [mapM]. rewrite !hl_get by assumption. reflexivity. }
      destruct Hd as [->| ->]; rewrite E; reflexivity.
  - apply (@occupies_in _ _ (Z.of_nat a) (Z.of_nat a) a); [left; reflexivity | left; reflexivity | lia | rewrite hl_nregs; exact Ha].
Qed.

Lemma py_slice_length : forall A (l : list A) a b, length (py_slice l a b) = py_clip (length l) b - py_clip (length l) a.
Proof.
  intros A l a b. unfold py_slice. rewrite firstn_length, skipn_length.
  assert (py_clip (length l) b <= length l) by (unfold py_clip; destruct (Z.ltb_spec b 0); lia). lia.
Qed.

(** cx on a pair with registers inside and outside the line *)
Theorem bad_cx : forall s t p, dims <> [] ->
  (exists r, r < length dims /\ (Z.min s t <= Z.of_nat r <= Z.max s t)%Z) ->
  outside (length dims) s \/ outside (length dims) t ->
  exists c', api c (CCX [s; t] p) = Ok (c', true) /\ never_runs c'.
Proof.
  intros s t p Hne [r [Hr Hrr]] Ho.
  set (qr := if (s <? t)%Z then py_slice (c_dims c) s (t + 1) else py_slice (c_dims c) t (s + 1)).
  assert (Hq : (Z.of_nat (length qr) <= Z.max s t - Z.min s t)%Z).
  { assert (El : length (c_dims c) = length dims) by (rewrite (sh_dims hl_shaped); apply map_length).
    unfold qr, outside in *. destruct (Z.ltb_spec s t); rewrite py_slice_length, El; unfold py_clip; 
      repeat match goal with |- context [(?x <? ?y)%Z] => destruct (Z.ltb_spec x y) end; lia. }
  assert (He : unitary NB (OCX qr [s; t] p) = Err IndexError).
  { cbn [unitary cx_rows].
    destruct (Z.ltb_spec s t) as [Hst|Hst].
    - rewrite (@py_get_big _ qr (t - s)) by lia. destruct (py_get qr 0) as [x|e] eqn:E0; [reflexivity|].
      unfold py_get in E0. destruct (py_index _ _); [destruct (nth_error _ _)|]; try discriminate; injection E0 as <-; reflexivity.
    - rewrite (@py_get_big _ qr (s - t)) by lia. reflexivity. }
  eapply (@poison (QList (map Z.of_nat dims)) init out ks c); [exact H | | exact Hm | | | exact He].
  - rewrite hl_nregs. lia.
  - apply (@is_cx S c [s; t] p s t); reflexivity.
  - destruct (Z.le_ge_cases s t).
    + apply (@occupies_in _ _ s t r); [left; reflexivity | right; left; reflexivity | lia | rewrite hl_nregs; exact Hr].
    + apply (@occupies_in _ _ t s r); [right; left; reflexivity | left; reflexivity | lia | rewrite hl_nregs; exact Hr].
Qed.

Variable L : scalar_laws S.
Add Ring Sring : (sl_ring L).

Lemma hl_pos : forall d, In d dims -> 0 < d.
Proof. intros d Hd. apply In_nth with (d := 0) in Hd as [r [Hr <-]]. pose proof (hl_dims Hr). lia. Qed.

(** toffolis: common set-up *)
Lemma tof_issues : forall cs t p lo hi, (forall x, In x (cs ++ [t]) -> lo <= x <= hi) -> In lo (cs ++ [t]) -> In hi (cs ++ [t]) ->
  hi < length dims ->
  exists u, let ds := sub dims lo (hi - lo + 1) in
    let g := OTof (map Z.of_nat cs) (Z.of_nat t) p (map Z.of_nat ds) (map Z.of_nat (seq lo (hi - lo + 1))) u in
    issues c (CTof (map Z.of_nat cs) (Z.of_nat t) p) g /\ occupies (nregs (QList (map Z.of_nat dims))) g <> [] /\
    mr u = prodn ds /\ mc u = prodn ds /\
    repr ds ds u (classical S (move_tof ds (map (fun c => c - lo) cs) (t - lo) p)).
Proof.
  intros cs t p lo hi Hb Hlo Hhi Hn.
  destruct (@mk_toffoli_spec S dims cs t p lo hi Hb Hlo Hhi Hn hl_pos) as [u [E [H1 [H2 HR]]]].
  exists u. cbv zeta. split; [constructor; rewrite (sh_qregs hl_shaped); exact E|]. split; [|auto].
  apply (@occupies_in _ _ (Z.of_nat t) (Z.of_nat t) t); [left; reflexivity | left; reflexivity | lia |].
  rewrite hl_nregs. specialize (Hb t ltac:(apply in_or_app; right; left; reflexivity)). lia.
Qed.

(** one control next to its target *)
Theorem bad_tof2 : forall cs t p, (forall x, In x (t :: cs) -> x < length dims) -> spans_two (t :: cs) ->
  exists c', api c (CTof (map Z.of_nat cs) (Z.of_nat t) p) = Ok (c', true) /\ never_runs c'.
Proof.
  intros cs t p Hx [lo [H1 [H2 H3]]].
  destruct (@tof_issues cs t p lo (lo + 1)) as [u [Hi [Ho _]]].
  - intros x Hin. apply in_snoc_cons in Hin. apply H3 in Hin. lia.
  - apply in_snoc_cons; exact H1.
  - apply in_snoc_cons; exact H2.
  - apply Hx; exact H2.
  - assert (He : exists e, unitary NB (OTof (map Z.of_nat cs) (Z.of_nat t) p (map Z.of_nat (sub dims lo (lo + 1 - lo + 1)))
         (map Z.of_nat (seq lo (lo + 1 - lo + 1))) u) = Err e).
    { cbn [unitary]. unfold arb_unitary. destruct (is_unitary u); [|eexists; reflexivity].
      assert (E : length (sub dims lo (lo + 1 - lo + 1)) = 2).
      { rewrite sub_length; [lia|]. specialize (Hx _ H2). lia. }
      destruct (sub dims lo (lo + 1 - lo + 1)) as [|a [|b [|x l]]]; try discriminate. eexists; reflexivity. }
    destruct He as [e He].
    eapply (@poison (QList (map Z.of_nat dims)) init out ks c); [exact H | | exact Hm | exact Hi | exact Ho | exact He].
    rewrite hl_nregs. specialize (Hx _ H1). lia.
Qed.

(** a target among its controls *)
Theorem bad_tof_target : forall cs t p, (forall x, In x (t :: cs) -> x < length dims) -> In t cs ->
  (p mod Z.of_nat (nth t dims O) <> 0)%Z ->
  exists c', api c (CTof (map Z.of_nat cs) (Z.of_nat t) p) = Ok (c', true) /\ never_runs c'.
Proof.
  intros cs t p Hx Ht Hp.
  destruct (@nat_bounds (cs ++ [t])) as [lo [hi [H1 [H2 H3]]]]; [destruct cs; discriminate|].
  assert (Hhi : hi < length dims) by (apply Hx, in_snoc_cons; exact H2).
  destruct (@tof_issues cs t p lo hi H3 H1 H2 Hhi) as [u [Hi [Ho [_ [_ HR]]]]].
  set (ds := sub dims lo (hi - lo + 1)) in *.
  assert (Htl : lo <= t <= hi) by (apply H3, in_snoc_cons; left; reflexivity).
  assert (Hlen : length ds = hi - lo + 1) by (apply sub_length; lia).
  set (cs' := map (fun c => c - lo) cs) in *. set (t' := t - lo) in *.
  assert (Ht' : In t' cs') by (apply (in_map (fun c0 => c0 - lo)); exact Ht).
  assert (Htn : nth t' ds 0 = nth t dims 0) by (unfold ds, t'; rewrite sub_nth by lia; f_equal; lia).
  assert (Hd2 : 2 <= nth t dims 0) by (apply hl_dims, Hx; left; reflexivity).
  assert (HU : is_unitary u = false).
  { destruct (is_unitary u) eqn:EU; [|reflexivity]. exfalso.
    rewrite (is_unitary_iff HR) in EU.
    (* the configuration with every level at its top is never reached *)
    set (x := map (fun d => d - 1) ds).
    assert (Hpos : forall d, In d ds -> 0 < d).
    { intros d Hd. apply hl_pos. unfold ds, sub in Hd. clear - Hd.
      rewrite <- (firstn_skipn lo dims). apply in_or_app. right.
      rewrite <- (firstn_skipn (hi - lo + 1) (skipn lo dims)). apply in_or_app. left. exact Hd. }
    assert (Hv : valid ds x).
    { unfold x, valid. clear - Hpos. induction ds as [|d l IH]; simpl; constructor.
      - specialize (Hpos d (or_introl eq_refl)). lia.
      - apply IH. intros; apply Hpos; right; assumption. }
    specialize (EU x x Hv Hv).
    rewrite (@bsum_zero S) in EU.
    - rewrite delta_refl, (sl_close_10 L) in EU. discriminate.
    - exact L.
    - intros s Hs. apply in_all_configs in Hs.
      replace (classical S (move_tof ds cs' t' p) x s) with (@s0 S).
      + ring.
      + unfold classical. replace (config_eqb (move_tof ds cs' t' p s) x) with false; [reflexivity|].
        symmetry. apply config_eqb_neq. intros E.
        assert (Et : level (move_tof ds cs' t' p s) t' = nth t' ds 0 - 1).
        { rewrite E. unfold level, x. rewrite (nth_indep _ 0 (0 - 1)); [|rewrite map_length; lia].
          apply (map_nth (fun d => d - 1)). }
        unfold move_tof in Et, E. destruct (forallb (top ds s) cs') eqn:Ef.
        * rewrite forallb_forall in Ef. specialize (Ef _ Ht'). unfold top in Ef. apply Nat.eqb_eq in Ef.
          unfold move_x in Et. rewrite level_put, Nat.eqb_refl in Et by (rewrite (valid_length Hs); lia).
          unfold shift in Et. rewrite Htn in *.
          replace (Z.of_nat (level s t')) with (Z.of_nat (nth t dims O) + -1)%Z in Et by lia.
          assert (Hb := Z.mod_pos_bound (Z.of_nat (nth t dims O) + -1 + p) (Z.of_nat (nth t dims O)) ltac:(lia)).
          apply Hp. 
          assert (Eq : ((Z.of_nat (nth t dims O) + -1 + p) mod Z.of_nat (nth t dims O) = Z.of_nat (nth t dims O) - 1)%Z) by lia.
          replace p with ((Z.of_nat (nth t dims O) + -1 + p) - (Z.of_nat (nth t dims O) - 1))%Z by lia.
          rewrite Zminus_mod, Eq. rewrite (Z.mod_small (Z.of_nat (nth t dims O) - 1)) by lia. rewrite Z.sub_diag. apply Zmod_0_l.
        * (* a control is not at its top, so [s] is not [x] *)
          assert (Ex : forallb (top ds s) cs' = true); [|congruence].
          apply forallb_forall. intros q Hq. unfold top. apply Nat.eqb_eq. rewrite E.
          assert (q < length ds).
          { unfold cs' in Hq. apply in_map_iff in Hq as [q0 [<- Hq]]. assert (lo <= q0 <= hi) by (apply H3, in_snoc_cons; right; exact Hq). lia. }
          unfold level, x. rewrite (nth_indep _ 0 (0 - 1)); [|rewrite map_length; lia].
          rewrite (map_nth (fun d => d - 1)). assert (0 < nth q ds 0) by (apply Hpos, nth_In; lia). lia. }
  eapply (@poison (QList (map Z.of_nat dims)) init out ks c); [exact H | | exact Hm | exact Hi | exact Ho |].
  - rewrite hl_nregs. lia.
  - cbn [unitary]. unfold arb_unitary. rewrite HU. reflexivity.
Qed.

End List.
End BadGates.
