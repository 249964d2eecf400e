(** * WrongSize: a matrix of the wrong size that is not checked (C132). *)
From Verif Require Import Py Scalar Mat Utils Gates Circuit Spec Calls HistSpec InfoSpec CallSpec ShapeSpec RaiseSpec Lib Kern GateMat GateTof Flow Layers Blocks Refine Run History Merge Errors Construct Relate Ignored BadGates Reject Shapes Succeeds Labels DrawFailSpec Exact ExactShape RaiseLib RunsIff.
Set Implicit Arguments.

Section WrongSize.
Variable S : scalar.
Variable L : scalar_laws S.
Notation op := (op S).
Notation mat := (mat S).
Notation circuit := (circuit S).
Notation call := (call S).
Notation NB := (NumpyBackend S).

(** ** Layers of which some are too small or too large *)
Lemma square_flow : forall (ls : list (list op)) l0 N, layer_verdict l0 = Sized N 1 ->
  (forall l, In l ls -> exists m, layer_verdict l = Sized m m) -> forall a,
  failing (Some a) (ls ++ [l0]) = Some ValueError \/
  failing (Some a) (ls ++ [l0]) = None /\ a = N /\ forall l, In l ls -> layer_verdict l = Sized N N.
Proof.
  intros ls l0 N H0. induction ls as [|l ls IH]; intros HF a; cbn [app failing].
  - rewrite H0. destruct (Nat.eqb_spec a N); [right; repeat split; [assumption | contradiction] | left; reflexivity].
  - destruct (HF l (or_introl eq_refl)) as [m E]. rewrite E. destruct (Nat.eqb_spec a m) as [->|]; [|left; reflexivity].
    destruct (IH ltac:(intros; apply HF; right; assumption) m) as [X|[X [-> Y]]]; [left; exact X | right]. split; [exact X|]. split; [reflexivity|].
    intros l' [<-|Hl]; [exact E | apply Y; exact Hl].
Qed.

Lemma some_off : forall (ls : list (list op)) l0 N, layer_verdict l0 = Sized N 1 ->
  (forall l, In l ls -> exists m, layer_verdict l = Sized m m) ->
  (exists l, In l ls /\ layer_verdict l <> Sized N N) -> failing None (ls ++ [l0]) = Some ValueError.
Proof.
  intros ls l0 N H0 HF [l [Hl Hn]]. destruct ls as [|l1 ls]; [contradiction|]. cbn [app failing].
  destruct (HF l1 (or_introl eq_refl)) as [m E]. rewrite E.
  destruct (@square_flow ls l0 N H0 ltac:(intros; apply HF; right; assumption) m) as [X|[_ [-> Y]]]; [exact X|].
  exfalso. apply Hn. destruct Hl as [<-|Hl]; [exact E | apply Y; exact Hl].
Qed.

Section Dims.
Variable dims : list nat.
Hypothesis Hdims : forall d, In d dims -> 2 <= d.
Notation n := (length dims).
Variable W : op.
Variable k : nat.
Hypothesis HW : verdict_of W = Sized k k.

Definition sized (o : op) : Prop := o = W \/ verdict_of o = Sized (csize dims o) (csize dims o).

Lemma off_layer : forall l, Forall sized l -> exists R, layer_verdict l = Sized R R /\
  (k < csize dims W -> R <= prodn (map (csize dims) l) /\ (In W l -> R < prodn (map (csize dims) l))) /\
  (csize dims W < k -> prodn (map (csize dims) l) <= R /\ (In W l -> prodn (map (csize dims) l) < R)).
Proof.
  intros l H. induction H as [|o l Ho H [R [E [I1 I2]]]].
  - exists 1. split; [reflexivity|]. split; intros _; (split; [apply le_n | intros []]).
  - assert (P : 0 < prodn (map (csize dims) l)).
    { apply prodn_pos, Forall_forall. intros x Hx. apply in_map_iff in Hx as [y [<- _]]. apply csize_pos. exact Hdims. }
    pose proof (csize_pos dims Hdims o) as P1.
    assert (V : exists v, verdict_of o = Sized v v /\ (o = W /\ v = k \/ v = csize dims o)).
    { destruct Ho as [->|Ho]; [exists k; auto | exists (csize dims o); auto]. }
    destruct V as [v [Ev Hv]]. exists (v * R). split.
    { unfold layer_verdict in *. cbn [map in_order]. rewrite Ev, E. reflexivity. }
    cbn [map]. rewrite !prodn_cons. revert I1 I2. generalize dependent (prodn (map (csize dims) l)). intros C P I1 I2.
    split; intros Hk; [destruct (I1 Hk) as [J1 J2] | destruct (I2 Hk) as [J1 J2]]; clear I1 I2.
    + assert (Hv' : v <= csize dims o /\ (o = W -> v < csize dims o \/ o = W /\ v = csize dims o)) by (destruct Hv as [[-> ->]| ->]; split; auto; lia).
      split; [apply Nat.mul_le_mono; tauto|]. intros Hin.
      assert (X : v < csize dims o \/ In W l \/ verdict_of W = Sized (csize dims W) (csize dims W)).
      { destruct Hv as [[-> ->]| ->]; [auto|]. destruct Hin as [->|Hin]; auto. }
      destruct X as [X|[X|X]].
      * apply Nat.le_lt_trans with (v * C); [apply Nat.mul_le_mono_l; exact J1 | apply Nat.mul_lt_mono_pos_r; assumption].
      * apply Nat.le_lt_trans with (csize dims o * R); [apply Nat.mul_le_mono_r; tauto | apply Nat.mul_lt_mono_pos_l; [assumption | auto]].
      * exfalso. rewrite HW in X. injection X as X _. lia.
    + assert (Hv' : csize dims o <= v) by (destruct Hv as [[-> ->]| ->]; lia).
      split; [apply Nat.mul_le_mono; assumption|]. intros Hin.
      assert (X : csize dims o < v \/ In W l \/ verdict_of W = Sized (csize dims W) (csize dims W)).
      { destruct Hv as [[-> ->]| ->]; [auto|]. destruct Hin as [->|Hin]; auto. }
      destruct X as [X|[X|X]].
      * apply Nat.lt_le_trans with (v * C); [apply Nat.mul_lt_mono_pos_r; assumption | apply Nat.mul_le_mono_l; exact J1].
      * apply Nat.lt_le_trans with (csize dims o * R); [apply Nat.mul_lt_mono_pos_l; [assumption | auto] | apply Nat.mul_le_mono_r; assumption].
      * exfalso. rewrite HW in X. injection X as X _. lia.
Qed.

Lemma off_flow : forall ls l0, Forall (tiles n) ls -> Forall (Forall sized) ls -> layer_verdict l0 = Sized (prodn dims) 1 ->
  In W (concat ls) -> csize dims W <> k -> failing None (rev ls ++ [l0]) = Some ValueError.
Proof.
  intros ls l0 HT HF H0 HW' Hk. apply some_off with (N := prodn dims); [exact H0| |].
  - intros l Hl. apply in_rev in Hl. destruct (off_layer (proj1 (Forall_forall _ _) HF l Hl)) as [R [E _]]. eauto.
  - apply in_concat in HW' as [l [Hl Hw]]. exists l. split; [apply in_rev; rewrite rev_involutive; exact Hl|].
    destruct (off_layer (proj1 (Forall_forall _ _) HF l Hl)) as [R [E [I1 I2]]]. rewrite E. intros X. injection X as X _.
    rewrite (@csize_layer S dims l (proj1 (Forall_forall _ _) HT l Hl)) in I1, I2. subst R.
    destruct (Nat.lt_ge_cases k (csize dims W)) as [A|A]; [destruct (I1 A) as [_ B] | destruct (I2 ltac:(lia)) as [_ B]]; specialize (B Hw); lia.
Qed.
End Dims.

(** ** Calls for gates *)
Lemma asks_right : forall dims (k : call), (forall d, In d dims -> 2 <= d) -> asks_gate dims k -> right_size dims k.
Proof.
  intros dims k Hd [g [D G]]. pose proof (@ExactShape.denotes_tame S dims k g Hd D G) as T.
  assert (F : forall r dm d, dflt dims r dm -> dm = Some d -> (d <= 0 \/ Z.of_nat (nth (Z.to_nat (Z.of_nat r)) dims 0%nat) <= d)%Z).
  { intros r dm d [-> |[-> | ->]] E; [discriminate | injection E as <-; lia | injection E as <-; rewrite Nat2Z.id; lia]. }
  destruct D; cbn [right_size]; try exact Logic.I; try (intros d0 E _; eapply F; eassumption); try exact T.
  split; [assumption|]. intros H3'. cbn [tame] in T. destruct (T H3') as [T1 T2].
  destruct G as [Hk [Hb _]]. destruct H4 as [E1 [E2 _]].
  assert (X : room dims (map Z.of_nat l) = length (all_configs (span dims r k))).
  { rewrite all_configs_length.
    change (map Z.of_nat l) with (registers (OArb (RList (map Z.of_nat l)) (RInt 0) M)). rewrite (room_csize dims).
    rewrite (@csize_range S dims _ r (r + k - 1)); [| | lia | lia].
    + replace (r + k - 1 - r + 1) with k by lia. reflexivity.
    + intros z. unfold covers. cbn [registers]. apply eq_true_iff_eq. rewrite !andb_true_iff, !existsb_exists, !Z.leb_le. split.
      * intros [[a [Ha La]] [b [Hbb Lb]]]. apply in_map_iff in Ha as [a' [<- Ha]]. apply in_map_iff in Hbb as [b' [<- Hbb]].
        apply Z.leb_le in La. apply Z.leb_le in Lb. specialize (H2 _ Ha) as B1. specialize (H2 _ Hbb) as B2. lia.
      * intros [La Lb]. split; [exists (Z.of_nat r) | exists (Z.of_nat (r + k - 1))]; (split; [apply in_map; assumption | apply Z.leb_le; lia]). }
  rewrite X. auto.
Qed.

Lemma not_measure : forall dims (ks : list call), Forall (asks_gate dims) ks -> ~ In CMeasureAll ks.
Proof. intros dims ks H Hi. rewrite Forall_forall in H. destruct (H _ Hi) as [g [D _]]. inversion D. Qed.

Section Line.
Variables (dims levels : list nat) (out : option output) (ty : output_type) (me : output_method).
Hypothesis Hne : dims <> [].
Hypothesis Hdims : forall d, In d dims -> 2 <= d.
Hypothesis Hlen : length levels <= length dims.
Hypothesis Hv : valid dims (start dims levels).
Hypothesis Hw : wants dims out ty me.
Notation n := (length dims).
Notation hist := (history (QList (map Z.of_nat dims)) (Some (map Z.of_nat levels)) out).

Lemma npos : 0 < nregs (QList (map Z.of_nat dims)).
Proof. rewrite (hl_nregs dims). destruct dims; [contradiction | simpl; lia]. Qed.

Lemma layouts : forall ks ks' (c c' : circuit), hist ks c -> hist ks' c' -> same_layout c c'.
Proof.
  intros ks ks' c c' H H'. destruct (history_layout H) as [A1 [A2 [A3 A4]]]. destruct (history_layout H') as [B1 [B2 [B3 B4]]].
  unfold same_layout. repeat split; congruence.
Qed.

(** A call for a gate has a gate, and it is accepted at any time. *)
Lemma asks_issues : forall ks (c : circuit) k, hist ks c -> asks_gate dims k -> exists g, issues c k g /\ registers g <> [].
Proof.
  intros ks c k H [g [D G]].
  destruct (@mk_circuit_good S dims levels out Hdims Hlen Hv) as [c0 [E0 [Hg0 _]]].
  assert (Hpos : forall d, In d dims -> 0 < d) by (intros d Hd; specialize (Hdims d Hd); lia).
  destruct (script_good L Hne Hpos (Forall2_cons _ _ D (Forall2_nil _)) (Forall_cons _ G (Forall_nil _)) Hg0) as [c2 [bss2 [E2 _]]].
  cbn [script] in E2. apply bind_ok in E2 as [[c1 b] [E2 _]].
  assert (H0 : hist [] c0) by (exists c0; auto).
  destruct (inv_new _ _ _ E0) as [l0 I0]. rewrite (hl_nregs dims) in I0.
  assert (Hk : k <> CMeasureAll) by (intros ->; inversion D).
  destruct (inv_gate I0 Hk E2) as [[[X|X] _]|[_ [_ [_ [g' [lo [hi [ls' [Hi' _]]]]]]]]]; [discriminate | destruct dims; [contradiction | discriminate X] |].
  exists g'. split; [eapply issues_layout; [exact (layouts H0 H) | exact Hi']|].
  clear - D Hi'. destruct D; inversion Hi'; subst; cbn [registers]; try discriminate.
  destruct l; [contradiction | discriminate].
Qed.

Lemma asks_accept : forall ks (c : circuit) k, hist ks c -> ~ In CMeasureAll ks -> asks_gate dims k -> exists c', api c k = Ok (c', true).
Proof.
  intros ks c k H Hm Hk. destruct (asks_issues H Hk) as [g [Hi Hr]]. exact (accepts H npos Hm Hi Hr).
Qed.

Lemma history_more : forall ks (c c' : circuit) k b, hist ks c -> api c k = Ok (c', b) -> hist (ks ++ [k]) c'.
Proof.
  intros ks c c' k b [c0 [E ->]] Ha. exists c0. split; [exact E|]. unfold after. rewrite fold_left_app. cbn [fold_left]. fold (after c0 ks).
  unfold step. rewrite Ha. reflexivity.
Qed.

Lemma asks_script : forall ks' ks (c : circuit), hist ks c -> ~ In CMeasureAll ks -> Forall (asks_gate dims) ks' ->
  script c ks' = Ok (after c ks').
Proof.
  intros ks'. induction ks' as [|k ks' IH]; intros ks c H Hm HF; [reflexivity|]. inversion HF as [|? ? F1 F2]; subst.
  destruct (asks_accept H Hm F1) as [c' E]. cbn [script]. rewrite E. cbn [bind]. unfold after. cbn [fold_left]. unfold step at 2. rewrite E.
  apply (IH (ks ++ [k])); [eapply history_more; eassumption | | exact F2].
  intros Hi. apply in_app_or in Hi as [Hi|[Hi|[]]]; [contradiction|]. subst k. destruct F1 as [g [D _]]. inversion D.
Qed.

Lemma asks_sized : forall ks (c : circuit) k o, hist ks c -> asks_gate dims k -> issues c k o -> occupies n o <> [] ->
  verdict_of o = Sized (csize dims o) (csize dims o).
Proof.
  intros ks c k o H Hk Hi Ho. pose proof (hl_shaped dims H) as Hs.
  pose proof (right_issue L Hdims Hs Hi (asks_right Hdims Hk) Ho) as X. unfold exact_size in X.
  destruct (verdict_of o) as [e|r cc] eqn:E; [|destruct X as [-> ->]; reflexivity]. exfalso.
  pose proof (agrees_issue L Hdims Hs Hi Ho) as A. unfold agrees in A. rewrite E in A.
  destruct (@mk_circuit_good S dims levels out Hdims Hlen Hv) as [c0 [E0 _]]. assert (H0 : hist [] c0) by (exists c0; auto).
  assert (Hi0 : issues c0 k o) by (eapply issues_layout; [exact (layouts H H0) | exact Hi]).
  rewrite <- (hl_nregs dims) in Ho.
  destruct (@poison S _ _ _ [] c0 k o e H0 npos ltac:(simpl; tauto) Hi0 Ho A) as [c1 [E1 N1]].
  destruct Hk as [g [D G]].
  pose proof (@simulate_correct S L dims levels out ty me [k] [g] Hne Hdims Hlen Hv Hw (Forall2_cons _ _ D (Forall2_nil _)) (Forall_cons _ G (Forall_nil _))) as R.
  unfold simulate in R. rewrite E0 in R. cbn [bind app script] in R. rewrite E1 in R. cbn [bind] in R.
  apply bind_ok in R as [c2 [R1 R2]]. change (script c1 [CMeasureAll] = Ok c2) in R1. apply script_after in R1.
  destruct (N1 NB [CMeasureAll]) as [e' N2]. rewrite R1 in N2. congruence.
Qed.

(** A matrix of the wrong size on the span of a list of at least three
    registers, not checked, in an otherwise valid program. *)
Theorem wrong_size_list : forall ks1 ks2 l' r m (u : mat), Forall (asks_gate dims) ks1 -> Forall (asks_gate dims) ks2 ->
  2 < length l' -> 1 <= m -> r + m <= n -> In r l' -> In (r + m - 1) l' -> (forall x, In x l' -> r <= x < r + m) ->
  mr u = mc u -> orthonormal u = true -> mr u <> prodn (span dims r m) ->
  simulate NB (QList (map Z.of_nat dims)) (Some (map Z.of_nat levels)) out
    (ks1 ++ CGate u (RList (map Z.of_nat l')) None :: ks2) = Err ValueError.
Proof.
  intros ks1 ks2 l' r m u F1 F2 Hl3 Hm Hr Hlo Hhi Hall Hsq Hu Hwr.
  set (l := map Z.of_nat l'). set (k := CGate u (RList l) None : call).
  set (W := OArb (RList l) (RList (map (fun x => Z.of_nat (nth x dims 0)) l')) u : op).
  destruct (@mk_circuit_good S dims levels out Hdims Hlen Hv) as [c0 [E0 _]]. assert (H0 : hist [] c0) by (exists c0; auto).
  assert (H1 : hist ks1 (after c0 ks1)) by (exists c0; auto). pose proof (not_measure F1) as M1. pose proof (not_measure F2) as M2.
  assert (IW : forall ks c, hist ks c -> issues c k W).
  { intros ks c H. destruct (history_layout H) as [_ [B2 [B3 _]]]. rewrite map_length in B2.
    assert (V : forall x, In x l' -> validate1 c (Z.of_nat x) None = Ok tt).
    { intros x Hx. specialize (Hall x Hx). unfold validate1. rewrite B2.
      destruct (Z.ltb_spec (Z.of_nat (length dims) - 1) (Z.of_nat x)); [lia | reflexivity]. }
    assert (G : forall x, In x l' -> py_get (c_dims c) (Z.of_nat x) = Ok (Z.of_nat (nth x dims 0))).
    { intros x Hx. specialize (Hall x Hx). rewrite B3, (@Lib.py_get_nat _ _ x 0%Z) by (rewrite map_length; lia). rewrite GateTof.nth_map_Z. reflexivity. }
    assert (V' : exists y, mapM (fun q => validate1 c q None) l = Ok y).
    { unfold l. clear - V. induction l' as [|x t IH]; [eexists; reflexivity|]. cbn [map mapM].
      rewrite V by (left; reflexivity). destruct IH as [y E]; [intros; apply V; right; assumption|]. cbn [bind]. rewrite E. eexists; reflexivity. }
    assert (G' : mapM (py_get (c_dims c)) l = Ok (map (fun x => Z.of_nat (nth x dims 0)) l')).
    { unfold l. clear - G. induction l' as [|x t IH]; [reflexivity|]. cbn [map mapM].
      rewrite G by (left; reflexivity). cbn [bind]. rewrite IH by (intros; apply G; right; assumption). reflexivity. }
    constructor; cbn [validate]; [destruct V' as [y ->]; reflexivity | rewrite G'; reflexivity]. }
  assert (RW : ranges W (Z.of_nat r) (Z.of_nat (r + m - 1))).
  { intros z. unfold covers, W, l. cbn [registers]. apply eq_true_iff_eq. rewrite !andb_true_iff, !existsb_exists, !Z.leb_le. split.
    - intros [[a [Ha La]] [b [Hbb Lb]]]. apply in_map_iff in Ha as [a' [<- Ha]]. apply in_map_iff in Hbb as [b' [<- Hbb]].
      apply Z.leb_le in La. apply Z.leb_le in Lb. specialize (Hall _ Ha) as B1. specialize (Hall _ Hbb) as B2. lia.
    - intros [La Lb]. split; [exists (Z.of_nat r) | exists (Z.of_nat (r + m - 1))]; (split; [apply in_map; assumption | apply Z.leb_le; lia]). }
  assert (OW : occupies n W <> []).
  { intros X. assert (Y : In r (occupies n W)); [|rewrite X in Y; exact Y].
    unfold occupies. apply filter_In. split; [apply in_seq; lia|]. rewrite RW. apply andb_true_iff. rewrite !Z.leb_le. lia. }
  assert (CW : csize dims W = prodn (span dims r m)).
  { rewrite (@csize_range S dims _ r (r + m - 1) RW) by lia. replace (r + m - 1 - r + 1) with m by lia. reflexivity. }
  assert (VW : verdict_of W = Sized (mr u) (mr u)).
  { unfold W; cbn [verdict_of]. rewrite Hu, <- Hsq. destruct l' as [|x1 [|x2 [|x3 t]]]; [simpl in Hl3; lia.. | reflexivity]. }
  (* the calls are accepted *)
  set (P := fun k' : call => asks_gate dims k' \/ k' = k).
  assert (P1 : Forall P ks1) by (eapply Forall_impl; [|exact F1]; intros; left; assumption).
  assert (P2 : Forall P ks2) by (eapply Forall_impl; [|exact F2]; intros; left; assumption).
  destruct (accepts H1 npos M1 (IW _ _ H1)) as [c1 E1]; [unfold W, l; cbn [registers]; destruct l'; [contradiction | discriminate]|].
  assert (H2 : hist (ks1 ++ [k]) c1) by (eapply history_more; eassumption).
  assert (M12 : ~ In CMeasureAll (ks1 ++ [k])) by (intros Hi; apply in_app_or in Hi as [Hi|[Hi|[]]]; [contradiction | discriminate]).
  assert (H3 : hist (ks1 ++ k :: ks2) (after c1 ks2)).
  { exists c0. split; [exact E0|]. unfold after. rewrite fold_left_app. cbn [fold_left]. f_equal. fold (after c0 ks1). unfold step. rewrite E1. reflexivity. }
  assert (M3 : ~ In CMeasureAll (ks1 ++ k :: ks2)).
  { intros Hi. apply in_app_or in Hi as [Hi|[Hi|Hi]]; [contradiction | discriminate | contradiction]. }
  (* where the gate is *)
  destruct (inv_new _ _ _ E0) as [l0 I0]. rewrite (hl_nregs dims) in I0.
  destruct (@after_full S P _ ks1 _ _ _ _ I0 P1 ltac:(simpl; tauto)) as [ls [I1 [_ [FF1 _]]]].
  assert (Em : forall ks : list call, ~ In CMeasureAll ks -> (0 <? n) && existsb (@is_measure_all S) ks = false).
  { intros ks Hk. destruct (existsb _ ks) eqn:E; [|apply andb_false_r]. apply measured_in in E. contradiction. }
  rewrite (Em ks1 M1) in I1. cbn [orb] in I1.
  assert (Hk : k <> CMeasureAll) by (unfold k; discriminate).
  destruct (inv_gate I1 Hk E1) as [[[X|X] _]|[_ [_ [_ [g' [lo [hi [ls' [Hi' [Hrg [Had [I2 [f ->]]]]]]]]]]]]];
    [discriminate | lia |].
  rewrite <- (issues_fun (IW _ _ H1) Hi') in *. clear g' Hi'.
  destruct (added_ops Had) as [A1 [_ A3]].
  assert (FF2 : forall o, In o (gate_ops ls') -> from_calls (set_flow (after c0 ks1) f) P o).
  { intros o Hoo. eapply from_layout; [apply set_flow_layout|]. destruct (A1 o Hoo) as [Ho'|[->|[i [Hin ->]]]]; [auto | right; exists k; split; [right; reflexivity | exact (IW _ _ H1)]|].
    left. exists i. rewrite (i_dims I1). auto. }
  assert (Hin : In W (gate_ops ls')).
  { apply A3. rewrite (occupies_ranges _ Hrg) in OW.
    destruct (Nat.lt_ge_cases (lowr n lo) (highr n lo hi)) as [Hl|Hge]; [exact Hl|].
    exfalso. replace (highr n lo hi - lowr n lo) with 0 in OW by lia. apply OW; reflexivity. }
  destruct (@after_full S P _ ks2 _ _ _ _ I2 P2 FF2) as [ls2 [I3 [SL [FF3 K3]]]].
  rewrite (Em ks2 M2) in I3. cbn [orb] in I3.
  assert (HinW : In W (concat ls2)) by (apply K3; [exact Hin | reflexivity]).
  set (c := after (set_flow (after c0 ks1) f) ks2) in *.
  pose proof (hl_shaped dims H3) as Hs.
  assert (HE : Forall (Forall (sized dims W)) ls2).
  { apply Forall_forall. intros la Hl. apply Forall_forall. intros o Ho.
    assert (Hocc : occupies n o <> []) by exact (proj2 (proj1 (Forall_forall _ _) (i_tile I3) la Hl) o Ho).
    destruct (FF3 o ltac:(apply in_concat; eauto)) as [[i [Hi ->]]|[k' [[Hk'| ->] Hi]]].
    - right. unfold idop. cbn [verdict_of].
      rewrite (i_dims I3) in Hi. unfold csize.
      rewrite (@occupies_single S n _ i); [|reflexivity | exact Hi].
      cbn [map]. rewrite prodn_cons. rewrite (sh_dims Hs), GateTof.nth_map_Z, Nat2Z.id. unfold prodn; simpl. f_equal; lia.
    - right. eapply asks_sized; eassumption.
    - left. exact (issues_fun Hi (IW _ _ H3)). }
  assert (V0 : layer_verdict l0 = Sized (prodn dims) 1).
  { apply init_verdict; [eapply first_rows; [exact E0 | exact I0] | eapply first_column; [exact E0 | exact I0] | apply (i_m0 I3)]. }
  pose proof (run_verdict L H3 Hne M3 Hw) as R.
  pose proof (i_list I3) as El. unfold layers in El. fold (layers_of c) in El. rewrite app_nil_r in El. rewrite El in R. cbn [rev] in R.
  rewrite (@off_flow dims Hdims W (mr u) VW ls2 l0 (i_tile I3) HE V0 HinW ltac:(congruence)) in R.
  (* the script *)
  unfold simulate. rewrite E0. cbn [bind]. rewrite <- app_assoc, script_app.
  rewrite (asks_script H0 ltac:(simpl; tauto) F1). cbn [bind app script]. fold k. rewrite E1. cbn [bind]. rewrite script_app.
  rewrite (asks_script H2 M12 F2). cbn [bind script]. fold c. 
  destruct (inv_measure I3) as [c' [Ea _]]. rewrite Ea. cbn [bind]. unfold after, step in R. cbn [fold_left] in R. rewrite Ea in R. exact R.
Qed.

(** On one register. *)
Corollary wrong_size : forall ks1 ks2 r (u : mat), Forall (asks_gate dims) ks1 -> Forall (asks_gate dims) ks2 -> r < n ->
  mr u = mc u -> orthonormal u = true -> mr u <> nth r dims 0 ->
  simulate NB (QList (map Z.of_nat dims)) (Some (map Z.of_nat levels)) out
    (ks1 ++ CGate u (RList [Z.of_nat r; Z.of_nat r; Z.of_nat r]) None :: ks2) = Err ValueError.
Proof.
  intros ks1 ks2 r u F1 F2 Hr Hsq Hu Hwr.
  apply (@wrong_size_list ks1 ks2 [r; r; r] r 1 u F1 F2); try assumption; try (simpl; lia).
  intros X. apply Hwr. rewrite X. unfold span. clear - Hr. revert dims Hr. induction r as [|r IH]; intros [|d ds] Hr;
    simpl in Hr; try lia; [unfold prodn; simpl; lia | apply IH; lia].
Qed.
End Line.
End WrongSize.
