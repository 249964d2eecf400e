(** * Shapes: sizes of gate matrices and of layers. *)
From Verif Require Import Py Scalar Mat Utils Gates Circuit Spec Calls HistSpec CallSpec ShapeSpec Lib Kern GateMat GateTof Flow Layers Blocks Refine History Merge Errors Construct Ignored BadGates Reject.
Set Implicit Arguments.

Section Shapes.
Variable S : scalar.
Variable L : scalar_laws S.
Notation op := (op S).
Notation mat := (mat S).
Notation circuit := (circuit S).
Notation call := (call S).
Notation NB := (NumpyBackend S).

(** ** Layers *)
Lemma exec_shapes : forall (l : list op) (M : mat), moment_exec NB l = Ok M ->
  exists ms, Forall2 (fun o m => unitary NB o = Ok m) l ms /\ mr M = prodn (map (@mr S) ms) /\ mc M = prodn (map (@mc S) ms).
Proof.
  intros l M H. destruct l as [|g gs]; [discriminate|]. unfold moment_exec in H.
  apply bind_ok in H as [u [Hu H]].
  assert (G : forall gs (u M : mat), fold_left (fun acc h => a <- acc ;; b <- unitary NB h ;; Ok (b_kron a b)) gs (Ok u) = Ok M ->
    exists ms, Forall2 (fun o m => unitary NB o = Ok m) gs ms /\ mr M = mr u * prodn (map (@mr S) ms) /\ mc M = mc u * prodn (map (@mc S) ms)).
  { clear. induction gs as [|g gs IH]; intros u M H; cbn [fold_left] in H.
    - injection H as <-. exists []. split; [constructor|]. unfold prodn. simpl. lia.
    - destruct (unitary NB g) as [v|e] eqn:E; cbn [bind] in H.
      + apply IH in H as [ms [HF [E1 E2]]]. exists (v :: ms). split; [constructor; assumption|].
        cbn [map]. rewrite !prodn_cons, E1, E2. simpl. lia.
      + rewrite fold_bind_err in H. discriminate. }
  apply G in H as [ms [HF [E1 E2]]]. exists (u :: ms). split; [constructor; assumption|].
  cbn [map]. rewrite !prodn_cons. auto.
Qed.

Section Line.
Variable dims : list nat.
Hypothesis Hdims : forall d, In d dims -> 2 <= d.
Notation n := (length dims).

(** The number of basis states of the registers an operation occupies. *)
Definition csize (o : op) : nat := prodn (map (fun r => nth r dims 0) (occupies n o)).

Definition fits (o : op) : Prop := forall m, unitary NB o = Ok m -> mr m = mc m /\ mr m <= csize o.
Definition small (o : op) : Prop := forall m, unitary NB o = Ok m -> mr m < csize o.

Lemma csize_pos : forall o, 0 < csize o.
Proof.
  intros o. apply prodn_pos, Forall_forall. intros x Hx. apply in_map_iff in Hx as [r [<- Hr]].
  apply filter_In in Hr as [Hr _]. apply in_seq in Hr. specialize (Hdims (nth r dims 0) (nth_In dims 0 (proj2 Hr))). lia.
Qed.

Lemma csize_layer : forall l, tiles n l -> prodn (map csize l) = prodn dims.
Proof.
  intros l [H _]. rewrite <- (map_nth_seq dims 0) at 1. rewrite <- H. clear H.
  induction l as [|o l IH]; [reflexivity|]. cbn [map concat]. rewrite prodn_cons, map_app, prodn_app, IH. reflexivity.
Qed.

Lemma prod_le : forall (l : list op) ms, Forall2 (fun o m => unitary NB o = Ok m) l ms -> Forall fits l ->
  prodn (map (@mr S) ms) = prodn (map (@mc S) ms) /\ prodn (map (@mr S) ms) <= prodn (map csize l) /\
  (Exists small l -> prodn (map (@mr S) ms) < prodn (map csize l)).
Proof.
  intros l ms H. induction H as [|o m l ms Ho Hl IH]; intros HF.
  - split; [reflexivity|]. split; [apply le_n|]. intros E; inversion E.
  - inversion HF as [|? ? F1 F2]; subst. destruct (IH F2) as [I1 [I2 I3]]. destruct (F1 m Ho) as [S1 S2].
    assert (P : 0 < prodn (map csize l)).
    { apply prodn_pos, Forall_forall. intros x Hx. apply in_map_iff in Hx as [y [<- _]]. apply csize_pos. }
    pose proof (csize_pos o) as P1. cbn [map]. rewrite !prodn_cons. split; [congruence|]. split; [apply Nat.mul_le_mono; assumption|].
    intros E. inversion E as [? ? E1|? ? E1]; subst.
    + specialize (E1 m Ho). apply Nat.le_lt_trans with (mr m * prodn (map csize l)); [apply Nat.mul_le_mono_l; assumption | apply Nat.mul_lt_mono_pos_r; assumption].
    + specialize (I3 E1). apply Nat.le_lt_trans with (csize o * prodn (map (@mr S) ms)); [apply Nat.mul_le_mono_r; assumption | apply Nat.mul_lt_mono_pos_l; assumption].
Qed.

Lemma layer_shape : forall l (M : mat), tiles n l -> Forall fits l -> moment_exec NB l = Ok M ->
  mr M = mc M /\ (Exists small l -> mr M < prodn dims).
Proof.
  intros l M Ht HF H. apply exec_shapes in H as [ms [Hm [E1 E2]]]. destruct (prod_le Hm HF) as [I1 [I2 I3]].
  rewrite (csize_layer Ht) in I3. rewrite E1, E2. split; [exact I1 | exact I3].
Qed.

(** ** The product of the layers *)
Definition mult (acc : res (option NB)) (m : moment S) : res (option NB) :=
  a <- acc ;; k <- moment_exec NB (m_list m) ;;
  match a with None => Ok (Some k) | Some d => p <- b_dot d k ;; Ok (Some p) end.

Lemma chain : forall P m0 ms acc R,
  (forall M, moment_exec NB (m_list m0) = Ok M -> mr M = P) ->
  (forall m M, In m ms -> moment_exec NB (m_list m) = Ok M -> mr M = mc M) ->
  fold_left mult (ms ++ [m0]) (Ok acc) = Ok R ->
  (forall d, acc = Some d -> mc d = P) /\
  (forall m, In m ms -> exists M, moment_exec NB (m_list m) = Ok M /\ mr M = P).
Proof.
  intros P m0 ms; induction ms as [|m ms IH]; intros acc R H0 HS H.
  - split; [|intros m []]. intros d ->. cbn [app fold_left mult bind] in H.
    destruct (moment_exec NB (m_list m0)) as [M|e] eqn:E; [|discriminate]. cbn [bind] in H.
    unfold b_dot in H; cbn in H; unfold ddot in H. destruct (Nat.eqb_spec (mc d) (mr M)) as [Hd|Hd]; [|discriminate].
    rewrite Hd. apply H0. reflexivity.
  - cbn [app fold_left] in H.
    destruct (moment_exec NB (m_list m)) as [M|e] eqn:E.
    2:{ exfalso. unfold mult at 2 in H. cbn [bind] in H. rewrite E in H. cbn [bind] in H.
        unfold mult in H. rewrite (@fold_bind_err _ _ (fun a m => k <- moment_exec NB (m_list m) ;; 
            match a with None => Ok (Some k) | Some d => p <- b_dot d k ;; Ok (Some p) end)) in H. discriminate. }
    assert (Sq : mr M = mc M) by (apply (HS m); [left; reflexivity | exact E]).
    assert (HS' : forall m' M', In m' ms -> moment_exec NB (m_list m') = Ok M' -> mr M' = mc M').
    { intros m' M' Hin. apply HS. right; exact Hin. }
    destruct acc as [d|].
    + destruct (b_dot d M) as [p|e] eqn:Ed.
      * unfold mult at 2 in H. cbn [bind] in H. rewrite E in H. cbn [bind] in H. rewrite Ed in H. cbn [bind] in H.
        destruct (IH _ _ H0 HS' H) as [I1 I2]. specialize (I1 p eq_refl).
        cbn in Ed. unfold ddot in Ed. destruct (Nat.eqb_spec (mc d) (mr M)) as [Hd|Hd]; [|discriminate]. injection Ed as <-.
        cbn in I1. split; [intros d' X; injection X as <-; congruence|].
        intros m' [<-|Hin]; [exists M; split; [exact E | congruence] | apply I2; exact Hin].
      * exfalso. unfold mult at 2 in H. cbn [bind] in H. rewrite E in H. cbn [bind] in H. rewrite Ed in H. cbn [bind] in H.
        unfold mult in H. rewrite (@fold_bind_err _ _ (fun a m => k <- moment_exec NB (m_list m) ;; 
            match a with None => Ok (Some k) | Some d => p <- b_dot d k ;; Ok (Some p) end)) in H. discriminate.
    + unfold mult at 2 in H. cbn [bind] in H. rewrite E in H. cbn [bind] in H.
      destruct (IH _ _ H0 HS' H) as [I1 I2]. specialize (I1 M eq_refl). split; [intros d X; discriminate|].
      intros m' [<-|Hin]; [exists M; split; [exact E | congruence] | apply I2; exact Hin].
Qed.

(** The initial layer has one row per basis state. *)
Definition init_rows (o : op) : Prop :=
  match o with OInit _ _ q v => mr v = nth (Z.to_nat q) dims 0 | _ => False end.

Lemma init_shape : forall l0 (M : mat), Forall init_rows l0 -> map (@qreg_of S) l0 = map Z.of_nat (seq 0 n) ->
  moment_exec NB l0 = Ok M -> mr M = prodn dims.
Proof.
  intros l0 M HF Hq H. apply exec_shapes in H as [ms [Hm [E1 _]]]. rewrite E1. f_equal.
  rewrite <- (map_nth_seq dims 0) at 1. 
  transitivity (map (fun q => nth (Z.to_nat q) dims 0) (map (@qreg_of S) l0)).
  - clear - Hm HF. induction Hm as [|o m l ms Ho Hm IH]; [reflexivity|]. inversion HF as [|? ? F1 F2]; subst.
    cbn [map]. rewrite IH by exact F2. f_equal. destruct o; try contradiction. injection Ho as <-. exact F1.
  - rewrite Hq, map_map. apply map_ext. intros i. rewrite Nat2Z.id. reflexivity.
Qed.

Lemma run_small : forall (c : circuit) m l0 ls, inv n c m l0 ls -> Forall init_rows l0 ->
  Forall fits (gate_ops ls) -> Exists small (gate_ops ls) -> exists e, flow_exec NB (c_flow c) = Err e.
Proof.
  intros c m l0 ls I H0 HF HE.
  assert (Hn : 0 < n).
  { destruct dims as [|d ds]; [|simpl; lia]. rewrite (i_zero I eq_refl) in HE. inversion HE. }
  destruct m; [|unfold flow_exec; rewrite (i_meas I); destruct n; [lia|]; eexists; reflexivity].
  destruct (flow_exec NB (c_flow c)) as [r|e] eqn:E; [|exists e; reflexivity]. exfalso.
  unfold flow_exec in E. destruct (forallb _ _); [|discriminate].
  assert (El := i_list I). unfold layers in El. rewrite app_comm_cons in El.
  apply map_eq_app in El as [fl1 [fl2 [Ef [E1 E2]]]]. destruct fl2 as [|last [|? ?]]; try discriminate.
  rewrite Ef, rev_app_distr in E. cbn [rev app] in E.
  destruct fl1 as [|m0 fl1]; [discriminate|]. cbn [map] in E1. injection E1 as E1 E3. cbn [rev] in E.
  assert (T : forall mm, In mm fl1 -> tiles n (m_list mm) /\ Forall fits (m_list mm)).
  { intros mm Hin. assert (Hl : In (m_list mm) ls) by (rewrite <- E3; apply in_map; exact Hin). split.
    - exact (proj1 (Forall_forall _ _) (i_tile I) _ Hl).
    - apply Forall_forall. intros o Ho. apply (proj1 (Forall_forall _ _) HF). apply in_concat. eauto. }
  assert (C := @chain (prodn dims) m0 (rev fl1) None r).
  destruct C as [_ C].
  - intros M HM. rewrite E1 in HM. eapply init_shape; [exact H0 | apply (i_m0 I) | exact HM].
  - intros mm M Hin HM. apply in_rev in Hin. destruct (T mm Hin) as [T1 T2]. apply (layer_shape T1 T2 HM).
  - exact E.
  - apply Exists_exists in HE as [o [Ho Hs]]. apply in_concat in Ho as [l [Hl Ho]]. rewrite <- E3 in Hl.
    apply in_map_iff in Hl as [mm [<- Hin]]. destruct (C mm ltac:(apply -> in_rev; exact Hin)) as [M [HM HP]].
    destruct (T mm Hin) as [T1 T2]. destruct (layer_shape T1 T2 HM) as [_ X].
    assert (mr M < prodn dims) by (apply X, Exists_exists; eauto). lia.
Qed.

(** ** Which gates fit *)
Lemma sub_map : forall a k, a + k <= n -> map (fun r => nth r dims 0) (seq a k) = sub dims a k.
Proof.
  intros a k H. rewrite <- (map_nth_seq (sub dims a k) 0), sub_length by exact H.
  clear Hdims. transitivity (map (fun i => nth (a + i) dims 0) (seq 0 k)).
  - clear H. revert a. induction k as [|k IH]; intros a; [reflexivity|]. cbn [seq map]. rewrite IH, <- seq_shift, map_map, Nat.add_0_r. f_equal.
    apply map_ext. intros i. f_equal. lia.
  - apply map_ext_in. intros i Hi. apply in_seq in Hi. rewrite sub_nth by lia. reflexivity.
Qed.


Lemma placed_single : forall (g : op) q, registers g = [q] -> occupies n g <> [] ->
  exists r, r < n /\ q = Z.of_nat r /\ csize g = nth r dims 0.
Proof.
  intros g q E Ho. exists (Z.to_nat q).
  assert (Hq : (0 <= q < Z.of_nat n)%Z).
  { rewrite (occupies_ranges n (ranges_single g E)) in Ho. unfold highr, lowr in Ho.
    destruct (Z.lt_ge_cases q 0); [exfalso; apply Ho; replace (_ - _) with 0 by lia; reflexivity|].
    destruct (Z.lt_ge_cases q (Z.of_nat n)); [lia|]. exfalso; apply Ho; replace (_ - _) with 0 by lia; reflexivity. }
  split; [lia|]. split; [lia|]. unfold csize.
  rewrite (@occupies_single S n g (Z.to_nat q)); [|rewrite Z2Nat.id by lia; exact E | lia].
  cbn [map]. rewrite prodn_cons. unfold prodn; simpl. lia.
Qed.

(** One-register gates built for dimension [d]. *)
Definition one_reg (g : op) (q d : Z) : Prop :=
  g = OH q d \/ (exists p, g = OX q d p) \/ g = OZ q d \/ (exists u, g = OArb (RInt q) (RInt d) u).

Lemma one_regs : forall g q d, one_reg g q d -> registers g = [q].
Proof. intros g q d [->|[[p ->]|[->|[u ->]]]]; reflexivity. Qed.

Lemma one_size : forall g q d m, one_reg g q d -> (d <> 0)%Z -> unitary NB g = Ok m ->
  (0 < d)%Z /\ mr m = Z.to_nat d /\ mc m = Z.to_nat d.
Proof.
  intros g q d m Hg Hd H.
  destruct Hg as [->|[[p ->]|[->|[u ->]]]]; cbn [unitary] in H; apply bind_ok in H as [v [H X]]; injection X as <-; cbn.
  - assert (0 < d)%Z by (unfold h_unitary in H; destruct (Z.ltb_spec (d + 1) 0); [discriminate|]; destruct (Z.leb_spec d 0); [discriminate | lia]).
    destruct (@h_unitary_spec S L (Z.to_nat d) ltac:(lia)) as [M [E [E1 [E2 _]]]]. rewrite Z2Nat.id in E by lia.
    rewrite E in H. injection H as <-. auto.
  - unfold x_unitary in H. destruct (Z.ltb_spec d 0); [discriminate|]. destruct (py_index _ _); [|discriminate].
    injection H as <-. cbn. rewrite upd_length, repeat_length. split; [lia | auto].
  - unfold z_unitary in H. destruct (Z.ltb_spec (d + 1) 0); [discriminate|]. destruct (Z.eqb_spec (d + 1) 0); [discriminate|]. injection H as <-. cbn.
    rewrite !rev_length, (sl_roots_len L). split; [lia | auto].
  - unfold arb_unitary in H. destruct (is_unitary u); [|discriminate].
    destruct ((Z.of_nat (mr u) =? d) && (Z.of_nat (mc u) =? d))%Z eqn:E; [|discriminate]. injection H as <-.
    apply andb_true_iff in E as [E1 E2]. apply Z.eqb_eq in E1. apply Z.eqb_eq in E2. lia.
Qed.

Lemma one_fits : forall g q d, one_reg g q d -> (d <> 0)%Z -> occupies n g <> [] ->
  (forall r, q = Z.of_nat r -> r < n -> (d <= Z.of_nat (nth r dims 0%nat))%Z) -> fits g.
Proof.
  intros g q d Hg Hd Ho Hle m Hm. destruct (one_size Hg Hd Hm) as [H1 [H2 H3]].
  destruct (placed_single g (one_regs Hg) Ho) as [r [Hr [-> ->]]]. specialize (Hle r eq_refl Hr). split; [congruence|].
  rewrite H2. lia.
Qed.

Lemma one_small : forall g r d, one_reg g (Z.of_nat r) d -> (d <> 0)%Z -> r < n ->
  (d < Z.of_nat (nth r dims 0%nat))%Z -> small g.
Proof.
  intros g r d Hg Hd Hr Hlt m Hm. destruct (one_size Hg Hd Hm) as [H1 [H2 H3]].
  unfold csize. rewrite (occupies_single g (one_regs Hg) Hr). cbn [map]. rewrite prodn_cons. unfold prodn; simpl. lia.
Qed.

Section Issued.
Variable c : circuit.
Hypothesis Hs : shaped dims c.

Lemma sh_get : forall r, r < n -> py_get (c_dims c) (Z.of_nat r) = Ok (Z.of_nat (nth r dims 0)).
Proof.
  intros r Hr. rewrite (sh_dims Hs), (@Lib.py_get_nat Z _ _ 0%Z) by (rewrite map_length; exact Hr). f_equal. apply GateTof.nth_map_Z.
Qed.

Lemma nth_ge2 : forall r, r < n -> 2 <= nth r dims 0.
Proof. intros r Hr. apply Hdims, nth_In. exact Hr. Qed.

Lemma chosen_dim : forall q dm d, validate1 c q dm = Ok tt -> dims_or c dm q = Ok d ->
  (d <> 0)%Z \/ (q < 0)%Z -> (0 <= q)%Z -> (d <> 0)%Z /\ forall r, q = Z.of_nat r -> r < n -> (d <= Z.of_nat (nth r dims 0%nat))%Z.
Proof.
  intros q dm d V D H0 Hq. split; [destruct H0; [assumption | lia]|]. intros r -> Hr.
  unfold validate1 in V. unfold dims_or in D. rewrite (sh_get Hr) in *.
  destruct (c_len c - 1 <? Z.of_nat r)%Z; [discriminate|].
  destruct dm as [z|]; [|injection D as <-; lia]. destruct (Z.eqb_spec z 0); [injection D as <-; lia|]. injection D as <-.
  cbn [bind] in V. destruct (Z.ltb_spec (Z.of_nat (nth r dims 0%nat)) z); [discriminate | lia].
Qed.

Lemma dim_nonzero : forall r dm d, r < n -> dims_or c dm (Z.of_nat r) = Ok d -> (d <> 0)%Z.
Proof.
  intros r dm d Hr D. unfold dims_or in D. rewrite (sh_get Hr) in D. pose proof (nth_ge2 Hr).
  destruct dm as [z|]; [|injection D as <-; lia]. destruct (Z.eqb_spec z 0); [injection D as <-; lia | congruence].
Qed.

Lemma one_issue : forall g q dm d, one_reg g q d -> validate1 c q dm = Ok tt -> dims_or c dm q = Ok d ->
  occupies n g <> [] -> fits g.
Proof.
  intros g q dm d Hg V D Ho. destruct (placed_single g (one_regs Hg) Ho) as [r [Hr [-> _]]].
  pose proof (dim_nonzero dm Hr D) as H0.
  apply (one_fits Hg H0 Ho). apply (chosen_dim _ V D); [left; exact H0 | lia].
Qed.

(** Gates on lists of registers *)
Lemma room_csize : forall (g : op), room dims (registers g) = csize g.
Proof. reflexivity. Qed.

Lemma mapM_in : forall A B (f : A -> res B) l l' x, mapM f l = Ok l' -> In x l -> exists y, f x = Ok y.
Proof.
  intros A B f l; induction l as [|a l IH]; intros l' x H Hx; [contradiction|]. cbn [mapM] in H.
  apply bind_ok in H as [y [E H]]. apply bind_ok in H as [ys [E2 _]]. destruct Hx as [<-|Hx]; eauto.
Qed.

Lemma csize_ge : forall (g : op) r, In r (occupies n g) -> nth r dims 0 <= csize g.
Proof.
  intros g r Hin. unfold csize.
  assert (G : forall l, (forall x, In x l -> 0 < nth x dims 0) -> In r l -> nth r dims 0 <= prodn (map (fun r => nth r dims 0) l)).
  { induction l as [|x l IH]; intros Hp Hr; [contradiction|]. cbn [map]. rewrite prodn_cons.
    assert (0 < nth x dims 0) by (apply Hp; left; reflexivity).
    assert (1 <= prodn (map (fun r => nth r dims 0) l)).
    { apply prodn_pos, Forall_forall. intros y Hy. apply in_map_iff in Hy as [z [<- Hz]]. apply Hp. right; exact Hz. }
    destruct Hr as [->|Hr]; [nia|]. specialize (IH ltac:(intros; apply Hp; right; assumption) Hr). nia. }
  apply G; [|exact Hin]. intros x Hx. apply filter_In in Hx as [Hx _]. apply in_seq in Hx.
  assert (X := @nth_ge2 x ltac:(lia)). lia.
Qed.

(** A list of registers that is placed has a register on the line. *)
Lemma list_top : forall l ds u, occupies n (OArb (RList l) ds u : op) <> [] ->
  (forall q, In q l -> (q < Z.of_nat n)%Z) -> exists r, r < n /\ In (Z.of_nat r) l /\ In r (occupies n (OArb (RList l) ds u : op)).
Proof.
  intros l ds u Ho Hb. destruct (occupies n (OArb (RList l) ds u : op)) as [|r rs] eqn:E; [congruence|].
  assert (Hr : In r (occupies n (OArb (RList l) ds u : op))) by (rewrite E; left; reflexivity).
  rewrite <- E. apply filter_In in Hr as [Hr Hc]. apply in_seq in Hr. unfold covers in Hc. cbn [registers] in Hc.
  apply andb_true_iff in Hc as [_ Hc]. apply existsb_exists in Hc as [b [Hb1 Hb2]]. apply Z.leb_le in Hb2.
  specialize (Hb b Hb1). exists (Z.to_nat b). rewrite Z2Nat.id by lia. split; [lia|]. split; [exact Hb1|].
  apply filter_In. split; [apply in_seq; lia|]. unfold covers. cbn [registers]. apply andb_true_iff.
  split; apply existsb_exists; exists b; (split; [exact Hb1 | apply Z.leb_le; lia]).
Qed.

Lemma list_fits : forall l dm ds u, validate c (RList l) dm = Ok tt ->
  match dm with
  | Some d => if (d =? 0)%Z then r <- mapM (py_get (c_dims c)) l ;; Ok (RList r) else Ok (RInt d)
  | None => r <- mapM (py_get (c_dims c)) l ;; Ok (RList r)
  end = Ok ds ->
  (3 <= length l -> mr u = mc u /\ mr u <= room dims l) ->
  occupies n (OArb (RList l) ds u : op) <> [] -> fits (OArb (RList l) ds u).
Proof.
  intros l dm ds u V D Ht Ho m Hm. cbn [validate] in V. apply bind_ok in V as [us [V _]].
  assert (Hb : forall q, In q l -> validate1 c q dm = Ok tt).
  { intros q Hq. destruct (mapM_in _ _ _ V Hq) as [[] E]. exact E. }
  destruct (@list_top l ds u Ho) as [r [Hr [Hin Hocc]]].
  { intros q Hq. specialize (Hb q Hq). unfold validate1 in Hb. rewrite (sh_len Hs) in Hb.
    destruct (Z.ltb_spec (Z.of_nat n - 1) q); [discriminate | lia]. }
  pose proof (csize_ge _ _ Hocc) as Hge. pose proof (nth_ge2 Hr) as H2.
  cbn [unitary] in Hm. apply bind_ok in Hm as [v [Hm X]]. injection X as <-. cbn.
  unfold arb_unitary in Hm. destruct (is_unitary u); [|discriminate].
  assert (Dflt : forall r0, (rr <- mapM (py_get (c_dims c)) l ;; Ok (RList rr)) = Ok r0 -> ds = r0 -> mr v = mc v /\ mr v <= csize (OArb (RList l) ds u)).
  { intros r0 Hd ->. apply bind_ok in Hd as [rr [Hd X]]. injection X as <-. pose proof (Forall2_len (mapM_forall2 _ _ Hd)) as Hl.
    destruct rr as [|a [|b [|x rr]]].
    - destruct l; [contradiction | discriminate].
    - destruct l as [|q [|]]; try discriminate. destruct Hin as [->|[]]. cbn [mapM] in Hd. rewrite (sh_get Hr) in Hd. injection Hd as <-.
      destruct ((Z.of_nat (mr u) =? _) && (Z.of_nat (mc u) =? _))%Z eqn:E; [|discriminate]. injection Hm as <-.
      apply andb_true_iff in E as [E1 E2]. apply Z.eqb_eq in E1. apply Z.eqb_eq in E2. lia.
    - discriminate.
    - injection Hm as <-. apply Ht. rewrite Hl. simpl. lia. }
  destruct dm as [z|]; [destruct (Z.eqb_spec z 0)|]; [eapply Dflt; [exact D | reflexivity] | | eapply Dflt; [exact D | reflexivity]].
  injection D as <-. specialize (Hb _ Hin). unfold validate1 in Hb. rewrite (sh_get Hr) in Hb.
  destruct (_ <? _)%Z; [discriminate|]. destruct (Z.eqb_spec z 0); [contradiction|]. cbn [bind] in Hb.
  destruct (Z.ltb_spec (Z.of_nat (nth r dims 0%nat)) z); [discriminate|].
  destruct ((Z.of_nat (mr u) =? z) && (Z.of_nat (mc u) =? z))%Z eqn:E; [|discriminate]. injection Hm as <-.
  apply andb_true_iff in E as [E1 E2]. apply Z.eqb_eq in E1. apply Z.eqb_eq in E2. lia.
Qed.

Lemma csize_range : forall (g : op) lo hi, ranges g (Z.of_nat lo) (Z.of_nat hi) -> lo <= hi -> hi < n ->
  csize g = prodn (sub dims lo (hi - lo + 1)).
Proof.
  intros g lo hi Hr Hle Hh. unfold csize. rewrite (occupies_ranges n Hr). unfold highr, lowr.
  replace (Nat.min (Z.to_nat (Z.of_nat lo)) n) with lo by lia.
  replace (Nat.max lo (Nat.min (Z.to_nat (Z.of_nat hi + 1)) n) - lo) with (hi - lo + 1) by lia.
  rewrite sub_map by lia. reflexivity.
Qed.

Lemma sub_pos : forall a k d, In d (sub dims a k) -> 0 < d.
Proof.
  intros a k d Hd. assert (2 <= d); [|lia]. apply Hdims. unfold sub in Hd.
  rewrite <- (firstn_skipn a dims). apply in_or_app. right. rewrite <- (firstn_skipn k (skipn a dims)). apply in_or_app. left. exact Hd.
Qed.

Lemma slice_sub : forall a b, a <= b -> b < n -> py_slice (c_dims c) (Z.of_nat a) (Z.of_nat b + 1) = map Z.of_nat (sub dims a (b - a + 1)).
Proof.
  intros a b H1 H2. unfold py_slice. rewrite (sh_dims Hs), map_length. unfold py_clip.
  destruct (Z.ltb_spec (Z.of_nat a) 0); [lia|]. destruct (Z.ltb_spec (Z.of_nat b + 1) 0); [lia|].
  replace (Nat.min (Z.to_nat (Z.of_nat a)) n) with a by lia.
  replace (Nat.min (Z.to_nat (Z.of_nat b + 1)) n - a) with (b - a + 1) by lia.
  unfold sub. rewrite skipn_map, firstn_map. reflexivity.
Qed.

Lemma cx_exact : forall a p a0 a1 g, py_get a 0 = Ok a0 -> py_get a 1 = Ok a1 ->
  g = (OCX (if (a0 <? a1)%Z then py_slice (c_dims c) a0 (a1 + 1) else py_slice (c_dims c) a1 (a0 + 1)) a p) ->
  occupies n g <> [] -> forall m, unitary NB g = Ok m -> mr m = mc m /\ mr m = csize g.
Proof.
  intros a p a0 a1 g A0 A1 -> Ho m Hm. destruct a as [|s [|t [|x a]]]; try discriminate A0; try discriminate A1.
  2:{ cbn [unitary cx_rows bind] in Hm. discriminate. }
  assert (a0 = s) as -> by (injection A0 as A0; symmetry; exact A0).
  assert (a1 = t) as -> by (injection A1 as A1; symmetry; exact A1). clear A0 A1.
  assert (Hon : (0 <= Z.max s t /\ Z.min s t < Z.of_nat n)%Z).
  { destruct (occupies n _) as [|r rs] eqn:Eo in Ho; [congruence|]. clear Ho.
    assert (Hr : In r (r :: rs)) by (left; reflexivity). rewrite <- Eo in Hr. apply filter_In in Hr as [Hr Hc].
    apply in_seq in Hr. unfold covers in Hc. cbn [registers existsb] in Hc. rewrite !orb_false_r in Hc.
    rewrite andb_true_iff, !orb_true_iff, !Z.leb_le in Hc. lia. }
  destruct (Z.lt_ge_cases (Z.min s t) 0) as [Hneg|Hpos0]; [|destruct (Z.lt_ge_cases (Z.max s t) (Z.of_nat n)) as [Hin|Hbig]].
  1,3: exfalso; set (qr := if (s <? t)%Z then py_slice (c_dims c) s (t + 1) else py_slice (c_dims c) t (s + 1)) in *;
    assert (Hq : (Z.of_nat (length qr) <= Z.max s t - Z.min s t)%Z) by
     (assert (El : length (c_dims c) = n) by (rewrite (sh_dims Hs); apply map_length);
      unfold qr; destruct (Z.ltb_spec s t); rewrite py_slice_length, El; unfold py_clip;
      repeat match goal with |- context [(?x <? ?y)%Z] => destruct (Z.ltb_spec x y) end; lia);
    cbn [unitary cx_rows] in Hm; destruct (Z.ltb_spec s t) as [Hst|Hst];
    [rewrite (@py_get_big _ qr (t - s)) in Hm by lia; destruct (py_get qr 0); discriminate Hm
    | rewrite (@py_get_big _ qr (s - t)) in Hm by lia; discriminate Hm].
  set (lo := Z.to_nat (Z.min s t)). set (hi := Z.to_nat (Z.max s t)).
  assert (Hg : forall qr, csize (OCX qr [s; t] p) = prodn (sub dims lo (hi - lo + 1))).
  { intros qr. apply csize_range; [|lia|lia]. intros r. unfold covers. cbn [registers existsb].
    unfold lo, hi. rewrite !Z2Nat.id by lia. rewrite !orb_false_r. apply eq_true_iff_eq.
    rewrite !andb_true_iff, !orb_true_iff, !Z.leb_le. lia. }
  rewrite Hg.
  assert (Eq : (if (s <? t)%Z then py_slice (c_dims c) s (t + 1) else py_slice (c_dims c) t (s + 1)) = map Z.of_nat (sub dims lo (hi - lo + 1))).
  { rewrite <- slice_sub by lia. unfold lo, hi. rewrite !Z2Nat.id by lia. destruct (Z.ltb_spec s t); f_equal; lia. }
  rewrite Eq in Hm. cbn [unitary] in Hm.
  assert (Hl : length (sub dims lo (hi - lo + 1)) = hi - lo + 1) by (apply sub_length; lia).
  destruct (@cx_rows_spec S (seqb_refl L s1) (seqb_01 L) (sub dims lo (hi - lo + 1)) s t p
     (Z.to_nat (if (s <? t)%Z then 0 else s - t)) (Z.to_nat (if (s <? t)%Z then t - s else 0))) as [M [E [E1 [E2 _]]]].
  - exact (sub_pos lo (hi - lo + 1)).
  - rewrite Hl. destruct (Z.ltb_spec s t); lia.
  - rewrite Hl. destruct (Z.ltb_spec s t); lia.
  - destruct (Z.ltb_spec s t); lia.
  - destruct (Z.ltb_spec s t); lia.
  - rewrite E in Hm. injection Hm as <-. cbn. lia.
Qed.

Lemma tof_exact : forall cs t p ds acting u, mk_toffoli S cs t p (qregs_list (c_qregs c)) = Ok (OTof cs t p ds acting u) ->
  (forall r, In r (t :: cs) -> (0 <= r)%Z) -> forall m, unitary NB (OTof cs t p ds acting u) = Ok m ->
  mr m = mc m /\ mr m = csize (OTof cs t p ds acting u).
Proof.
  intros cs t p ds acting u Hm Hnn m H. rewrite (sh_qregs Hs) in Hm. cbn [qregs_list] in Hm.
  assert (Ecs : cs = map Z.of_nat (map Z.to_nat cs)).
  { rewrite map_map. rewrite <- (map_id cs) at 1. apply map_ext_in. intros x Hx. rewrite Z2Nat.id; [reflexivity|]. apply Hnn. right; exact Hx. }
  assert (Et : t = Z.of_nat (Z.to_nat t)) by (rewrite Z2Nat.id; [reflexivity | apply Hnn; left; reflexivity]).
  remember (map Z.to_nat cs) as cn eqn:Ecn. remember (Z.to_nat t) as tn eqn:Etn. clear Ecn Etn. subst cs t.
  destruct (@nat_bounds (cn ++ [tn])) as [lo [hi [H1 [H2 H3]]]]; [destruct cn; discriminate|].
  assert (Hhi : hi < n).
  { destruct (Nat.lt_ge_cases hi n) as [?|Hge]; [assumption|]. exfalso.
    pose proof Hm as Hm'. apply mk_toffoli_shape in Hm' as [lb [ub [ds' [u' [E1 [E2 X]]]]]]. injection X as -> -> ->.
    unfold mk_toffoli in Hm. apply bind_ok in Hm as [[[v lb'] ub'] [Hd Hm]]. apply bind_ok in Hm as [ds2 [Hds _]].
    unfold toffoli_dm in Hd. rewrite E1 in Hd. cbn [bind] in Hd. rewrite E2 in Hd. cbn [bind] in Hd.
    apply bind_ok in Hd as [span [Hspan _]].
    assert (Hin : In (Z.of_nat hi) (map Z.of_nat cn ++ [Z.of_nat tn])).
    { change [Z.of_nat tn] with (map Z.of_nat [tn]). rewrite <- map_app. apply in_map. exact H2. }
    assert (Hr : In (Z.of_nat hi) (zrange lb (ub + 1))).
    { apply in_zrange. destruct (map Z.of_nat cn ++ [Z.of_nat tn]) as [|x l]; [contradiction|].
      destruct (py_min_ex x l) as [a [Ea [_ Ba]]]. destruct (py_max_ex x l) as [b [Eb [_ Bb]]].
      rewrite Ea in E1. rewrite Eb in E2. injection E1 as <-. injection E2 as <-. specialize (Ba _ Hin). specialize (Bb _ Hin). lia. }
    destruct (mapM_in _ _ _ Hspan Hr) as [y Ey]. rewrite py_get_big in Ey by (rewrite map_length; lia). discriminate. }
  destruct (@mk_toffoli_spec S dims cn tn p lo hi H3 H1 H2 Hhi) as [v [E [V1 [V2 _]]]].
  { intros d Hd. specialize (Hdims d Hd). lia. }
  rewrite E in Hm. injection Hm as <- <- <-.
  cbn [unitary] in H. apply bind_ok in H as [w [H X]]. injection X as <-.
  assert (w = v) as ->.
  { unfold arb_unitary in H. destruct (is_unitary v); [|discriminate].
    destruct (map Z.of_nat (sub dims lo (hi - lo + 1))) as [|a [|b [|x l]]]; try congruence; try discriminate.
    destruct (_ && _)%bool; congruence. }
  cbn. rewrite V1, V2. split; [reflexivity|].
  rewrite (@csize_range _ lo hi); [lia | | | exact Hhi].
  - intros r. unfold covers. cbn [registers]. apply eq_true_iff_eq. rewrite !andb_true_iff, !existsb_exists, !Z.leb_le.
    assert (Hin : forall x, In x (Z.of_nat tn :: map Z.of_nat cn) <-> exists y, x = Z.of_nat y /\ In y (cn ++ [tn])).
    { intros x. change (Z.of_nat tn :: map Z.of_nat cn) with (map Z.of_nat (tn :: cn)). rewrite in_map_iff. split.
      - intros [y [<- Hy]]. exists y. split; [reflexivity | apply in_snoc_cons; exact Hy].
      - intros [y [-> Hy]]. exists y. split; [reflexivity | apply in_snoc_cons; exact Hy]. }
    split.
    + intros [[a [Ha La]] [b [Hb Lb]]]. apply Hin in Ha as [a' [-> Ha]]. apply Hin in Hb as [b' [-> Hb]].
      apply Z.leb_le in La. apply Z.leb_le in Lb. specialize (H3 _ Ha) as B1. specialize (H3 _ Hb) as B2. lia.
    + intros [La Lb]. split; [exists (Z.of_nat lo) | exists (Z.of_nat hi)]; (split; [apply Hin; eauto | apply Z.leb_le; lia]).
  - specialize (H3 _ H1). lia.
Qed.

Lemma issue_fits : forall k g, issues c k g -> tame dims k -> occupies n g <> [] -> fits g.
Proof.
  intros k g Hi Ht Ho. destruct Hi as [q dm d V D|q dm p d V D|q dm d V D|a p a0 a1 A0 A1|cs t p ds acting u Hm|q dm d u V D|l dm ds u V D].
  - eapply one_issue; [left; reflexivity | exact V | exact D | exact Ho].
  - eapply one_issue; [right; left; eauto | exact V | exact D | exact Ho].
  - eapply one_issue; [right; right; left; eauto | exact V | exact D | exact Ho].
  - intros m Hm. destruct (cx_exact A0 A1 eq_refl Ho Hm) as [<- ->]. auto.
  - intros m Hu. destruct (tof_exact Hm Ht Hu) as [<- ->]. auto.
  - eapply one_issue; [right; right; right; eauto | exact V | exact D | exact Ho].
  - eapply list_fits; eassumption.
Qed.

Lemma id_fits : forall i, i < n -> fits (idop S (c_dims c) i).
Proof.
  intros i Hi m Hm. cbn [unitary idop] in Hm. injection Hm as <-. cbn. split; [reflexivity|].
  unfold csize. rewrite (@occupies_single S n _ i); [|reflexivity | exact Hi].
  cbn [map]. rewrite prodn_cons. rewrite (sh_dims Hs), GateTof.nth_map_Z, Nat2Z.id. unfold prodn; simpl. lia.
Qed.
End Issued.

(** ** Histories *)
Lemma first_rows : forall init out (c : circuit) l0 ls m k, mk_circuit S (QList (map Z.of_nat dims)) init out = Ok c ->
  inv k c m l0 ls -> Forall init_rows l0.
Proof.
  intros init out c l0 ls m k H I. unfold mk_circuit in H. cbn [reg_layout bind] in H.
  apply bind_ok in H as [f [Hf H]]. injection H as <-.
  pose proof (i_list I) as El. unfold layers in El. cbn [c_flow] in El.
  unfold initialize_states in Hf. apply bind_ok in Hf as [gates [Hg Hf]]. apply bind_ok in Hf as [[f' b] [Hf E]].
  injection E as ->. unfold populate_opflow in Hf. cbn [rev opflow0 f_list] in Hf. apply bind_ok in Hf as [me [_ Hf]].
  injection Hf as <- _. cbn [f_list map m_list mk_moment] in El. injection El as <- _.
  apply mapM_forall2 in Hg. clear - Hg. induction Hg as [|x o l l' Hx Hg IH]; constructor; [|exact IH].
  destruct x as [i e]. apply bind_ok in Hx as [d [Hd Hx]]. pose proof (@init_state_cases S d e (Z.of_nat i)) as C.
  rewrite Hx in C. destruct o; try contradiction. destruct C as [_ [_ [_ [-> ->]]]]. cbn. rewrite Nat2Z.id.
  pose proof (py_get_bound _ _ Hd) as Hi. rewrite (@Lib.py_get_nat Z _ _ 0%Z) in Hd by exact Hi. injection Hd as <-.
  rewrite GateTof.nth_map_Z. apply Nat2Z.id.
Qed.

Lemma ops_fit : forall (c : circuit) m l0 ls, inv n c m l0 ls -> shaped dims c ->
  (forall o, In o (gate_ops ls) -> from_calls c (tame dims) o) -> Forall fits (gate_ops ls).
Proof.
  intros c m l0 ls I Hs HF. apply Forall_forall. intros o Ho.
  assert (Hocc : occupies n o <> []).
  { apply in_concat in Ho as [l [Hl Ho]]. exact (proj2 (proj1 (Forall_forall _ _) (i_tile I) l Hl) o Ho). }
  destruct (HF o Ho) as [[i [Hi ->]]|[k [Hk Hi]]].
  - apply id_fits; [exact Hs|]. rewrite (i_dims I) in Hi. exact Hi.
  - eapply issue_fits; eassumption.
Qed.
End Line.

Theorem too_small_flow : forall dims init out ks (c : circuit) k r d ks',
  history (QList (map Z.of_nat dims)) init out ks c -> ~ In CMeasureAll ks ->
  asks_one k (Z.of_nat r) (Some d) -> r < length dims -> d <> 0%Z -> (d < Z.of_nat (nth r dims O))%Z ->
  Forall (tame dims) ks -> Forall (tame dims) ks' ->
  exists c', api c k = Ok (c', true) /\ exists e, flow_exec NB (c_flow (after c' ks')) = Err e.
Proof.
  intros dims init out ks c k r d ks' H Hm Ha Hr Hd Hlt T1 T2.
  pose proof (hl_shaped dims H) as Hs. pose proof H as H'. destruct H' as [c0 [E0 Ec]].
  assert (Hdims : forall x, In x dims -> 2 <= x).
  { intros x Hx. assert (2 <= Z.of_nat x)%Z; [|lia]. apply (history_dims2 H). apply in_map. exact Hx. }
  assert (Hg : exists g, issues c k g /\ one_reg g (Z.of_nat r) d /\ tame dims k).
  { assert (V : validate1 c (Z.of_nat r) (Some d) = Ok tt).
    { unfold validate1. rewrite (sh_len Hs), (sh_get Hs Hr). destruct (Z.ltb_spec (Z.of_nat (length dims) - 1) (Z.of_nat r)); [lia|].
      destruct (Z.eqb_spec d 0); [contradiction|]. cbn [bind]. destruct (Z.ltb_spec (Z.of_nat (nth r dims O)) d); [lia | reflexivity]. }
    assert (D : dims_or c (Some d) (Z.of_nat r) = Ok d).
    { unfold dims_or. destruct (Z.eqb_spec d 0); [contradiction | reflexivity]. }
    destruct k as [q dm|q dm p|q dm|a p|cs t p|u [q|l] dm|q|]; simpl in Ha; try contradiction; destruct Ha as [-> ->]; eexists.
    - split; [constructor; eassumption|]. split; [left; reflexivity | exact I].
    - split; [constructor; eassumption|]. split; [right; left; eauto | exact I].
    - split; [constructor; eassumption|]. split; [right; right; left; eauto | exact I].
    - split; [constructor; eassumption|]. split; [right; right; right; eauto | exact I]. }
  destruct Hg as [g [Hi [Hone Tk]]].
  destruct (inv_new _ _ _ E0) as [l0 I0]. rewrite (hl_nregs dims) in I0.
  destruct (@after_full S (tame dims) _ ks _ _ _ _ I0 T1 ltac:(simpl; tauto)) as [ls [I1 [_ [F1 _]]]].
  assert (Em : false || (0 <? length dims) && existsb (@is_measure_all S) ks = false).
  { destruct (existsb _ ks) eqn:E; [|apply andb_false_r]. apply measured_in in E. contradiction. }
  rewrite Em, <- Ec in I1. rewrite <- Ec in F1.
  assert (Hn : 0 < nregs (QList (map Z.of_nat dims))) by (rewrite (hl_nregs dims); lia).
  destruct (accepts H Hn Hm Hi) as [c' Eapi]; [rewrite (one_regs Hone); discriminate|].
  exists c'. split; [exact Eapi|].
  assert (Hk : k <> CMeasureAll) by (intros ->; contradiction).
  destruct (inv_gate I1 Hk Eapi) as [[[X|X] _]|[_ [_ [_ [g' [lo [hi [ls' [Hi' [Hrg [Had [I2 [f ->]]]]]]]]]]]]];
    [discriminate | lia |].
  rewrite <- (issues_fun Hi Hi') in *. clear g' Hi'.
  assert (Hs' : shaped dims (set_flow c f)) by (destruct Hs as [S1 S2 S3]; constructor; assumption).
  destruct (added_ops Had) as [A1 [_ A3]].
  assert (F2 : forall o, In o (gate_ops ls') -> from_calls (set_flow c f) (tame dims) o).
  { intros o Ho. eapply from_layout; [apply set_flow_layout|]. destruct (A1 o Ho) as [Ho'|[->|[i [Hin ->]]]]; [auto | right; eauto|].
    left. exists i. rewrite (i_dims I1). auto. }
  assert (Hin : In g (gate_ops ls')).
  { apply A3. pose proof (occupies_single g (one_regs Hone) Hr) as Eo. rewrite (occupies_ranges _ Hrg) in Eo.
    destruct (Nat.lt_ge_cases (lowr (length dims) lo) (highr (length dims) lo hi)) as [Hl|Hge]; [exact Hl|].
    replace (highr (length dims) lo hi - lowr (length dims) lo) with 0 in Eo by lia. discriminate. }
  destruct (@after_full S (tame dims) _ ks' _ _ _ _ I2 T2 F2) as [ls2 [I3 [SL [F3 K3]]]].
  assert (Hs3 : shaped dims (after (set_flow c f) ks')).
  { destruct SL as [L1 [L2 [L3 _]]]. destruct Hs' as [S1 S2 S3]. constructor; congruence. }
  eapply run_small; [exact Hdims | exact I3 | eapply first_rows; [exact E0 | exact I0] | | ].
  - eapply ops_fit; eassumption.
  - apply Exists_exists. exists g. split.
    + apply K3; [exact Hin | eapply issues_not_igate; exact Hi].
    + eapply one_small; eassumption.
Qed.

Theorem too_small : forall dims init out ks (c : circuit) k r d ks',
  history (QList (map Z.of_nat dims)) init out ks c -> ~ In CMeasureAll ks ->
  asks_one k (Z.of_nat r) (Some d) -> r < length dims -> d <> 0%Z -> (d < Z.of_nat (nth r dims O))%Z ->
  Forall (tame dims) ks -> Forall (tame dims) ks' ->
  exists c', api c k = Ok (c', true) /\ exists e, run NB (after c' ks') = Err e.
Proof.
  intros dims init out ks c k r d ks' H Hm Ha Hr Hd Hlt T1 T2.
  destruct (@too_small_flow dims init out ks c k r d ks' H Hm Ha Hr Hd Hlt T1 T2) as [c' [E [e He]]].
  exists c'. split; [exact E|]. exists e. unfold run. rewrite He. reflexivity.
Qed.
End Shapes.
