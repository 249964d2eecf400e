(** * GateMat: the matrix of every gate, entry by entry. *)
From Verif Require Import Py Scalar Mat Utils Gates Circuit Spec Lib Kern.
Set Implicit Arguments.

(** ** The truth table enumerates the configurations *)
Lemma level_lin : forall dims s i, valid dims s -> i < length dims ->
  level s i = (lin dims s / prodn (skipn (S i) dims)) mod nth i dims 0.
Proof.
  intros dims s i H; revert i; induction H as [|x d s ds Hx Hs IH]; intros i Hi; simpl in Hi; [lia|].
  destruct i as [|i]; simpl lin.
  - change (skipn 1 (d :: ds)) with ds. change (nth 0 (d :: ds) 0) with d. change (level (x :: s) 0) with x.
    pose proof (lin_lt Hs). rewrite Nat.div_add_l, Nat.div_small, Nat.add_0_r by lia.
    rewrite Nat.mod_small by lia. reflexivity.
  - change (level (x :: s) (S i)) with (level s i). change (nth (S i) (d :: ds) 0) with (nth i ds 0).
    change (skipn (S (S i)) (d :: ds)) with (skipn (S i) ds).
    rewrite IH by lia.
    assert (E : prodn ds = prodn (firstn i ds) * nth i ds 0 * prodn (skipn (S i) ds)).
    { clear - Hi. revert i Hi; induction ds as [|e ds IH]; intros [|i] Hi; simpl in *; try lia.
      - rewrite prodn_cons. change (prodn []) with 1. lia.
      - rewrite !prodn_cons, (IH i) by lia. lia. }
    pose proof (lin_lt Hs) as Hl. rewrite E in *.
    assert (prodn (skipn (S i) ds) <> 0) by nia. assert (nth i ds 0 <> 0) by nia.
    rewrite Nat.mul_assoc. rewrite Nat.div_add_l by assumption.
    rewrite (Nat.mul_assoc x), Nat.add_comm, Nat.mod_add by assumption. reflexivity.
Qed.

Lemma nth_concat_repeat : forall A (l : list A) n i d, i < n * length l ->
  nth i (concat (repeat l n)) d = nth (i mod length l) l d.
Proof.
  intros A l n; induction n as [|n IH]; intros i d H; simpl in *; [lia|].
  assert (length l <> 0) by (intros E; rewrite E in H; lia).
  destruct (Nat.lt_ge_cases i (length l)) as [Hlt|Hge].
  - rewrite app_nth1 by assumption. rewrite Nat.mod_small by assumption. reflexivity.
  - rewrite app_nth2 by assumption. rewrite IH by lia.
    f_equal. replace i with (i - length l + 1 * length l) at 2 by lia.
    rewrite Nat.mod_add by assumption. reflexivity.
Qed.

Lemma length_flat_repeat : forall p n a, length (flat_map (fun x => repeat x p) (seq a n)) = n * p.
Proof.
  intros p n; induction n as [|n IH]; intros a; simpl; [reflexivity|].
  rewrite app_length, repeat_length, IH. reflexivity.
Qed.

Lemma nth_repeat_lt : forall A (x : A) n i d, i < n -> nth i (repeat x n) d = x.
Proof.
  intros A x n; induction n as [|n IH]; intros [|i] d H; simpl; try lia; [reflexivity|].
  apply IH; lia.
Qed.

Lemma nth_flat_repeat : forall p n a i d, i < n * p ->
  nth i (flat_map (fun x => repeat x p) (seq a n)) d = a + i / p.
Proof.
  intros p n; induction n as [|n IH]; intros a i d H; simpl in *; [lia|].
  assert (p <> 0) by (intros E; rewrite E in H; lia).
  destruct (Nat.lt_ge_cases i p) as [Hlt|Hge].
  - rewrite app_nth1 by (rewrite repeat_length; assumption).
    rewrite nth_repeat_lt by assumption. rewrite Nat.div_small by assumption. lia.
  - rewrite app_nth2 by (rewrite repeat_length; assumption). rewrite repeat_length, IH by lia.
    replace i with (i - p + 1 * p) at 2 by lia. rewrite Nat.div_add by assumption. lia.
Qed.

Lemma length_concat_repeat : forall A (l : list A) n, length (concat (repeat l n)) = n * length l.
Proof. intros A l n; induction n as [|n IH]; simpl; [reflexivity|]. rewrite app_length, IH. reflexivity. Qed.

Lemma ttg_col_nth : forall qreg i r, i < length qreg -> r < prodn qreg ->
  nth r (ttg_col qreg i (nth i qreg 0)) 0 = level (unlin qreg r) i.
Proof.
  intros qreg i r Hi Hr. unfold ttg_col.
  assert (E : prodn qreg = prodn (firstn i qreg) * (nth i qreg 0 * prodn (skipn (S i) qreg))).
  { clear Hr. revert i Hi; induction qreg as [|e ds IH]; intros [|i] Hi; simpl in *; try lia.
    - rewrite prodn_cons. change (prodn []) with 1. lia.
    - rewrite !prodn_cons, (IH i) by lia. lia. }
  rewrite nth_concat_repeat; rewrite length_flat_repeat; [|rewrite <- E; assumption].
  rewrite nth_flat_repeat by (apply Nat.mod_upper_bound; intros F; rewrite F in E; lia).
  rewrite (@level_lin qreg) by (try apply unlin_valid; assumption).
  rewrite lin_unlin by assumption. simpl.
  assert (prodn (skipn (S i) qreg) <> 0) by nia. assert (nth i qreg 0 <> 0) by nia.
  rewrite (Nat.mul_comm (nth i qreg 0)).
  rewrite Nat.mod_mul_r, Nat.add_comm, Nat.mul_comm, Nat.div_add_l by assumption.
  rewrite (Nat.div_small (r mod _)) by (apply Nat.mod_upper_bound; assumption). lia.
Qed.

Lemma ttg_all_configs : forall qreg, qreg <> [] -> ttg qreg = all_configs qreg.
Proof.
  intros qreg Hne. unfold ttg. rewrite (combine_seq_nth qreg 0 0), map_map. simpl.
  set (cols := map _ (seq 0 (length qreg))).
  assert (Hlen : length (hd [] cols) = prodn qreg).
  { unfold cols. destruct qreg as [|d ds]; [contradiction|]. simpl.
    unfold ttg_col. rewrite length_concat_repeat, length_flat_repeat. simpl.
    change (prodn []) with 1. rewrite prodn_cons. lia. }
  rewrite Hlen. rewrite all_configs_unlin. apply map_ext_in. intros r Hr. apply in_seq in Hr.
  unfold cols. rewrite map_map.
  pose proof (valid_length (unlin_valid qreg (i := r) ltac:(lia))) as Hl.
  rewrite <- (map_nth_seq (unlin qreg r) 0) at 1. rewrite Hl. apply map_ext_in.
  intros i Hi. apply in_seq in Hi. apply ttg_col_nth; lia.
Qed.

Lemma combinations_all_configs : forall ds, generate_combinations ds = all_configs ds.
Proof. induction ds as [|d ds IH]; simpl; [reflexivity|]. rewrite IH. reflexivity. Qed.

Lemma get_index_from_nth : forall (l : list (list nat)) k i d,
  NoDup l -> i < length l -> get_index_from k l (nth i l d) = Some (k + i).
Proof.
  induction l as [|x l IH]; intros k i d HN Hi; simpl in *; [lia|].
  inversion HN as [|x' l' Hx HN']; subst.
  destruct i as [|i]; simpl.
  - rewrite (proj2 (list_eqb_nat x x)) by reflexivity. f_equal; lia.
  - destruct (list_eqb Nat.eqb x (nth i l d)) eqn:E.
    + apply list_eqb_nat in E. subst. exfalso. apply Hx. apply nth_In. lia.
    + rewrite IH by (assumption || lia). f_equal; lia.
Qed.

Lemma get_index_configs : forall ds s, valid ds s -> get_index (all_configs ds) s = Some (lin ds s).
Proof.
  intros ds s H. unfold get_index.
  rewrite <- (unlin_lin H) at 1. unfold unlin.
  rewrite get_index_from_nth; [reflexivity | apply all_configs_NoDup|].
  rewrite all_configs_length. apply lin_lt, H.
Qed.

Section GateMat.
Variable S : scalar.
Hypothesis L : scalar_laws S.
Add Ring Sring : (sl_ring L).
Notation mat := (mat S).
Notation op := (op S).
Notation NB := (NumpyBackend S).
Notation kernel := (config -> config -> S).

Lemma repr_eye : forall ds, repr ds ds (deye S (prodn ds) (prodn ds)) (delta S).
Proof.
  intros ds. eapply repr_ext; [|apply repr_mkmat]. intros s t Hs Ht. simpl. unfold delta.
  destruct (config_eqb s t) eqn:E.
  - apply config_eqb_eq in E. subst. rewrite Nat.eqb_refl. reflexivity.
  - apply config_eqb_neq in E. destruct (Nat.eqb_spec (lin ds s) (lin ds t)) as [F|F]; [|reflexivity].
    exfalso. apply E. eapply lin_inj; eassumption.
Qed.

(** A function on configurations as a permutation-like matrix. *)
Lemma repr_classical : forall ds (f : config -> config) (g : nat -> nat -> S),
  (forall s, valid ds s -> valid ds (f s)) ->
  (forall i j, i < prodn ds -> j < prodn ds ->
     g i j = if Nat.eqb (lin ds (f (unlin ds j))) i then s1 else s0) ->
  repr ds ds (mkmat (prodn ds) (prodn ds) g) (classical S f).
Proof.
  intros ds f g Hf Hg. eapply repr_ext; [|apply repr_mkmat]. intros s t Hs Ht. simpl.
  rewrite Hg by (apply lin_lt; assumption). rewrite unlin_lin by assumption. unfold classical.
  destruct (config_eqb (f t) s) eqn:E.
  - apply config_eqb_eq in E. rewrite E, Nat.eqb_refl. reflexivity.
  - apply config_eqb_neq in E. destruct (Nat.eqb_spec (lin ds (f t)) (lin ds s)) as [F|F]; [|reflexivity].
    exfalso. apply E. eapply lin_inj; [apply Hf| |]; eassumption.
Qed.

Lemma lin_single : forall d x, lin [d] [x] = x.
Proof. intros; simpl. change (prodn []) with 1. lia. Qed.

Lemma valid_single : forall d s, valid [d] s -> exists x, s = [x] /\ x < d.
Proof. intros d s H. inversion H as [|x d' s' ds' Hx Hs]; subst. inversion Hs; subst. exists x; auto. Qed.

(** One-register matrices. *)
Lemma repr_single : forall d (M : mat) u,
  mr M = d -> mc M = d -> (forall i j, i < d -> j < d -> mget M i j = u i j) ->
  repr [d] [d] M (fun s t => u (level s 0) (level t 0)).
Proof.
  intros d M u H1 H2 H3. constructor.
  - rewrite prodn_cons. change (prodn []) with 1. lia.
  - rewrite prodn_cons. change (prodn []) with 1. lia.
  - intros s t Hs Ht. destruct (valid_single Hs) as [x [-> Hx]]. destruct (valid_single Ht) as [y [-> Hy]].
    rewrite !lin_single. apply H3; assumption.
Qed.

(** ** X *)
Lemma circulant_get : forall (c : list S) i j, i < length c -> j < length c ->
  mget (circulant S c) i j = nth ((i + length c - j) mod length c) c s0.
Proof. intros c i j Hi Hj. unfold circulant. rewrite mget_mkmat by assumption. reflexivity. Qed.

Lemma shift_index : forall d i j p k, i < d -> j < d ->
  py_index d p = Some k -> ((i + d - j) mod d = k <-> shift d j p = i).
Proof.
  intros d i j p k Hi Hj Hk.
  assert (Ek : Z.of_nat k = (p mod Z.of_nat d)%Z /\ k < d).
  { unfold py_index in Hk.
    destruct ((0 <=? p) && (p <? Z.of_nat d))%Z eqn:E1.
    - apply andb_true_iff in E1 as [A B]. apply Z.leb_le in A. apply Z.ltb_lt in B.
      injection Hk as <-. rewrite Z.mod_small by lia. lia.
    - destruct ((- Z.of_nat d <=? p) && (p <? 0))%Z eqn:E2; [|discriminate].
      apply andb_true_iff in E2 as [A B]. apply Z.leb_le in A. apply Z.ltb_lt in B.
      injection Hk as <-.
      rewrite <- (Z.mod_add p 1) by lia. rewrite Z.mul_1_l, Z.mod_small by lia. lia. }
  destruct Ek as [Ek Hkd]. unfold shift.
  assert (Ei : Z.of_nat ((i + d - j) mod d) = ((Z.of_nat i - Z.of_nat j) mod Z.of_nat d)%Z).
  { rewrite Nat2Z.inj_mod, Nat2Z.inj_sub, Nat2Z.inj_add by lia.
    replace (Z.of_nat i + Z.of_nat d - Z.of_nat j)%Z with (Z.of_nat i - Z.of_nat j + 1 * Z.of_nat d)%Z by ring.
    apply Z.mod_add. lia. }
  pose proof (Z.mod_pos_bound (Z.of_nat j + p) (Z.of_nat d) ltac:(lia)) as Hb.
  split; intros H.
  - rewrite H in Ei. rewrite Ek in Ei.
    rewrite <- Zplus_mod_idemp_r, Ei, Zplus_mod_idemp_r.
    replace (Z.of_nat j + (Z.of_nat i - Z.of_nat j))%Z with (Z.of_nat i) by ring.
    rewrite Z.mod_small by lia. apply Nat2Z.id.
  - apply Nat2Z.inj. rewrite Ei, Ek.
    assert (Z.of_nat i = ((Z.of_nat j + p) mod Z.of_nat d)%Z) as -> by lia.
    rewrite Zminus_mod_idemp_l. f_equal. ring.
Qed.

Lemma repeat_nth0 : forall n i, nth i (repeat (@s0 S) n) s0 = s0.
Proof. intros n; induction n as [|n IH]; intros [|i]; simpl; auto. Qed.

Lemma x_unitary_spec : forall d p, (- Z.of_nat d <= p < Z.of_nat d)%Z ->
  exists M, x_unitary S (Z.of_nat d) p = Ok M /\
    mr M = d /\ mc M = d /\
    forall i j, i < d -> j < d -> mget M i j = if Nat.eqb (shift d j p) i then s1 else s0.
Proof.
  intros d p Hp. unfold x_unitary.
  replace (Z.of_nat d <? 0)%Z with false by (symmetry; apply Z.ltb_ge; lia).
  rewrite Nat2Z.id.
  destruct (py_index d p) as [k|] eqn:E.
  - eexists. split; [reflexivity|]. simpl. rewrite upd_length, repeat_length.
    split; [reflexivity|]. split; [reflexivity|].
    intros i j Hi Hj. rewrite circulant_get by (rewrite upd_length, repeat_length; assumption).
    rewrite upd_length, repeat_length, nth_upd, repeat_nth0, repeat_length.
    pose proof (@shift_index d i j p k Hi Hj E) as Hs.
    assert (Hm : (i + d - j) mod d < d) by (apply Nat.mod_upper_bound; lia).
    apply Nat.ltb_lt in Hm. rewrite Hm, andb_true_r.
    destruct (Nat.eqb_spec ((i + d - j) mod d) k) as [F|F];
      destruct (Nat.eqb_spec (shift d j p) i) as [G|G]; try reflexivity; exfalso; tauto.
  - exfalso. unfold py_index in E.
    destruct ((0 <=? p) && (p <? Z.of_nat d))%Z eqn:E1; [discriminate|].
    destruct ((- Z.of_nat d <=? p) && (p <? 0))%Z eqn:E2; [discriminate|].
    apply andb_false_iff in E1. apply andb_false_iff in E2.
    rewrite Z.leb_gt, Z.ltb_ge in E1, E2. lia.
Qed.

(** ** H *)
Lemma removelast_length : forall A (l : list A), length (removelast l) = length l - 1.
Proof.
  intros A l; induction l as [|x l IH]; [reflexivity|].
  change (removelast (x :: l)) with (match l with [] => [] | _ => x :: removelast l end).
  destruct l; [reflexivity|]. change (length (x :: removelast (a :: l))) with (Datatypes.S (length (removelast (a :: l)))).
  rewrite IH. simpl. lia.
Qed.

Lemma nth_removelast : forall A (l : list A) i d, i < length l - 1 -> nth i (removelast l) d = nth i l d.
Proof.
  intros A l; induction l as [|x l IH]; intros i d H; [reflexivity|].
  destruct l as [|y l]; [simpl in H; lia|].
  change (removelast (x :: y :: l)) with (x :: removelast (y :: l)).
  destruct i as [|i]; [reflexivity|].
  change (nth (Datatypes.S i) (x :: removelast (y :: l)) d) with (nth i (removelast (y :: l)) d).
  rewrite IH by (simpl in *; lia). reflexivity.
Qed.

Lemma h_unitary_spec : forall d, 1 <= d ->
  exists M, h_unitary S (Z.of_nat d) = Ok M /\ mr M = d /\ mc M = d /\
    forall i j, i < d -> j < d -> mget M i j = had S d i j.
Proof.
  intros d Hd. unfold h_unitary.
  replace (Z.of_nat d + 1 <? 0)%Z with false by (symmetry; apply Z.ltb_ge; lia).
  replace (Z.of_nat d <=? 0)%Z with false by (symmetry; apply Z.leb_gt; lia).
  rewrite Nat2Z.id. pose proof (sl_roots_len L d) as Hl.
  assert (Hu : length (removelast (@sroots S d)) = d - 1) by (rewrite removelast_length; lia).
  eexists. split; [reflexivity|].
  unfold mat_of_rows. rewrite !map_length. simpl length. rewrite map_length, seq_length, Hu.
  replace (Datatypes.S (d - 1)) with d by lia. replace (d - 1 + 1) with d by lia.
  split; [reflexivity|]. split; [reflexivity|].
  intros i j Hi Hj. rewrite mget_mkmat by assumption.
  set (rows := map (cons s1) _).
  assert (Hrows : length rows = d) by (unfold rows; rewrite map_length; simpl; rewrite map_length, seq_length; lia).
  rewrite nth_map_lt with (e := []) by lia.
  unfold rows. rewrite nth_map_lt with (e := []) by (simpl; rewrite map_length, seq_length; lia).
  unfold had. destruct i as [|i].
  - simpl. destruct j as [|j]; simpl; [reflexivity|].
    rewrite nth_map_lt with (e := s0) by (rewrite repeat_length; lia).
    rewrite nth_repeat_lt by lia. reflexivity.
  - destruct j as [|j]; simpl; [reflexivity|].
    pose proof (@circulant_get (removelast (sroots d)) i j ltac:(lia) ltac:(lia)) as Hc.
    unfold mget in Hc. simpl md in Hc. rewrite Hu in Hc |- *.
    rewrite nth_map_lt with (e := s0).
    + rewrite Hc. rewrite nth_removelast.
      * replace (i + (d - 1) - j) with (Datatypes.S i + (d - 1) - Datatypes.S j) by lia. reflexivity.
      * rewrite Hl. apply Nat.mod_upper_bound. lia.
    + rewrite nth_map_seq by lia. rewrite map_length, seq_length. lia.
Qed.

(** ** Z *)
Lemma z_unitary_spec : forall d,
  exists M, z_unitary S (Z.of_nat d) = Ok M /\ mr M = d /\ mc M = d /\
    forall i j, i < d -> j < d ->
      mget M i j = if Nat.eqb i j then nth i (sroots d) s0 else s0.
Proof.
  intros d. unfold z_unitary.
  replace (Z.of_nat d + 1 <? 0)%Z with false by (symmetry; apply Z.ltb_ge; lia).
  replace (Z.of_nat d + 1 =? 0)%Z with false by (symmetry; apply Z.eqb_neq; lia).
  rewrite Nat2Z.id, rev_involutive, (sl_roots_len L).
  eexists. split; [reflexivity|]. split; [reflexivity|]. split; [reflexivity|].
  intros i j Hi Hj. rewrite mget_mkmat by assumption. reflexivity.
Qed.

(** ** CX *)
Lemma filter_single_seq : forall (P : nat -> bool) n k, k < n -> P k = true ->
  (forall i, i < n -> i <> k -> P i = false) -> filter P (seq 0 n) = [k].
Proof.
  intros P n k Hk Hp Hn.
  assert (G : forall a m, (forall i, a <= i < a + m -> i <> k -> P i = false) ->
     filter P (seq a m) = if (a <=? k) && (k <? a + m) then [k] else []).
  { intros a m; revert a; induction m as [|m IH]; intros a H; simpl.
    - replace ((a <=? k) && (k <? a + 0)) with false; [reflexivity|].
      symmetry. apply andb_false_iff. rewrite Nat.leb_gt, Nat.ltb_ge. lia.
    - rewrite IH by (intros i Hi; apply H; lia).
      destruct (Nat.eq_dec a k) as [->|Hak].
      + rewrite Hp. replace ((Datatypes.S k <=? k)) with false by (symmetry; apply Nat.leb_gt; lia). simpl.
        replace ((k <=? k) && (k <? k + Datatypes.S m)) with true; [reflexivity|].
        symmetry. apply andb_true_iff. rewrite Nat.leb_le, Nat.ltb_lt. lia.
      + rewrite (H a) by lia.
        replace ((Datatypes.S a <=? k) && (k <? Datatypes.S a + m))
          with ((a <=? k) && (k <? a + Datatypes.S m)); [reflexivity|].
        apply eq_true_iff_eq. rewrite !andb_true_iff, !Nat.leb_le, !Nat.ltb_lt. lia. }
  rewrite G by (intros i Hi; apply Hn; lia).
  replace ((0 <=? k) && (k <? 0 + n)) with true; [reflexivity|].
  symmetry. apply andb_true_iff. rewrite Nat.leb_le, Nat.ltb_lt. lia.
Qed.

Lemma seqb_refl : forall x : S, seqb x x = true.
Proof. intros x. apply (sl_eqb L). reflexivity. Qed.
Lemma seqb_01 : seqb (@s0 S) s1 = false.
Proof.
  destruct (seqb (@s0 S) s1) eqn:E; [|reflexivity]. apply (sl_eqb L) in E.
  exfalso. apply (sl_1_neq_0 L). auto.
Qed.
Lemma seqb_10 : seqb (@s1 S) s0 = false.
Proof.
  destruct (seqb (@s1 S) s0) eqn:E; [|reflexivity]. apply (sl_eqb L) in E.
  exfalso. apply (sl_1_neq_0 L). auto.
Qed.

(** Row [i] of the identity after [cx_update]. *)
Lemma cx_update_spec : seqb (@s1 S) s1 = true -> seqb (@s0 S) s1 = false -> forall ds i plus t,
  i < prodn ds -> t < length ds ->
  cx_update S (all_configs ds) (map (fun j => if Nat.eqb i j then s1 else s0) (seq 0 (prodn ds)))
            plus (Z.of_nat (nth t ds 0)) t
  = Ok (upd (repeat s0 (prodn ds)) (lin ds (move_x ds t plus (unlin ds i))) s1).
Proof.
  intros H11 H01 ds i plus t Hi Ht. unfold cx_update. rewrite map_length, seq_length.
  rewrite filter_single_seq with (k := i); [|assumption| |].
  - change (nth i (all_configs ds) []) with (unlin ds i).
    pose proof (unlin_valid ds Hi) as Hv.
    assert (Hmv : valid ds (move_x ds t plus (unlin ds i))).
    { apply valid_put; [exact Hv|]. apply shift_lt.
      pose proof (valid_level Hv Ht). lia. }
    unfold move_x, shift, level in *. rewrite put_upd in *.
    rewrite (get_index_configs Hmv). reflexivity.
  - rewrite nth_map_seq by assumption. rewrite Nat.eqb_refl. exact H11.
  - intros j Hj Hne. rewrite nth_map_seq by assumption.
    apply not_eq_sym, Nat.eqb_neq in Hne. rewrite Hne. exact H01.
Qed.

Lemma map_of_nat_to_nat : forall l, map Z.to_nat (map Z.of_nat l) = l.
Proof. intros l. rewrite map_map. rewrite map_ext with (g := fun x => x) by apply Nat2Z.id. apply map_id. Qed.

(** The raw rows computed by [CXGate.unitary], before the transposition:
    register indices [si], [ti] are relative to the span. *)
Lemma cx_rows_spec : seqb (@s1 S) s1 = true -> seqb (@s0 S) s1 = false -> forall ds a b plus si ti,
  (forall d, In d ds -> 0 < d) -> si < length ds -> ti < length ds ->
  (Z.of_nat si = if (a <? b)%Z then 0 else a - b)%Z ->
  (Z.of_nat ti = if (a <? b)%Z then b - a else 0)%Z ->
  exists M, cx_rows S (map Z.of_nat ds) [a; b] plus = Ok M /\ mr M = prodn ds /\ mc M = prodn ds /\
    forall i j, i < prodn ds -> j < prodn ds ->
      mget M i j = if Nat.eqb (lin ds (move_cx ds si ti plus (unlin ds i))) j then s1 else s0.
Proof.
  intros H11 H01 ds a b plus si ti Hpos Hsi Hti Esi Eti. unfold cx_rows.
  rewrite <- Esi, <- Eti. rewrite !Nat2Z.id, map_of_nat_to_nat.
  rewrite !(@py_get_nat Z _ _ 0%Z) by (rewrite map_length; assumption). simpl bind.
  change 0%Z with (Z.of_nat 0). rewrite !map_nth.
  assert (Hne : ds <> []) by (intros ->; simpl in Hsi; lia).
  rewrite (ttg_all_configs Hne).
  set (row := fun i => if Nat.eqb i (prodn ds) then ([] : list S) else
     upd (repeat s0 (prodn ds)) (lin ds (move_cx ds si ti plus (unlin ds i))) s1).
  rewrite mapM_ok with (g := fun x => row (fst x)).
  2: { intros [i x] Hin. rewrite (combine_seq_nth _ 0 []), all_configs_length in Hin.
       apply in_map_iff in Hin as [k [E Hk]]. apply in_seq in Hk. injection E as <- <-.
       simpl fst. unfold row. replace (0 + k) with k by lia.
       replace (Nat.eqb k (prodn ds)) with false by (symmetry; apply Nat.eqb_neq; lia).
       change (nth k (all_configs ds) []) with (unlin ds k).
       assert (Hv : valid ds (unlin ds k)) by (apply unlin_valid; lia).
       unfold move_cx, top.
       replace (Z.of_nat (nth si (unlin ds k) 0%nat) =? Z.of_nat (nth si ds 0%nat) - 1)%Z
         with (Nat.eqb (level (unlin ds k) si + 1) (nth si ds 0)).
       2: { pose proof (valid_level Hv Hsi). unfold level in *. apply eq_true_iff_eq.
            rewrite Nat.eqb_eq, Z.eqb_eq. lia. }
       destruct (Nat.eqb (level (unlin ds k) si + 1) (nth si ds 0)).
       - apply cx_update_spec; [exact H11 | exact H01 | lia | assumption].
       - f_equal. apply nth_ext with (d := s0) (d' := s0).
         + rewrite map_length, seq_length, upd_length, repeat_length. reflexivity.
         + rewrite map_length, seq_length. intros j Hj. rewrite nth_map_seq by assumption.
           rewrite nth_upd, repeat_nth0, repeat_length, lin_unlin by lia.
           apply Nat.ltb_lt in Hj. rewrite Hj, andb_true_r. rewrite (Nat.eqb_sym j). reflexivity. }
  simpl bind. eexists. split; [reflexivity|]. unfold mat_of_rows.
  match goal with |- context [mkmat (length ?l)] => assert (Hlen : length l = prodn ds) end.
  { rewrite map_length, combine_length, seq_length, all_configs_length; lia. }
  rewrite Hlen. split; [reflexivity|]. split; [reflexivity|].
  intros i j Hi Hj. rewrite mget_mkmat by assumption.
  rewrite nth_map_lt with (e := (0, [])) by (rewrite combine_length, seq_length, all_configs_length; lia).
  rewrite combine_nth by (rewrite seq_length; reflexivity).
  rewrite seq_nth by (rewrite all_configs_length; assumption). simpl fst. unfold row.
  replace (Nat.eqb i (prodn ds)) with false by (symmetry; apply Nat.eqb_neq; lia).
  rewrite nth_upd, repeat_nth0, repeat_length. apply Nat.ltb_lt in Hj. rewrite Hj, andb_true_r.
  rewrite (Nat.eqb_sym j). reflexivity.
Qed.

Lemma move_x_valid : forall ds t p s, valid ds s -> t < length ds -> valid ds (move_x ds t p s).
Proof.
  intros ds t p s Hv Ht. apply valid_put; [exact Hv|]. apply shift_lt.
  pose proof (valid_level Hv Ht). lia.
Qed.
Lemma move_cx_valid : forall ds c t p s, valid ds s -> t < length ds -> valid ds (move_cx ds c t p s).
Proof. intros ds c t p s Hv Ht. unfold move_cx. destruct top; [apply move_x_valid|]; assumption. Qed.
Lemma move_tof_valid : forall ds c t p s, valid ds s -> t < length ds -> valid ds (move_tof ds c t p s).
Proof. intros ds c t p s Hv Ht. unfold move_tof. destruct forallb; [apply move_x_valid|]; assumption. Qed.

Lemma repr_cx : forall ds a b plus si ti,
  (forall d, In d ds -> 0 < d) -> si < length ds -> ti < length ds ->
  (Z.of_nat si = if (a <? b)%Z then 0 else a - b)%Z ->
  (Z.of_nat ti = if (a <? b)%Z then b - a else 0)%Z ->
  exists M, unitary NB (OCX (map Z.of_nat ds) [a; b] plus) = Ok M /\
    repr ds ds M (classical S (move_cx ds si ti plus)).
Proof.
  intros ds a b plus si ti Hpos Hsi Hti Esi Eti.
  destruct (@cx_rows_spec (seqb_refl s1) seqb_01 ds a b plus si ti Hpos Hsi Hti Esi Eti) as [M [E [H1 [H2 H3]]]].
  cbn [unitary]. rewrite E. cbn [bind]. eexists. split; [reflexivity|].
  simpl. unfold dtrans. rewrite H1, H2. apply repr_classical.
  - intros s Hs. apply move_cx_valid; assumption.
  - intros i j Hi Hj. apply H3; assumption.
Qed.

(** ** Toffoli *)
Lemma forallb_ext_in : forall A (f g : A -> bool) l, (forall x, In x l -> f x = g x) -> forallb f l = forallb g l.
Proof.
  intros A f g l; induction l as [|x l IH]; intros H; simpl; [reflexivity|].
  rewrite (H x (or_introl eq_refl)), IH; [reflexivity|]. intros y Hy; apply H; right; exact Hy.
Qed.

(** [is_unitary] in terms of the kernel. *)
Lemma is_unitary_iff : forall ds M K, repr ds ds M K ->
  (is_unitary M = true <->
   forall s t, valid ds s -> valid ds t ->
     sclose (delta S s t) (bsum (fun u => smul (K s u) (sconj (K t u))) (all_configs ds)) = true).
Proof.
  intros ds M K [H1 H2 H3]. unfold is_unitary, ddot.
  change (mr (dconj (dtrans M))) with (mc M). rewrite Nat.eqb_refl.
  change (mc (dconj (dtrans M))) with (mr M).
  assert (E : forall i j, i < mr M -> j < mr M ->
    sclose (mget (deye S (mr M) (mr M)) i j)
      (mget (mkmat (mr M) (mr M) (fun i j =>
         bsum (fun k => smul (mget M i k) (mget (dconj (dtrans M)) k j)) (seq 0 (mc M)))) i j)
    = sclose (delta S (unlin ds i) (unlin ds j))
        (bsum (fun u => smul (K (unlin ds i) u) (sconj (K (unlin ds j) u))) (all_configs ds))).
  { intros i j Hi Hj. rewrite mget_mkmat by lia. unfold deye. rewrite mget_mkmat by lia.
    rewrite H1 in *. rewrite H2.
    pose proof (unlin_valid ds (i := i) ltac:(lia)) as Vi.
    pose proof (unlin_valid ds (i := j) ltac:(lia)) as Vj.
    f_equal.
    - unfold delta. destruct (Nat.eqb_spec i j) as [->|Hne]; [rewrite config_eqb_refl; reflexivity|].
      replace (config_eqb (unlin ds i) (unlin ds j)) with false; [reflexivity|].
      symmetry. apply config_eqb_neq. intros E. apply Hne.
      rewrite <- (@lin_unlin ds i), <- (@lin_unlin ds j), E by lia. reflexivity.
    - rewrite bsum_seq_configs.
      apply bsum_ext. intros u Hu. apply in_all_configs in Hu. pose proof (lin_lt Hu).
      unfold dconj, dtrans. simpl. rewrite H1, H2.
      rewrite !mget_mkmat by lia. rewrite <- (H3 _ _ Vi Hu), <- (H3 _ _ Vj Hu).
      rewrite !lin_unlin by lia. reflexivity. }
  rewrite forallb_forall. split.
  - intros H s t Hs Ht. pose proof (lin_lt Hs) as Ls. pose proof (lin_lt Ht) as Lt. rewrite <- H1 in Ls, Lt.
    specialize (H (lin ds s) ltac:(apply in_seq; lia)). rewrite forallb_forall in H.
    specialize (H (lin ds t) ltac:(apply in_seq; lia)). rewrite E in H by assumption.
    rewrite !unlin_lin in H by assumption. exact H.
  - intros H i Hi. apply in_seq in Hi. apply forallb_forall. intros j Hj. apply in_seq in Hj.
    rewrite E by lia. apply H; apply unlin_valid; lia.
Qed.

(** [is_unitary] accepts an exactly unitary kernel. *)
Lemma is_unitary_repr : forall ds M K, repr ds ds M K ->
  (forall s t, valid ds s -> valid ds t ->
     bsum (fun u => smul (K s u) (sconj (K t u))) (all_configs ds) = delta S s t) ->
  is_unitary M = true.
Proof.
  intros ds M K HR HK. apply (is_unitary_iff HR). intros s t Hs Ht. rewrite HK by assumption.
  apply (sl_close_refl L).
Qed.

Lemma classical_unitary : forall ds (f g : config -> config),
  (forall s, valid ds s -> valid ds (f s)) ->
  (forall s, valid ds s -> valid ds (g s)) ->
  (forall s, valid ds s -> f (g s) = s) -> (forall s, valid ds s -> g (f s) = s) ->
  forall s t, valid ds s -> valid ds t ->
    bsum (fun u => smul (classical S f s u) (sconj (classical S f t u))) (all_configs ds) = delta S s t.
Proof.
  intros ds f g Hf Hg Hfg Hgf s t Hs Ht.
  rewrite (bsum_single L) with (a := g s).
  - unfold classical. rewrite Hfg by assumption. rewrite config_eqb_refl. unfold delta.
    destruct (config_eqb s t); [rewrite (sl_conj1 L) | rewrite (sl_conj0 L)]; ring.
  - apply all_configs_NoDup.
  - apply in_all_configs, Hg, Hs.
  - intros u Hu Hne. apply in_all_configs in Hu. unfold classical at 1.
    destruct (config_eqb (f u) s) eqn:E; [|ring].
    apply config_eqb_eq in E. exfalso. apply Hne. rewrite <- E. symmetry. apply Hgf, Hu.
Qed.

Lemma shift_shift : forall d x p q, x < d -> shift d (shift d x p) q = shift d x (p + q).
Proof.
  intros d x p q Hx. unfold shift.
  pose proof (Z.mod_pos_bound (Z.of_nat x + p) (Z.of_nat d) ltac:(lia)).
  rewrite Z2Nat.id by lia. rewrite Zplus_mod_idemp_l. rewrite Z.add_assoc. reflexivity.
Qed.
Lemma shift_0 : forall d x, x < d -> shift d x 0 = x.
Proof. intros d x H. unfold shift. rewrite Z.add_0_r, Z.mod_small by lia. apply Nat2Z.id. Qed.

Lemma move_x_inv : forall ds t p s, valid ds s -> t < length ds -> move_x ds t (- p) (move_x ds t p s) = s.
Proof.
  intros ds t p s Hv Ht. unfold move_x. pose proof (valid_level Hv Ht).
  rewrite level_put by (rewrite (valid_length Hv); assumption).
  rewrite Nat.eqb_refl, put_put, shift_shift by assumption. rewrite Z.add_opp_diag_r, shift_0 by assumption.
  apply put_level.
Qed.

Lemma top_move_x : forall ds t p s c, valid ds s -> t < length ds -> c <> t ->
  top ds (move_x ds t p s) c = top ds s c.
Proof.
  intros ds t p s c Hv Ht Hne. unfold top, move_x.
  rewrite level_put by (rewrite (valid_length Hv); assumption).
  apply Nat.eqb_neq in Hne. rewrite Hne. reflexivity.
Qed.

Lemma move_tof_inv : forall ds cs t p s, valid ds s -> t < length ds -> ~ In t cs ->
  move_tof ds cs t (- p) (move_tof ds cs t p s) = s.
Proof.
  intros ds cs t p s Hv Ht Hn. unfold move_tof.
  destruct (forallb (top ds s) cs) eqn:E.
  - rewrite forallb_ext_in with (g := top ds s).
    + rewrite E. apply move_x_inv; assumption.
    + intros c Hc. apply top_move_x; [assumption | assumption | intros ->; contradiction].
  - rewrite E. reflexivity.
Qed.
Lemma move_cx_inv : forall ds c t p s, valid ds s -> t < length ds -> c <> t ->
  move_cx ds c t (- p) (move_cx ds c t p s) = s.
Proof.
  intros ds c t p s Hv Ht Hn. unfold move_cx. destruct (top ds s c) eqn:E.
  - rewrite top_move_x, E by assumption. apply move_x_inv; assumption.
  - rewrite E. reflexivity.
Qed.

End GateMat.
