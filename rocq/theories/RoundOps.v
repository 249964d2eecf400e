(** * RoundOps: the matrix of every gate, in rounded and in exact arithmetic. *)
From Coq Require Import Reals Lra Permutation.
From Verif Require Import Py Scalar Mat Utils Gates Circuit Spec Calls Complex ComplexSpec HistSpec BitSpec RoundSpec
  Lib Kern GateMat GateTof Flow History Layers Blocks Refine Run Bits Doubles ComplexLib CNorm RoundLib ScalarMap.
Set Implicit Arguments.

(** ** The matrices of h and z need no law of arithmetic *)
Section Free.
Variable S : scalar.

Lemma h_unitary_free : forall d, 1 <= d -> length (@sroots S d) = d ->
  exists M, h_unitary S (Z.of_nat d) = Ok M /\ mr M = d /\ mc M = d /\
    forall i j, i < d -> j < d -> mget M i j = had S d i j.
Proof.
  intros d Hd Hl. unfold h_unitary.
  replace (Z.of_nat d + 1 <? 0)%Z with false by (symmetry; apply Z.ltb_ge; lia).
  replace (Z.of_nat d <=? 0)%Z with false by (symmetry; apply Z.leb_gt; lia).
  rewrite Nat2Z.id.
  assert (Hu : length (removelast (@sroots S d)) = d - 1) by (rewrite removelast_length; lia).
  eexists. split; [reflexivity|].
  unfold mat_of_rows. rewrite !map_length. simpl length. rewrite map_length, seq_length, Hu.
  replace (Datatypes.S (d - 1)) with d by lia. replace (d - 1 + 1) with d by lia.
  split; [reflexivity|]. split; [reflexivity|].
  intros i j Hi Hj. rewrite mget_mkmat by assumption.
  set (rows := map (cons s1) _).
  assert (Hrows : length rows = d) by (unfold rows; rewrite map_length; simpl; rewrite map_length, seq_length; lia).
  rewrite nth_map_lt with (e := []) by lia.
  unfold rows. rewrite nth_map_lt with (e := []) by (simpl; rewrite map_length, seq_length; lia).
  unfold had. destruct i as [|i].
  - simpl. destruct j as [|j]; simpl; [reflexivity|].
    rewrite nth_map_lt with (e := s0) by (rewrite repeat_length; lia).
    rewrite nth_repeat_lt by lia. reflexivity.
  - destruct j as [|j]; simpl; [reflexivity|].
    pose proof (@circulant_get S (removelast (sroots d)) i j ltac:(lia) ltac:(lia)) as Hc.
    unfold mget in Hc. simpl md in Hc. rewrite Hu in Hc |- *.
    rewrite nth_map_lt with (e := s0).
    + rewrite Hc. rewrite nth_removelast.
      * replace (i + (d - 1) - j) with (Datatypes.S i + (d - 1) - Datatypes.S j) by lia. reflexivity.
      * rewrite Hl. apply Nat.mod_upper_bound. lia.
    + rewrite nth_map_seq by lia. rewrite map_length, seq_length. lia.
Qed.

Lemma z_unitary_free : forall d, length (@sroots S d) = d ->
  exists M, z_unitary S (Z.of_nat d) = Ok M /\ mr M = d /\ mc M = d /\
    forall i j, i < d -> j < d ->
      mget M i j = if Nat.eqb i j then nth i (sroots d) s0 else s0.
Proof.
  intros d Hl. unfold z_unitary.
  replace (Z.of_nat d + 1 <? 0)%Z with false by (symmetry; apply Z.ltb_ge; lia).
  replace (Z.of_nat d + 1 =? 0)%Z with false by (symmetry; apply Z.eqb_neq; lia).
  rewrite Nat2Z.id, rev_involutive, Hl.
  eexists. split; [reflexivity|]. split; [reflexivity|]. split; [reflexivity|].
  intros i j Hi Hj. rewrite mget_mkmat by assumption. reflexivity.
Qed.

Lemma unitary_rows_free : forall M : mat S, mc M = mr M ->
  orthonormal_rows S Nat.eqb (seq 0 (mr M)) (mget M) -> is_unitary M = true.
Proof.
  intros M E H. unfold is_unitary, ddot. cbn [dconj dtrans mkmat mr mc]. rewrite Nat.eqb_refl.
  apply forallb_forall. intros i Hi. apply forallb_forall. intros j Hj.
  assert (Hi' := Hi). assert (Hj' := Hj). apply in_seq in Hi', Hj'.
  unfold deye. rewrite !mget_mkmat by lia. specialize (H i j Hi Hj).
  replace (bsum _ _) with (total S (fun k => smul (mget M i k) (sconj (mget M j k))) (seq 0 (mr M))); [exact H|].
  rewrite <- bsum_total, E. apply bsum_ext. intros k Hk. apply in_seq in Hk.
  unfold dconj, dtrans. cbn [mkmat mr mc]. rewrite !mget_mkmat by lia. reflexivity.
Qed.
End Free.

Local Open Scope R_scope.

Lemma root_abs : forall d k, Cabs (root d k) = 1.
Proof.
  intros d k. unfold Cabs, root, cis. cbn [fst snd]. pose proof (sin2_cos2 (2 * PI * INR k / INR d)) as H. unfold Rsqr in H.
  rewrite Rplus_comm, H. apply sqrt_1.
Qed.

Section Ops.
Variable F : scalar.
Variable val : F -> C.
Variable ord : nat -> list nat.
Variable u : R.
Variable e : nat.
Hypothesis Hord : orders ord.
Hypothesis RD : rounded F val ord u e.
Variable meant : mat F -> mat (Cscalar ord).
Notation CS := (Cscalar ord).
Notation NC := (NumpyBackend CS).
Notation NF := (NumpyBackend F).
Let v : F -> CS := val.
Notation om := (@omap F CS v meant).

Lemma C_bits : bit_laws CS.
Proof. apply exact_bits, Cscalar_laws, Hord. Qed.

Lemma roots_abs : forall d k, (k < d)%nat -> Cabs (nth k (@sroots CS d) C0) = 1.
Proof.
  intros d k Hk. simpl. rewrite nth_map_lt with (e := 0%nat); [apply root_abs|].
  rewrite (Permutation_length (Hord d)), seq_length. exact Hk.
Qed.

Definition nearm (k : nat) (a : mat F) (m : mat CS) : Prop :=
  mr a = mr m /\ mc a = mc m /\
  forall i j, (i < mr m)%nat -> (j < mc m)%nat -> within u k (val (mget a i j)) (mget m i j).

(** What an operation contributes: its two matrices are close, and the exact
    one lengthens row vectors by at most [c]. *)
Definition opd (o : op F) (c : R) : Prop :=
  exists a m, unitary NF o = Ok a /\ unitary NC (om o) = Ok m /\ nearm (2 * e + 1) a m /\ rgain (mr m) (mc m) (mget m) c.

Lemma val_bit : forall b, val (bit F b) = bit CS b.
Proof. intros []; simpl; [apply (rd_1 RD) | apply (rd_0 RD)]. Qed.

Lemma Hu0 : 0 <= u.
Proof. exact (rd_u RD). Qed.

(** Gates that move basis states. *)
Lemma fmat_opd : forall o r c f (a : mat F) (m : mat CS),
  unitary NF o = Ok a -> unitary NC (om o) = Ok m -> @fmat F r c f a -> @fmat CS r c f m ->
  (forall j j', (j < c)%nat -> (j' < c)%nat -> f j = f j' -> j = j') -> opd o 1.
Proof.
  intros o r c f a m Ea Em [A1 A2 A3 A4] [M1 M2 M3 M4] Hf. exists a, m. split; [exact Ea|]. split; [exact Em|]. split.
  - split; [congruence|]. split; [congruence|]. rewrite M1, M2. intros i j Hi Hj. rewrite A4, M4, val_bit by assumption.
    apply within_refl, Hu0.
  - rewrite M1, M2. eapply rgain_ext; [|apply (@rgain_pick r c f (fun _ => C1) A3 Hf); intros; apply Cabs_C1].
    intros i j Hi Hj. cbv beta. rewrite M4 by assumption. reflexivity.
Qed.

Lemma brep_opd : forall o ds f g (a : mat F) (m : mat CS),
  unitary NF o = Ok a -> unitary NC (om o) = Ok m ->
  brep NF (@fmat F) ds ds f a -> brep NC (@fmat CS) ds ds f m ->
  (forall s, valid ds s -> g (f s) = s) -> opd o 1.
Proof.
  intros o ds f g a m Ea Em [Vf Ra] [_ Rm] Hg. eapply fmat_opd; [exact Ea | exact Em | exact Ra | exact Rm|].
  intros j j' Hj Hj' E. cbv beta in E. pose proof (unlin_valid _ Hj) as V1. pose proof (unlin_valid _ Hj') as V2.
  apply lin_inj in E; [|apply Vf; assumption..].
  apply (f_equal g) in E. rewrite !Hg in E by assumption.
  rewrite <- (lin_unlin _ Hj), <- (lin_unlin _ Hj'), E. reflexivity.
Qed.

Lemma opd_i : forall q d, (0 <= d)%Z -> opd (OI q d) 1.
Proof.
  intros q d Hd. set (n := Z.to_nat d).
  eapply (@fmat_opd (OI q d) n n (fun j => j)); [reflexivity | reflexivity | | |].
  - apply (fo_eye (dense_follows (rd_bits RD))).
  - apply (fo_eye (dense_follows C_bits)).
  - auto.
Qed.

Lemma opd_x : forall q d p, (- Z.of_nat d <= p < Z.of_nat d)%Z -> opd (OX q (Z.of_nat d) p) 1.
Proof.
  intros q d p Hp.
  destruct (x_brep (dense_follows (rd_bits RD)) q d Hp) as [a [Ea Ra]].
  destruct (x_brep (dense_follows C_bits) q d Hp) as [m [Em Rm]].
  eapply brep_opd; [exact Ea | exact Em | exact Ra | exact Rm|].
  intros s Hs. apply move_x_inv; [exact Hs | simpl; lia].
Qed.

Lemma opd_cx : forall ds a b p si ti,
  (forall d, In d ds -> 0 < d)%nat -> (si < length ds)%nat -> (ti < length ds)%nat -> si <> ti ->
  (Z.of_nat si = if (a <? b)%Z then 0 else a - b)%Z ->
  (Z.of_nat ti = if (a <? b)%Z then b - a else 0)%Z ->
  opd (OCX (map Z.of_nat ds) [a; b] p) 1.
Proof.
  intros ds a b p si ti Hpos Hsi Hti Hne Es Et.
  destruct (cx_brep (rd_bits RD) (dense_follows (rd_bits RD)) ds a b p Hpos Hsi Hti Es Et) as [x [Ex Rx]].
  destruct (cx_brep C_bits (dense_follows C_bits) ds a b p Hpos Hsi Hti Es Et) as [m [Em Rm]].
  eapply brep_opd; [exact Ex | exact Em | exact Rx | exact Rm|].
  intros s Hs. apply move_cx_inv; assumption.
Qed.

(** Control and target on one register: the top level moves, the others stay. *)
Lemma opd_cx_self : forall d a p, (0 < d)%nat -> opd (OCX [Z.of_nat d] [a; a] p) (sqrt 2).
Proof.
  intros d a p Hd.
  assert (Hpos : forall x, In x [d] -> (0 < x)%nat) by (intros x [<-|[]]; exact Hd).
  assert (E0 : (Z.of_nat 0 = if (a <? a)%Z then 0 else a - a)%Z) by (rewrite Z.ltb_irrefl; lia).
  assert (E1 : (Z.of_nat 0 = if (a <? a)%Z then a - a else 0)%Z) by (rewrite Z.ltb_irrefl; lia).
  assert (Hl : (0 < length [d])%nat) by (simpl; lia).
  destruct (cx_brep (rd_bits RD) (dense_follows (rd_bits RD)) [d] a a p Hpos Hl Hl E0 E1) as [x [Ex [Vf [A1 A2 A3 A4]]]].
  destruct (cx_brep C_bits (dense_follows C_bits) [d] a a p Hpos Hl Hl E0 E1) as [m [Em [_ [M1 M2 M3 M4]]]].
  exists x, m. split; [exact Ex|]. split; [exact Em|]. split.
  - split; [congruence|]. split; [congruence|]. rewrite M1, M2. intros i j Hi Hj. rewrite A4, M4, val_bit by assumption.
    apply within_refl, Hu0.
  - rewrite M1, M2. eapply rgain_ext; [|apply (@rgain_pick2 _ _ _ (fun j => top [d] (unlin [d] j) 0) A3)].
    + intros i j Hi Hj. cbv beta. rewrite M4 by assumption. reflexivity.
    + intros j j' Hj Hj' Hp E. cbv beta in E. pose proof (unlin_valid _ Hj) as V1. pose proof (unlin_valid _ Hj') as V2.
      apply lin_inj in E; [|apply Vf; assumption..].
      rewrite <- (lin_unlin _ Hj), <- (lin_unlin _ Hj'). f_equal. unfold move_cx in E. rewrite Hp in E.
      destruct (top [d] (unlin [d] j') 0) eqn:Et; [|exact E].
      apply Nat.eqb_eq in Hp. apply Nat.eqb_eq in Et. cbn [nth] in Hp, Et.
      destruct (unlin [d] j) as [|l [|? ?]], (unlin [d] j') as [|l' [|? ?]]; try (inversion V1; fail); try (inversion V2; fail); try (inversion V1 as [|? ? ? ? ? X]; inversion X; fail); try (inversion V2 as [|? ? ? ? ? X]; inversion X; fail); unfold level in *; cbn [nth] in *; f_equal; lia.
Qed.

Lemma opd_tof : forall dims cs t p lo hi,
  (forall x, In x (cs ++ [t]) -> lo <= x <= hi)%nat ->
  (hi < length dims)%nat -> ~ In t cs -> (hi - lo + 1 <> 2)%nat ->
  let ds := sub dims lo (hi - lo + 1) in
  forall l (x : mat F), mr x = prodn ds -> mc x = prodn ds ->
  repr ds ds x (classical F (move_tof ds (map (fun c => c - lo)%nat cs) (t - lo) p)) ->
  opd (OTof (map Z.of_nat cs) (Z.of_nat t) p (map Z.of_nat ds) l x) 1.
Proof.
  intros dims cs t p lo hi Hb Hn Hnin H2 ds l x Hr Hc HR.
  assert (HR' : repr ds ds (@mmap F CS v x) (classical CS (move_tof ds (map (fun c => c - lo)%nat cs) (t - lo) p))).
  { destruct HR as [R1 R2 R3]. constructor; [exact R1 | exact R2|]. intros s w Hs Hw.
    rewrite mget_mmap by exact (rd_0 RD). rewrite R3 by assumption. unfold classical, v.
    destruct (config_eqb _ _); [exact (rd_1 RD) | exact (rd_0 RD)]. }
  destruct (tof_brep (rd_bits RD) (dense_follows (rd_bits RD)) dims cs t Hb Hn Hnin H2 l Hr Hc HR) as [a [Ea Ra]].
  destruct (tof_brep C_bits (dense_follows C_bits) dims cs t Hb Hn Hnin H2 l (Hr : mr (@mmap F CS v x) = _) Hc HR') as [m [Em Rm]].
  eapply (@brep_opd _ ds); [exact Ea | exact Em | exact Ra | exact Rm|].
  assert (Ht : (lo <= t <= hi)%nat) by (apply Hb, in_or_app; right; left; reflexivity).
  assert (Hlen : length ds = (hi - lo + 1)%nat) by (apply sub_length; lia).
  intros s Hs. apply move_tof_inv; [exact Hs | change (t - lo < length ds)%nat; lia|].
  intros Hin. apply in_map_iff in Hin as [c [E Hc']]. apply Hnin.
  assert (lo <= c <= hi)%nat by (apply Hb, in_or_app; left; exact Hc').
  replace t with c by lia. exact Hc'.
Qed.

Lemma len_C : forall d, length (@sroots CS d) = d.
Proof. intros d. apply (sl_roots_len (Cscalar_laws Hord)). Qed.

Lemma within_root : forall d k, (k < d)%nat -> within u e (val (nth k (sroots d) s0)) (nth k (@sroots CS d) C0).
Proof. intros d k Hk. unfold within. rewrite roots_abs, Rmult_1_r by exact Hk. apply (rd_roots RD), Hk. Qed.

Lemma opd_z : forall q d, opd (OZ q (Z.of_nat d)) 1.
Proof.
  intros q d. destruct (@z_unitary_free F d (rd_len RD d)) as [a [Ea [A1 [A2 A3]]]].
  destruct (@z_unitary_free CS d (len_C d)) as [m [Em [M1 [M2 M3]]]].
  exists a, m. cbn [omap unitary]. rewrite Ea, Em. split; [reflexivity|]. split; [reflexivity|]. split.
  - split; [congruence|]. split; [congruence|]. rewrite M1, M2. intros i j Hi Hj. rewrite A3, M3 by assumption.
    destruct (i =? j)%nat.
    + apply (@within_mono _ e); [exact Hu0 | lia|]. apply within_root, Hi.
    + rewrite (rd_0 RD). apply within_refl, Hu0.
  - rewrite M1, M2.
    eapply rgain_ext; [|apply (@rgain_pick d d (fun j => j) (fun j => nth j (@sroots CS d) C0)); auto; intros; apply roots_abs; assumption].
    intros i j Hi Hj. cbv beta. rewrite M3, (Nat.eqb_sym j i) by assumption.
    destruct (Nat.eqb_spec i j) as [->|]; reflexivity.
Qed.

Lemma stretch_rgain : forall n m k, stretch (seq 0 n) m k -> rgain n n m k.
Proof. intros n m k H. exact H. Qed.

Lemma opd_h : forall q d c, (0 < d)%nat -> stretch (seq 0 d) (had CS d) c -> opd (OH q (Z.of_nat d)) c.
Proof.
  intros q d c Hd Hc. destruct (@h_unitary_free F d Hd (rd_len RD d)) as [a [Ea [A1 [A2 A3]]]].
  destruct (@h_unitary_free CS d Hd (len_C d)) as [m [Em [M1 [M2 M3]]]].
  exists a, m. cbn [omap unitary]. rewrite Ea, Em. split; [reflexivity|]. split; [reflexivity|]. split.
  - split; [congruence|]. split; [congruence|]. rewrite M1, M2. intros i j Hi Hj. rewrite A3, M3 by assumption. unfold had.
    set (x := if (i =? 0)%nat || (j =? 0)%nat then s1 else nth ((i + (d - 1) - j) mod (d - 1)) (@sroots F d) s0).
    set (y := if (i =? 0)%nat || (j =? 0)%nat then s1 else nth ((i + (d - 1) - j) mod (d - 1)) (@sroots CS d) s0).
    assert (Hxy : within u e (val x) y).
    { unfold x, y. destruct ((i =? 0)%nat || (j =? 0)%nat)%bool eqn:Eij.
      - rewrite (rd_1 RD). apply within_refl, Hu0.
      - apply orb_false_iff in Eij as [Ei Ej]. apply Nat.eqb_neq in Ei, Ej. apply within_root.
        assert ((i + (d - 1) - j) mod (d - 1) < d - 1)%nat by (apply Nat.mod_upper_bound; lia). lia. }
    assert (Hs : within u e (val (sisqrt d)) (/ sqrt (INR d), 0)).
    { unfold within. rewrite Cabs_real; [apply (rd_isqrt RD), Hd|]. apply Rlt_le, Rinv_0_lt_compat, sqrt_lt_R0, lt_0_INR. exact Hd. }
    replace (2 * e + 1)%nat with (1 + (e + e))%nat by lia.
    eapply within_trans; [exact Hu0| |apply within_mul; [exact Hu0 | exact Hs | exact Hxy]].
    unfold within. rewrite err_1. apply (rd_mul RD).
  - rewrite M1, M2. eapply rgain_ext; [|apply stretch_rgain, Hc]. intros i j Hi Hj. cbv beta. symmetry. apply M3; assumption.
Qed.

(** Matrices of the user. *)
Lemma opd_arb : forall q ds M c, stands_for val u e M (meant M) -> mc M = mr M ->
  is_unitary (meant M) = true ->
  (forall (S : scalar) (m : mat S), mr m = mr M -> mc m = mr M -> is_unitary m = true -> arb_unitary ds m = Ok m) ->
  rgain (mr M) (mr M) (mget (meant M)) c ->
  opd (OArb q ds M) c.
Proof.
  intros q ds M c [S1 [S2 [S3 S4]]] Hsq HU Hds Hg. exists M, (meant M). cbn [omap unitary].
  rewrite (Hds F M eq_refl Hsq (unitary_rows_free Hsq S4)).
  rewrite (Hds CS (meant M) S1 (eq_trans S2 Hsq) HU). split; [reflexivity|]. split; [reflexivity|]. split.
  - split; [congruence|]. split; [congruence|]. rewrite S1, S2. intros i j Hi Hj.
    apply (@within_mono _ e); [exact Hu0 | lia | apply S3; assumption].
  - rewrite S1, S2, Hsq. exact Hg.
Qed.

Lemma opd_init : forall dims init i, (nth i init 0 < nth i dims 0)%nat -> opd (init_op F dims init i) 1.
Proof.
  intros dims init i Hi.
  assert (G : forall S, @fmat S (nth i dims 0%nat) 1 (fun _ => nth i init 0%nat)
     (mkmat (nth i dims 0%nat) 1 (fun r _ => if Nat.eqb r (nth i init 0%nat) then s1 else s0))).
  { intros S. constructor; [reflexivity | reflexivity | auto|]. intros r j Hr Hj. rewrite mget_mkmat by assumption.
    rewrite (Nat.eqb_sym r). reflexivity. }
  eapply fmat_opd; [reflexivity| |apply G|apply G|intros j j' Hj Hj' _; lia].
  cbn [init_op omap unitary]. cbn [b_matrix NumpyBackend]. f_equal. rewrite mmap_mkmat.
  unfold mkmat. f_equal. apply map_ext. intros r. apply map_ext. intros _. unfold v.
  destruct (r =? nth i init 0)%nat; [exact (rd_1 RD) | exact (rd_0 RD)].
Qed.

End Ops.
