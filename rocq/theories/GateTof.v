(** * GateTof: the Toffoli matrix, and arbitrary gates. *)
From Verif Require Import Py Scalar Mat Utils Gates Circuit Spec Lib Kern GateMat.
Set Implicit Arguments.

Lemma fold_min_spec : forall l x, let m := fold_left Z.min l x in
  In m (x :: l) /\ forall y, In y (x :: l) -> (m <= y)%Z.
Proof.
  induction l as [|z l IH]; intros x; simpl.
  - split; [left; reflexivity|]. intros y [->|[]]. lia.
  - destruct (IH (Z.min x z)) as [H1 H2]. simpl in *. split.
    + destruct H1 as [H1|H1]; [|right; right; exact H1].
      rewrite <- H1. destruct (Z.min_dec x z) as [E|E]; rewrite E; auto.
    + intros y [<-|[<-|Hy]].
      * specialize (H2 (Z.min x z) (or_introl eq_refl)). lia.
      * specialize (H2 (Z.min x z) (or_introl eq_refl)). lia.
      * apply H2. right; exact Hy.
Qed.

Lemma fold_max_spec : forall l x, let m := fold_left Z.max l x in
  In m (x :: l) /\ forall y, In y (x :: l) -> (y <= m)%Z.
Proof.
  induction l as [|z l IH]; intros x; simpl.
  - split; [left; reflexivity|]. intros y [->|[]]. lia.
  - destruct (IH (Z.max x z)) as [H1 H2]. simpl in *. split.
    + destruct H1 as [H1|H1]; [|right; right; exact H1].
      rewrite <- H1. destruct (Z.max_dec x z) as [E|E]; rewrite E; auto.
    + intros y [<-|[<-|Hy]].
      * specialize (H2 (Z.max x z) (or_introl eq_refl)). lia.
      * specialize (H2 (Z.max x z) (or_introl eq_refl)). lia.
      * apply H2. right; exact Hy.
Qed.

Lemma py_min_unique : forall l m, In m l -> (forall y, In y l -> (m <= y)%Z) -> py_min l = Ok m.
Proof.
  intros [|x l] m Hm Hle; [destruct Hm|]. unfold py_min. f_equal.
  destruct (fold_min_spec l x) as [H1 H2].
  apply Z.le_antisymm; [apply H2, Hm | apply Hle, H1].
Qed.
Lemma py_max_unique : forall l m, In m l -> (forall y, In y l -> (y <= m)%Z) -> py_max l = Ok m.
Proof.
  intros [|x l] m Hm Hle; [destruct Hm|]. unfold py_max. f_equal.
  destruct (fold_max_spec l x) as [H1 H2].
  apply Z.le_antisymm; [apply Hle, H1 | apply H2, Hm].
Qed.

Lemma nat_bounds : forall (l : list nat), l <> [] ->
  exists lo hi, In lo l /\ In hi l /\ forall x, In x l -> lo <= x <= hi.
Proof.
  induction l as [|x l IH]; intros H; [contradiction|].
  destruct l as [|y l].
  - exists x, x. simpl. split; [auto|]. split; [auto|]. intros z [<-|[]]; lia.
  - destruct IH as [lo [hi [H1 [H2 H3]]]]; [discriminate|].
    exists (Nat.min x lo), (Nat.max x hi). split; [|split].
    + destruct (Nat.min_dec x lo) as [E|E]; rewrite E; [left; reflexivity | right; exact H1].
    + destruct (Nat.max_dec x hi) as [E|E]; rewrite E; [left; reflexivity | right; exact H2].
    + intros z [<-|Hz]; [lia|]. specialize (H3 z Hz). lia.
Qed.

Lemma py_min_nat : forall l m, In m l -> (forall y, In y l -> m <= y) -> py_min (map Z.of_nat l) = Ok (Z.of_nat m).
Proof.
  intros l m Hm Hle. apply py_min_unique; [apply in_map; exact Hm|].
  intros y Hy. apply in_map_iff in Hy as [z [<- Hz]]. specialize (Hle z Hz). lia.
Qed.
Lemma py_max_nat : forall l m, In m l -> (forall y, In y l -> y <= m) -> py_max (map Z.of_nat l) = Ok (Z.of_nat m).
Proof.
  intros l m Hm Hle. apply py_max_unique; [apply in_map; exact Hm|].
  intros y Hy. apply in_map_iff in Hy as [z [<- Hz]]. specialize (Hle z Hz). lia.
Qed.

Lemma nth_skipn' : forall A n (l : list A) i d, nth i (skipn n l) d = nth (n + i) l d.
Proof.
  intros A n; induction n as [|n IH]; intros l i d; simpl; [reflexivity|].
  destruct l as [|x l]; simpl; [destruct i; reflexivity | apply IH].
Qed.
Lemma nth_firstn' : forall A n (l : list A) i d, i < n -> nth i (firstn n l) d = nth i l d.
Proof.
  intros A n; induction n as [|n IH]; intros l i d H; [lia|].
  destruct l as [|x l]; simpl; [reflexivity|]. destruct i; [reflexivity | apply IH; lia].
Qed.
Lemma sub_nth : forall dims pos w i, i < w -> nth i (sub dims pos w) 0 = nth (pos + i) dims 0.
Proof. intros dims pos w i Hi. unfold sub. rewrite nth_firstn', nth_skipn' by exact Hi. reflexivity. Qed.

Lemma nth_map_Z : forall l i, nth i (map Z.of_nat l) 0%Z = Z.of_nat (nth i l 0).
Proof. intros l i. exact (map_nth Z.of_nat l 0 i). Qed.

Lemma mapM_py_get_range : forall dims lo w, lo + w <= length dims ->
  mapM (py_get (map Z.of_nat dims)) (map Z.of_nat (seq lo w)) = Ok (map Z.of_nat (sub dims lo w)).
Proof.
  intros dims lo w H. rewrite mapM_map.
  rewrite mapM_ok with (g := fun k => Z.of_nat (nth k dims 0)).
  - f_equal. rewrite <- (map_nth_seq (sub dims lo w) 0), sub_length by assumption.
    rewrite map_map.
    replace (seq lo w) with (map (fun i => lo + i) (seq 0 w)).
    + rewrite map_map. apply map_ext_in. intros i Hi. apply in_seq in Hi. rewrite sub_nth by lia. reflexivity.
    + clear. revert lo; induction w as [|w IH]; intros lo; simpl; [reflexivity|].
      f_equal; [lia|]. rewrite <- seq_shift, map_map, <- (IH (S lo)). apply map_ext; intros; lia.
  - intros k Hk. apply in_seq in Hk. rewrite (@py_get_nat Z _ _ 0%Z) by (rewrite map_length; lia).
    change 0%Z with (Z.of_nat 0). rewrite map_nth. reflexivity.
Qed.

Section GateTof.
Variable S : scalar.
Hypothesis L : scalar_laws S.
Add Ring Sring : (sl_ring L).
Notation mat := (mat S).
Notation op := (op S).
Notation NB := (NumpyBackend S).

Lemma toffoli_dm_spec : forall dims cs t p lo hi,
  (forall x, In x (cs ++ [t]) -> lo <= x <= hi) -> In lo (cs ++ [t]) -> In hi (cs ++ [t]) ->
  hi < length dims -> (forall d, In d dims -> 0 < d) ->
  let ds := sub dims lo (hi - lo + 1) in
  exists u, toffoli_dm S (map Z.of_nat cs) (Z.of_nat t) p (map Z.of_nat dims)
            = Ok (u, Z.of_nat lo, Z.of_nat hi) /\
    mr u = prodn ds /\ mc u = prodn ds /\
    repr ds ds u (classical S (move_tof ds (map (fun c => c - lo) cs) (t - lo) p)).
Proof.
  intros dims cs t p lo hi Hb Hlo Hhi Hn Hpos ds. unfold toffoli_dm.
  assert (Ecs : map Z.of_nat cs ++ [Z.of_nat t] = map Z.of_nat (cs ++ [t])) by (rewrite map_app; reflexivity).
  rewrite Ecs.
  rewrite (@py_min_nat _ _ Hlo) by (intros y Hy; apply Hb in Hy; lia).
  rewrite (@py_max_nat _ _ Hhi) by (intros y Hy; apply Hb in Hy; lia).
  cbn [bind].
  assert (Ht : lo <= t <= hi) by (apply Hb; apply in_or_app; right; left; reflexivity).
  replace (Z.of_nat hi + 1)%Z with (Z.of_nat (hi + 1)) by lia. rewrite zrange_nat.
  replace (hi + 1 - lo) with (hi - lo + 1) by lia.
  rewrite mapM_py_get_range by lia. cbn [bind]. fold ds. rewrite map_of_nat_to_nat.
  rewrite (@py_get_nat Z _ _ 0%Z) by (rewrite map_length; lia). cbn [bind].
  rewrite nth_map_Z. rewrite combinations_all_configs.
  assert (Hlen : length ds = hi - lo + 1) by (apply sub_length; lia).
  set (mv := move_tof ds (map (fun c => c - lo) cs) (t - lo) p).
  assert (Hmv : forall s, valid ds s -> valid ds (mv s)) by (intros s Hs; apply move_tof_valid; [exact Hs | lia]).
  rewrite mapM_ok with (g := fun x : nat * list nat => lin ds (mv (snd x))).
  2: { intros [k x] Hin. pose proof (combine_seq_nth (all_configs ds) 0 []) as Ecomb. rewrite all_configs_length in Ecomb.
       unfold config in *. rewrite Ecomb in Hin.
       apply in_map_iff in Hin as [j [E Hj]]. apply in_seq in Hj. injection E as <- <-.
       change (nth j (all_configs ds) []) with (unlin ds j). cbn [snd].
       assert (Hv : valid ds (unlin ds j)) by (apply unlin_valid; lia).
       rewrite forallb_ext_in with
         (g := fun rc => top ds (unlin ds j) (Z.to_nat rc)).
       2: { intros rc Hrc. apply in_map_iff in Hrc as [z [<- Hz]]. apply in_map_iff in Hz as [c [<- Hc]].
            assert (lo <= c <= hi) by (apply Hb; apply in_or_app; left; exact Hc).
            replace (Z.to_nat (Z.of_nat c - Z.of_nat lo)) with (c - lo) by lia.
            unfold top, level.
            rewrite map_map. rewrite nth_map_lt with (e := 0) by (rewrite Hlen; lia).
            assert (Hlv : level (unlin ds j) (c - lo) < nth (c - lo) ds 0) by (apply valid_level; [exact Hv | lia]).
            unfold level in Hlv. apply eq_true_iff_eq. rewrite Nat.eqb_eq, Z.eqb_eq. lia. }
       replace (forallb (fun rc => top ds (unlin ds j) (Z.to_nat rc))
                 (map (fun _c => (_c - Z.of_nat lo)%Z) (map Z.of_nat cs)))
         with (forallb (top ds (unlin ds j)) (map (fun c => c - lo) cs)).
       2: { clear - Hb. induction cs as [|c cs IH]; simpl; [reflexivity|].
            rewrite IH by (intros x Hx; apply Hb; simpl; right; exact Hx).
            assert (lo <= c <= hi) by (apply Hb; left; reflexivity).
            replace (Z.to_nat (Z.of_nat c - Z.of_nat lo)) with (c - lo) by lia. reflexivity. }
       unfold mv, move_tof.
       destruct (forallb (top ds (unlin ds j)) (map (fun c => c - lo) cs)) eqn:EF.
       - replace (Z.to_nat (Z.of_nat t - Z.of_nat lo)) with (t - lo) by lia.
         assert (Hmx : valid ds (move_x ds (t - lo) p (unlin ds j))) by (apply move_x_valid; [exact Hv | lia]).
         unfold move_x, shift in *. rewrite put_upd in *.
         replace (nth t dims 0) with (nth (t - lo) ds 0).
         + unfold level in *. rewrite (get_index_configs Hmx). reflexivity.
         + unfold ds. rewrite sub_nth by lia. f_equal. lia.
       - rewrite lin_unlin by lia. reflexivity. }
  cbn [bind]. eexists. split; [reflexivity|].
  split; [reflexivity|]. split; [reflexivity|].
  unfold dtrans. cbn [mr mc mkmat]. apply repr_classical; [exact Hmv|].
  intros i j Hi Hj. rewrite mget_mkmat by assumption.
  rewrite nth_map_lt with (e := (0, [])) by (rewrite combine_length, seq_length, all_configs_length; lia).
  rewrite combine_nth by (rewrite seq_length, all_configs_length; reflexivity).
  cbn [snd]. reflexivity.
Qed.

Lemma mk_toffoli_spec : forall dims cs t p lo hi,
  (forall x, In x (cs ++ [t]) -> lo <= x <= hi) -> In lo (cs ++ [t]) -> In hi (cs ++ [t]) ->
  hi < length dims -> (forall d, In d dims -> 0 < d) ->
  let ds := sub dims lo (hi - lo + 1) in
  exists u, mk_toffoli S (map Z.of_nat cs) (Z.of_nat t) p (map Z.of_nat dims)
            = Ok (OTof (map Z.of_nat cs) (Z.of_nat t) p (map Z.of_nat ds)
                       (map Z.of_nat (seq lo (hi - lo + 1))) u) /\
    mr u = prodn ds /\ mc u = prodn ds /\
    repr ds ds u (classical S (move_tof ds (map (fun c => c - lo) cs) (t - lo) p)).
Proof.
  intros dims cs t p lo hi Hb Hlo Hhi Hn Hpos ds.
  destruct (@toffoli_dm_spec dims cs t p lo hi Hb Hlo Hhi Hn Hpos) as [u [E [H1 [H2 H3]]]].
  exists u. split; [|auto]. unfold mk_toffoli. rewrite E. cbn [bind].
  assert (lo <= hi) by (apply Hb in Hlo; lia).
  replace (Z.of_nat hi + 1)%Z with (Z.of_nat (hi + 1)) by lia. rewrite zrange_nat.
  replace (hi + 1 - lo) with (hi - lo + 1) by lia.
  rewrite mapM_py_get_range by lia. reflexivity.
Qed.

Lemma tof_unitary : forall dims cs t p lo hi,
  (forall x, In x (cs ++ [t]) -> lo <= x <= hi) ->
  hi < length dims -> ~ In t cs -> hi - lo + 1 <> 2 ->
  let ds := sub dims lo (hi - lo + 1) in
  forall a u, mr u = prodn ds -> mc u = prodn ds ->
  repr ds ds u (classical S (move_tof ds (map (fun c => c - lo) cs) (t - lo) p)) ->
  unitary NB (OTof (map Z.of_nat cs) (Z.of_nat t) p (map Z.of_nat ds) a u) = Ok u.
Proof.
  intros dims cs t p lo hi Hb Hn Hnin H2 ds a u Hr Hc HR.
  cbn [unitary]. unfold arb_unitary.
  assert (Ht : lo <= t <= hi) by (apply Hb; apply in_or_app; right; left; reflexivity).
  assert (Hlen : length ds = hi - lo + 1) by (apply sub_length; lia).
  assert (Hnin' : ~ In (t - lo) (map (fun c => c - lo) cs)).
  { intros Hin. apply in_map_iff in Hin as [c [E Hc']]. apply Hnin.
    assert (lo <= c <= hi) by (apply Hb; apply in_or_app; left; exact Hc').
    replace t with c by lia. exact Hc'. }
  assert (HU : is_unitary u = true).
  { eapply (is_unitary_repr L); [exact HR|].
    apply (classical_unitary L) with (g := move_tof ds (map (fun c => c - lo) cs) (t - lo) (- p)).
    - intros s Hs. apply move_tof_valid; [exact Hs | lia].
    - intros s Hs. apply move_tof_valid; [exact Hs | lia].
    - intros s Hs. rewrite <- (Z.opp_involutive p) at 1. apply move_tof_inv; [exact Hs | lia | exact Hnin'].
    - intros s Hs. apply move_tof_inv; [exact Hs | lia | exact Hnin']. }
  rewrite HU.
  destruct ds as [|d1 [|d2 [|d3 ds']]]; cbn [length] in Hlen; try (exfalso; lia).
  - cbn [map]. change (prodn [d1]) with (d1 * 1) in Hr, Hc.
    replace (Z.of_nat (mr u) =? Z.of_nat d1)%Z with true by (symmetry; apply Z.eqb_eq; lia).
    replace (Z.of_nat (mc u) =? Z.of_nat d1)%Z with true by (symmetry; apply Z.eqb_eq; lia).
    reflexivity.
  - reflexivity.
Qed.

End GateTof.
