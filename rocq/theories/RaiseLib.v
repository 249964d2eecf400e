(** * RaiseLib: the exception run() raises (C108). *)
From Verif Require Import Py Scalar Mat Utils Gates Circuit Spec Calls HistSpec InfoSpec CallSpec ShapeSpec RaiseSpec Lib Kern GateMat GateTof Flow Layers Blocks Refine Run History Merge Errors Construct Ignored BadGates Reject Shapes Succeeds Labels DrawFailSpec.
Set Implicit Arguments.

Lemma prodz_nat : forall l, prodz (map Z.of_nat l) = prodn l.
Proof.
  induction l as [|d l IH]; [reflexivity|]. rewrite prodn_cons, <- IH. cbn [map prodz fold_right].
  rewrite Nat2Z.id. reflexivity.
Qed.

Lemma lowest_min : forall l r, py_min (l ++ [r]) = Ok (lowest r l).
Proof.
  intros l r. apply py_min_unique.
  - induction l as [|x l IH]; cbn [lowest fold_right app]; [left; reflexivity|]. fold (lowest r l).
    destruct (Z.min_dec x (lowest r l)) as [E|E]; rewrite E; [left; reflexivity | right; exact IH].
  - induction l as [|x l IH]; intros y Hy; cbn [lowest fold_right app] in *; [destruct Hy as [->|[]]; lia|].
    fold (lowest r l) in *. destruct Hy as [->|Hy]; [lia|]. specialize (IH y Hy). lia.
Qed.

Lemma slice_map : forall A B (f : A -> B) l a b, py_slice (map f l) a b = map f (py_slice l a b).
Proof. intros A B f l a b. unfold py_slice. rewrite map_length, skipn_map, firstn_map. reflexivity. Qed.

Lemma slice_in : forall A (l : list A) a b x, In x (py_slice l a b) -> In x l.
Proof.
  intros A l a b x H. unfold py_slice in H.
  rewrite <- (firstn_skipn (py_clip (length l) a) l). apply in_or_app. right.
  rewrite <- (firstn_skipn (py_clip (length l) b - py_clip (length l) a) (skipn (py_clip (length l) a) l)).
  apply in_or_app. left. exact H.
Qed.

Section RaiseLib.
Variable S : scalar.
Variable L : scalar_laws S.
Notation op := (op S).
Notation mat := (mat S).
Notation circuit := (circuit S).
Notation call := (call S).
Notation NB := (NumpyBackend S).
Add Ring Sring : (sl_ring L).

Lemma orthonormal_unitary : forall u : mat, is_unitary u = orthonormal u.
Proof.
  intros u. unfold is_unitary, ddot, orthonormal.
  change (mr (dconj (dtrans u))) with (mc u). rewrite Nat.eqb_refl. change (mc (dconj (dtrans u))) with (mr u).
  apply forallb_ext_in. intros i Hi. apply forallb_ext_in. intros j Hj. apply in_seq in Hi. apply in_seq in Hj.
  rewrite mget_mkmat by lia. unfold deye. rewrite mget_mkmat by lia. f_equal.
  rewrite <- (bsum_total S). apply bsum_ext. intros k Hk. apply in_seq in Hk.
  unfold dconj, dtrans. cbn [mr mc mkmat]. rewrite !mget_mkmat by lia. reflexivity.
Qed.

(** ** The toffoli matrix *)
Lemma tof_not_unitary : forall ds cs t p (u : mat), (forall d, In d ds -> 2 <= d) ->
  (forall x, In x (t :: cs) -> x < length ds) -> repr ds ds u (classical S (move_tof ds cs t p)) ->
  In t cs -> (p mod Z.of_nat (nth t ds O) <> 0)%Z -> is_unitary u = false.
Proof.
  intros ds cs t p u Hd Hx HR Ht Hp.
  assert (Htl : t < length ds) by (apply Hx; left; reflexivity).
  assert (Hd2 : 2 <= nth t ds 0) by (apply Hd, nth_In; exact Htl).
  destruct (is_unitary u) eqn:EU; [|reflexivity]. exfalso.
  rewrite (is_unitary_iff HR) in EU.
  set (x := map (fun d => d - 1) ds).
  assert (Hpos : forall d, In d ds -> 0 < d) by (intros d H; specialize (Hd d H); lia).
  assert (Hv : valid ds x).
  { unfold x, valid. clear - Hpos. induction ds as [|d l IH]; simpl; constructor.
    - specialize (Hpos d (or_introl eq_refl)). lia.
    - apply IH. intros; apply Hpos; right; assumption. }
  specialize (EU x x Hv Hv).
  rewrite (@bsum_zero S) in EU.
  - rewrite delta_refl, (sl_close_10 L) in EU. discriminate.
  - exact L.
  - intros s Hs. apply in_all_configs in Hs.
    replace (classical S (move_tof ds cs t p) x s) with (@s0 S); [ring|].
    unfold classical. replace (config_eqb (move_tof ds cs t p s) x) with false; [reflexivity|].
    symmetry. apply config_eqb_neq. intros E.
    assert (Et : level (move_tof ds cs t p s) t = nth t ds 0 - 1).
    { rewrite E. unfold level, x. rewrite (nth_indep _ 0 (0 - 1)); [|rewrite map_length; lia].
      apply (map_nth (fun d => d - 1)). }
    unfold move_tof in Et, E. destruct (forallb (top ds s) cs) eqn:Ef.
    + rewrite forallb_forall in Ef. specialize (Ef _ Ht). unfold top in Ef. apply Nat.eqb_eq in Ef.
      unfold move_x in Et. rewrite level_put, Nat.eqb_refl in Et by (rewrite (valid_length Hs); lia).
      unfold shift in Et.
      replace (Z.of_nat (level s t)) with (Z.of_nat (nth t ds O) + -1)%Z in Et by lia.
      assert (Hb := Z.mod_pos_bound (Z.of_nat (nth t ds O) + -1 + p) (Z.of_nat (nth t ds O)) ltac:(lia)).
      apply Hp.
      assert (Eq : ((Z.of_nat (nth t ds O) + -1 + p) mod Z.of_nat (nth t ds O) = Z.of_nat (nth t ds O) - 1)%Z) by lia.
      replace p with ((Z.of_nat (nth t ds O) + -1 + p) - (Z.of_nat (nth t ds O) - 1))%Z by lia.
      rewrite Zminus_mod, Eq. rewrite (Z.mod_small (Z.of_nat (nth t ds O) - 1)) by lia. rewrite Z.sub_diag. apply Zmod_0_l.
    + assert (Ex : forallb (top ds s) cs = true); [|congruence].
      apply forallb_forall. intros q Hq. unfold top. apply Nat.eqb_eq. rewrite E.
      assert (q < length ds) by (apply Hx; right; exact Hq).
      unfold level, x. rewrite (nth_indep _ 0 (0 - 1)); [|rewrite map_length; lia].
      rewrite (map_nth (fun d => d - 1)). assert (0 < nth q ds 0) by (apply Hpos, nth_In; lia). lia.
Qed.

Lemma put_same : forall s t, t < length s -> put s t (level s t) = s.
Proof.
  unfold level. induction s as [|x s IH]; intros t Ht; simpl in Ht; [lia|]. destruct t as [|t]; [reflexivity|].
  simpl. rewrite IH by lia. reflexivity.
Qed.

Lemma tof_yes_unitary : forall ds cs t p (u : mat), (forall d, In d ds -> 2 <= d) ->
  (forall x, In x (t :: cs) -> x < length ds) -> repr ds ds u (classical S (move_tof ds cs t p)) ->
  ~ In t cs \/ (p mod Z.of_nat (nth t ds O) = 0)%Z -> is_unitary u = true.
Proof.
  intros ds cs t p u Hd Hx HR Ho.
  assert (Htl : t < length ds) by (apply Hx; left; reflexivity).
  assert (Hd2 : 2 <= nth t ds 0) by (apply Hd, nth_In; exact Htl).
  eapply (is_unitary_repr L); [exact HR|]. destruct Ho as [Hn|Hp].
  - apply (classical_unitary L) with (g := move_tof ds cs t (- p)).
    + intros s Hs. apply move_tof_valid; [exact Hs | lia].
    + intros s Hs. apply move_tof_valid; [exact Hs | lia].
    + intros s Hs. rewrite <- (Z.opp_involutive p) at 1. apply move_tof_inv; [exact Hs | lia | exact Hn].
    + intros s Hs. apply move_tof_inv; [exact Hs | lia | exact Hn].
  - assert (Hid : forall s, valid ds s -> move_tof ds cs t p s = s).
    { intros s Hs. unfold move_tof. destruct (forallb _ _); [|reflexivity]. unfold move_x, shift.
      pose proof (valid_level Hs Htl) as Hl. rewrite Zplus_mod, Hp, Z.add_0_r, Zmod_mod, Z.mod_small by lia.
      rewrite Nat2Z.id. apply put_same. rewrite (valid_length Hs). exact Htl. }
    apply (classical_unitary L) with (g := fun s => s); intros s Hs; try rewrite !Hid by exact Hs; auto.
Qed.

(** The matrix of toffoli without the register arithmetic. *)
Definition tof_core (rc : list Z) (tl plus dt : Z) (span : list Z) : res mat :=
  let nspan := map Z.to_nat span in
  let max_cap := map (fun d => d - 1)%Z span in
  let size_exp := prodn nspan in
  let indexes := generate_combinations nspan in
  repl <- mapM (fun '(idx, x) =>
      if forallb (fun rc => (Z.of_nat (nth (Z.to_nat rc) x 0%nat)
                             =? nth (Z.to_nat rc) max_cap 0)%Z) rc
      then let ti := Z.to_nat tl in
           let tgt := upd x ti (Z.to_nat ((Z.of_nat (nth ti x 0%nat) + plus) mod dt)) in
           match get_index indexes tgt with
           | Some k => Ok k
           | None => Err ValueError
           end
      else Ok idx) (combine (seq 0 size_exp) indexes) ;;
  Ok (dtrans (mkmat size_exp size_exp
          (fun row_idx j => if Nat.eqb (nth row_idx repl row_idx) j then s1 else s0))).

Lemma toffoli_core : forall c t plus dims,
  toffoli_dm S c t plus dims =
  (lb <- py_min (c ++ [t]) ;; ub <- py_max (c ++ [t]) ;; span <- mapM (py_get dims) (zrange lb (ub + 1)) ;;
   dt <- py_get dims t ;; u <- tof_core (map (fun _c => _c - lb)%Z c) (t - lb) plus dt span ;; Ok (u, lb, ub)).
Proof.
  intros c t plus dims. unfold toffoli_dm, tof_core.
  destruct (py_min _) as [lb|]; [|reflexivity]. destruct (py_max _) as [ub|]; [|reflexivity]. cbn [bind].
  destruct (mapM (py_get dims) _) as [span|]; [|reflexivity]. cbn [bind]. destruct (py_get dims t) as [dt|]; [|reflexivity]. cbn [bind].
  destruct (mapM _ _); reflexivity.
Qed.

Lemma mapM_nth : forall A B (f : A -> res B) l l' k da db, mapM f l = Ok l' -> k < length l -> f (nth k l da) = Ok (nth k l' db).
Proof.
  intros A B f l l' k da db H. apply mapM_forall2 in H. revert k. induction H as [|x y l l' Hx H IH]; intros k Hk; [simpl in Hk; lia|].
  destruct k as [|k]; [exact Hx|]. simpl in *. apply IH. lia.
Qed.

Lemma nats : forall l : list Z, (forall d, In d l -> (2 <= d)%Z) -> exists l', l = map Z.of_nat l' /\ forall d, In d l' -> 2 <= d.
Proof.
  induction l as [|x l IH]; intros H; [exists []; split; [reflexivity | contradiction]|].
  destruct IH as [l' [E H']]; [intros; apply H; right; assumption|]. assert (2 <= x)%Z by (apply H; left; reflexivity).
  exists (Z.to_nat x :: l'). split; [cbn [map]; rewrite Z2Nat.id by lia; congruence|].
  intros d [<-|Hd]; [lia | auto].
Qed.

Lemma sub_all : forall l, sub l 0 (length l) = l.
Proof. intros l. unfold sub. cbn [skipn]. apply firstn_all. Qed.

(** Every toffoli that was built has the matrix of the toffoli on the spanned
    registers, named from the first of them. *)
Lemma toffoli_local : forall cs t p dims ds acting (u : mat), (forall d, In d dims -> (2 <= d)%Z) ->
  mk_toffoli S cs t p dims = Ok (OTof cs t p ds acting u) ->
  exists dn cn tn, ds = map Z.of_nat dn /\ (forall d, In d dn -> 2 <= d) /\
    tn = Z.to_nat (t - lowest t cs) /\ (forall x, In x (tn :: cn) -> x < length dn) /\
    existsb (Z.eqb t) cs = existsb (Nat.eqb tn) cn /\
    mr u = prodn dn /\ mc u = prodn dn /\ repr dn dn u (classical S (move_tof dn cn tn p)).
Proof.
  intros cs t p dims ds acting u Hd H. unfold mk_toffoli in H. rewrite toffoli_core, lowest_min in H. cbn [bind] in H.
  set (lb := lowest t cs) in *. pose proof (lowest_min cs t) as Hmin. fold lb in Hmin.
  destruct (py_max (cs ++ [t])) as [ub|] eqn:Hmax; [|discriminate]. cbn [bind] in H.
  assert (Bnd : forall x, In x (cs ++ [t]) -> (lb <= x <= ub)%Z).
  { intros x Hx. destruct (cs ++ [t]) as [|y l]; [contradiction|].
    destruct (py_min_ex y l) as [a [Ea [_ Ba]]]. destruct (py_max_ex y l) as [b [Eb [_ Bb]]].
    rewrite Ea in Hmin. rewrite Eb in Hmax. injection Hmin as <-. injection Hmax as <-. split; [apply Ba | apply Bb]; exact Hx. }
  assert (Hin : In lb (cs ++ [t]) /\ In ub (cs ++ [t])).
  { destruct (cs ++ [t]) as [|y l]; [discriminate|].
    destruct (py_min_ex y l) as [a [Ea [Ia _]]]. destruct (py_max_ex y l) as [b [Eb [Ib _]]].
    rewrite Ea in Hmin. rewrite Eb in Hmax. injection Hmin as <-. injection Hmax as <-. auto. }
  destruct (mapM (py_get dims) (zrange lb (ub + 1))) as [span|] eqn:Es; [|discriminate]. cbn [bind] in H.
  destruct (py_get dims t) as [dt|] eqn:Et; [|discriminate]. cbn [bind] in H.
  destruct (tof_core _ _ _ _ _) as [v|] eqn:Ec; [|discriminate]. cbn [bind] in H. rewrite Es in H. cbn [bind] in H.
  injection H as <- <- <-.
  destruct (@nats span) as [dn [-> Hdn]].
  { intros d Hin'. apply mapM_forall2 in Es. apply Hd.
    clear - Es Hin'. induction Es as [|x y l l' Hx Hl IH]; [contradiction|]. destruct Hin' as [<-|X]; [|auto].
    unfold py_get in Hx. destruct (py_index _ _) as [k|]; [|discriminate]. destruct (nth_error dims k) eqn:E; [|discriminate].
    injection Hx as <-. eapply nth_error_In; exact E. }
  assert (Ht : In t (cs ++ [t])) by (apply in_or_app; right; left; reflexivity).
  assert (Hlen : length dn = Z.to_nat (ub + 1 - lb)).
  { rewrite <- (map_length Z.of_nat dn), <- (Forall2_len (mapM_forall2 _ _ Es)). unfold zrange. rewrite map_length, seq_length. reflexivity. }
  pose proof (Bnd t Ht) as Bt.
  assert (Edt : dt = Z.of_nat (nth (Z.to_nat (t - lb)) dn 0%nat)).
  { assert (X := @mapM_nth _ _ (py_get dims) _ _ (Z.to_nat (t - lb)) 0%Z 0%Z Es).
    rewrite nth_map_Z in X. unfold zrange in X at 1 2. rewrite map_length, seq_length in X. specialize (X ltac:(lia)).
    rewrite nth_map_lt with (e := 0) in X by (rewrite seq_length; lia). rewrite seq_nth in X by lia.
    replace (lb + Z.of_nat (0 + Z.to_nat (t - lb)))%Z with t in X by lia. congruence. }
  set (cn := map (fun c => Z.to_nat (c - lb)) cs). set (tn := Z.to_nat (t - lb)) in *. set (hi := Z.to_nat (ub - lb)).
  assert (Ecn : map Z.of_nat cn = map (fun c => c - lb)%Z cs).
  { unfold cn. rewrite map_map. apply map_ext_in. intros c Hc. assert (lb <= c <= ub)%Z by (apply Bnd, in_or_app; left; exact Hc). lia. }
  assert (Hcn : forall x, In x (cn ++ [tn]) -> 0 <= x <= hi).
  { intros x Hx. apply in_app_or in Hx as [Hx|[<-|[]]]; [|unfold hi, tn; lia].
    apply in_map_iff in Hx as [c [<- Hc]]. assert (lb <= c <= ub)%Z by (apply Bnd, in_or_app; left; exact Hc). unfold hi; lia. }
  assert (Inn : forall z, In z (cs ++ [t]) -> In (Z.to_nat (z - lb)) (cn ++ [tn])).
  { intros z Hz. apply in_app_or in Hz as [Hz|[<-|[]]]; apply in_or_app; [left; apply (in_map (fun c => Z.to_nat (c - lb))); exact Hz | right; left; reflexivity]. }
  assert (I0 : In 0 (cn ++ [tn])) by (replace 0 with (Z.to_nat (lb - lb)) by lia; apply Inn, Hin).
  assert (Ih : In hi (cn ++ [tn])) by (apply Inn, Hin).
  assert (Hh : length dn = hi + 1) by (unfold hi; lia).
  destruct (@toffoli_dm_spec S dn cn tn p 0 hi Hcn I0 Ih ltac:(lia)) as [w [E [W1 [W2 W3]]]].
  { intros d X. specialize (Hdn d X). lia. }
  replace (hi - 0 + 1) with (length dn) in W1, W2, W3 by lia. rewrite sub_all in W1, W2, W3.
  assert (Emap : map (fun c => c - 0) cn = cn) by (rewrite map_ext with (g := fun c => c) by (intros; lia); apply map_id).
  rewrite Emap, Nat.sub_0_r in W3.
  assert (w = v).
  { rewrite toffoli_core in E.
    assert (M1 : py_min (map Z.of_nat cn ++ [Z.of_nat tn]) = Ok 0%Z).
    { change [Z.of_nat tn] with (map Z.of_nat [tn]). rewrite <- map_app. apply (@py_min_nat (cn ++ [tn]) 0 I0). intros; lia. }
    assert (M2 : py_max (map Z.of_nat cn ++ [Z.of_nat tn]) = Ok (Z.of_nat hi)).
    { change [Z.of_nat tn] with (map Z.of_nat [tn]). rewrite <- map_app. apply (@py_max_nat (cn ++ [tn]) hi Ih). intros y Hy; apply Hcn in Hy; lia. }
    rewrite M1, M2 in E. cbn [bind] in E.
    replace (Z.of_nat hi + 1)%Z with (Z.of_nat (hi + 1)) in E by lia. change 0%Z with (Z.of_nat 0) in E at 1.
    rewrite zrange_nat, Nat.sub_0_r, mapM_py_get_range in E by lia. rewrite <- Hh, sub_all in E. cbn [bind] in E.
    rewrite (@Lib.py_get_nat Z _ _ 0%Z), nth_map_Z in E by (rewrite map_length; unfold tn; lia). cbn [bind] in E.
    rewrite <- Edt, Ecn, map_map in E.
    rewrite map_ext with (g := fun c => (c - lb)%Z) in E by (intros; lia).
    replace (Z.of_nat tn - 0)%Z with (t - lb)%Z in E by (unfold tn; lia). rewrite Ec in E. cbn [bind] in E. congruence. }
  subst w. exists dn, cn, tn. split; [reflexivity|]. split; [exact Hdn|]. split; [reflexivity|]. split.
  - intros x Hx. apply in_snoc_cons in Hx. apply Hcn in Hx. lia.
  - split; [|auto]. apply eq_true_iff_eq. rewrite !existsb_exists. split.
    + intros [x [Hx E']]. apply Z.eqb_eq in E'. subst x. exists tn. split; [apply (in_map (fun c => Z.to_nat (c - lb))); exact Hx | apply Nat.eqb_refl].
    + intros [x [Hx E']]. apply Nat.eqb_eq in E'. subst x. apply in_map_iff in Hx as [c [Ec' Hc]]. exists c. split; [exact Hc|].
      assert (lb <= c <= ub)%Z by (apply Bnd, in_or_app; left; exact Hc). apply Z.eqb_eq. unfold tn in Ec'. lia.
Qed.

(** ** Operations *)
Definition agrees (o : op) : Prop :=
  match verdict_of o with
  | Raises e => unitary NB o = Err e
  | Sized r c => exists m : mat, unitary NB o = Ok m /\ mr m = r /\ mc m = c
  end.

Lemma agrees_tof : forall cs t p dims ds acting (u : mat), (forall d, In d dims -> (2 <= d)%Z) ->
  mk_toffoli S cs t p dims = Ok (OTof cs t p ds acting u) -> agrees (OTof cs t p ds acting u).
Proof.
  intros cs t p dims ds acting u Hd H.
  destruct (toffoli_local dims Hd H) as [dn [cn [tn [-> [Hdn [Etn [Hx [Ein [H1 [H2 HR]]]]]]]]]].
  unfold agrees. cbn [verdict_of unitary]. rewrite <- Etn, Ein, nth_map_Z, map_length, prodz_nat.
  destruct (existsb (Nat.eqb tn) cn && negb (p mod Z.of_nat (nth tn dn 0%nat) =? 0)%Z) eqn:Eb.
  - apply andb_true_iff in Eb as [B1 B2]. apply existsb_exists in B1 as [x [B1 E]]. apply Nat.eqb_eq in E. subst x.
    apply negb_true_iff, Z.eqb_neq in B2.
    unfold arb_unitary. rewrite (@tof_not_unitary dn cn tn p u Hdn Hx HR B1 B2). reflexivity.
  - assert (HU : is_unitary u = true).
    { apply (@tof_yes_unitary dn cn tn p u Hdn Hx HR). apply andb_false_iff in Eb as [B|B].
      - left. intros Hi. assert (X : existsb (Nat.eqb tn) cn = true) by (apply existsb_exists; exists tn; split; [exact Hi | apply Nat.eqb_refl]). congruence.
      - right. apply negb_false_iff, Z.eqb_eq in B. exact B. }
    unfold arb_unitary. rewrite HU.
    assert (0 < length dn) by (specialize (Hx tn (or_introl eq_refl)); lia).
    destruct dn as [|d1 [|d2 [|d3 dn]]]; cbn [length map Nat.eqb] in *.
    + lia.
    + change (prodn [d1]) with (d1 * 1) in *.
      replace (Z.of_nat (mr u) =? Z.of_nat d1)%Z with true by (symmetry; apply Z.eqb_eq; lia).
      replace (Z.of_nat (mc u) =? Z.of_nat d1)%Z with true by (symmetry; apply Z.eqb_eq; lia).
      cbn [andb bind]. exists u. auto.
    + reflexivity.
    + cbn [bind]. exists u. auto.
Qed.

Lemma agrees_cx : forall dn s t p, (forall d, In d dn -> 2 <= d) -> agrees (OCX (map Z.of_nat dn) [s; t] p).
Proof.
  intros dn s t p Hd. unfold agrees. cbn [verdict_of unitary]. rewrite map_length, prodz_nat.
  destruct (Z.ltb_spec (Z.abs (s - t)) (Z.of_nat (length dn))) as [Hlt|Hge].
  - destruct (@cx_rows_spec S (seqb_refl L s1) (seqb_01 L) dn s t p
      (Z.to_nat (if (s <? t)%Z then 0 else s - t)) (Z.to_nat (if (s <? t)%Z then t - s else 0))) as [M [E [E1 [E2 _]]]].
    + intros d X. specialize (Hd d X). lia.
    + destruct (Z.ltb_spec s t); lia.
    + destruct (Z.ltb_spec s t); lia.
    + destruct (Z.ltb_spec s t); lia.
    + destruct (Z.ltb_spec s t); lia.
    + rewrite E. cbn [bind]. eexists. split; [reflexivity|]. cbn. auto.
  - cbn [cx_rows]. destruct (Z.ltb_spec s t).
    + rewrite (@py_get_big _ (map Z.of_nat dn) (t - s)) by (rewrite map_length; lia).
      destruct (py_get (map Z.of_nat dn) 0) as [x|e] eqn:E0; [reflexivity|]. apply py_get_err in E0. subst e. reflexivity.
    + rewrite (@py_get_big _ (map Z.of_nat dn) (s - t)) by (rewrite map_length; lia). reflexivity.
Qed.

Lemma agrees_arb : forall q ds (u : mat), agrees (OArb q ds u).
Proof.
  intros q ds u. unfold agrees. cbn [verdict_of unitary]. unfold arb_unitary. rewrite <- orthonormal_unitary.
  assert (G : forall d, match square_of u d with
     | Raises e => (m <- (if ((Z.of_nat (mr u) =? d) && (Z.of_nat (mc u) =? d))%Z%bool then Ok u else Err AssertionError) ;; Ok (b_matrix (b := NB) m)) = Err e
     | Sized r c => exists m : mat, (m <- (if ((Z.of_nat (mr u) =? d) && (Z.of_nat (mc u) =? d))%Z%bool then Ok u else Err AssertionError) ;; Ok (b_matrix (b := NB) m)) = Ok m /\ mr m = r /\ mc m = c
     end).
  { intros d. unfold square_of. destruct (_ && _)%bool; [exists u; auto | reflexivity]. }
  destruct (is_unitary u); [|reflexivity].
  destruct ds as [d|[|d [|d2 [|d3 ds]]]]; try apply G; try reflexivity; exists u; auto.
Qed.

Lemma agrees_x : forall q d p, agrees (OX q d p).
Proof.
  intros q d p. unfold agrees. cbn [verdict_of unitary]. unfold x_unitary.
  destruct (Z.ltb_spec d 0); [reflexivity|]. unfold py_index. rewrite Z2Nat.id by lia.
  destruct ((0 <=? p) && (p <? d))%Z eqn:E1.
  - apply andb_true_iff in E1 as [A B]. apply Z.leb_le in A. rewrite B.
    replace (- d <=? p)%Z with true by (symmetry; apply Z.leb_le; lia). cbn [andb bind].
    eexists. split; [reflexivity|]. cbn. rewrite upd_length, repeat_length. auto.
  - destruct ((- d <=? p) && (p <? 0))%Z eqn:E2.
    + apply andb_true_iff in E2 as [A B]. apply Z.leb_le in A. apply Z.ltb_lt in B.
      replace ((- d <=? p) && (p <? d))%Z with true by (symmetry; apply andb_true_iff; rewrite Z.leb_le, Z.ltb_lt; lia).
      cbn [bind]. eexists. split; [reflexivity|]. cbn. rewrite upd_length, repeat_length. auto.
    + replace ((- d <=? p) && (p <? d))%Z with false; [reflexivity|].
      symmetry. apply andb_false_iff. rewrite andb_false_iff in E1, E2. rewrite !Z.leb_gt, !Z.ltb_ge in *. lia.
Qed.

Lemma agrees_hz : forall q d, (d <> 0)%Z -> agrees (OH q d) /\ agrees (OZ q d).
Proof.
  intros q d Hd. unfold agrees. cbn [verdict_of unitary].
  destruct (Z.ltb_spec d (-1)) as [H1|H1].
  - unfold h_unitary, z_unitary. replace (d + 1 <? 0)%Z with true by (symmetry; apply Z.ltb_lt; lia). split; reflexivity.
  - destruct (Z.eqb_spec d (-1)) as [->|H2]; [split; reflexivity|]. split.
    + destruct (@h_unitary_spec S L (Z.to_nat d) ltac:(lia)) as [M [E [E1 [E2 _]]]]. rewrite Z2Nat.id in E by lia.
      rewrite E. cbn [bind]. exists M. auto.
    + unfold z_unitary. destruct (Z.ltb_spec (d + 1) 0); [lia|]. destruct (Z.eqb_spec (d + 1) 0); [lia|].
      cbn [bind]. eexists. split; [reflexivity|]. cbn. rewrite !rev_length, (sl_roots_len L). auto.
Qed.

(** ** Layers *)
Lemma agrees_layer : forall l : list op, l <> [] -> Forall agrees l ->
  match layer_verdict l with
  | Raises e => moment_exec NB l = Err e
  | Sized r c => exists M : mat, moment_exec NB l = Ok M /\ mr M = r /\ mc M = c
  end.
Proof.
  intros l Hne HF. destruct l as [|g gs]; [congruence|]. inversion HF as [|? ? Hg Hgs]; subst. clear HF Hne.
  assert (G : forall gs (u : mat), Forall agrees gs ->
    match layer_verdict gs with
    | Raises e => fold_left (fun acc h => a <- acc ;; b <- unitary NB h ;; Ok (b_kron a b)) gs (Ok u) = Err e
    | Sized r c => exists M : mat, fold_left (fun acc h => a <- acc ;; b <- unitary NB h ;; Ok (b_kron a b)) gs (Ok u) = Ok M /\
                                   mr M = mr u * r /\ mc M = mc u * c
    end).
  { clear. induction gs as [|g gs IH]; intros u HF; unfold layer_verdict; cbn [map in_order fold_left].
    - exists u. split; [reflexivity|]. lia.
    - inversion HF as [|? ? Hg Hgs]; subst. unfold agrees in Hg. destruct (verdict_of g) as [e|r c].
      + cbn [bind]. rewrite Hg. cbn [bind]. apply fold_bind_err.
      + destruct Hg as [m [Em [E1 E2]]]. cbn [bind]. rewrite Em. cbn [bind].
        specialize (IH (b_kron (b := NB) u m) Hgs). unfold layer_verdict in IH. destruct (in_order (map (@verdict_of S) gs)) as [e|r' c'].
        * exact IH.
        * destruct IH as [M [EM [F1 F2]]]. exists M. split; [exact EM|]. cbn in F1, F2. rewrite F1, F2, E1, E2. lia. }
  unfold layer_verdict. cbn [map in_order]. unfold agrees in Hg. unfold moment_exec. destruct (verdict_of g) as [e|r c].
  - rewrite Hg. reflexivity.
  - destruct Hg as [m [Em [E1 E2]]]. rewrite Em. cbn [bind]. specialize (G gs m Hgs). unfold layer_verdict in G.
    destruct (in_order (map (@verdict_of S) gs)) as [e|r' c']; [exact G|].
    destruct G as [M [EM [F1 F2]]]. exists M. split; [exact EM|]. rewrite F1, F2, E1, E2. auto.
Qed.

Lemma agrees_flow : forall (ms : list (moment S)) acc,
  (forall m, In m ms -> m_list m <> [] /\ Forall agrees (m_list m)) ->
  match failing (option_map (@mc S) acc) (map (@m_list S) ms) with
  | Some e => fold_left (@mult S) ms (Ok acc) = Err e
  | None => exists R, fold_left (@mult S) ms (Ok acc) = Ok R /\
      match acc, ms with
      | Some d, _ => exists M, R = Some M /\ mr M = mr d
      | None, m :: _ => exists M, R = Some M /\ mr M = rows_of (layer_verdict (m_list m))
      | None, [] => R = None
      end
  end.
Proof.
  induction ms as [|m ms IH]; intros acc H; cbn [map failing fold_left].
  - exists acc. split; [reflexivity|]. destruct acc; eauto.
  - assert (H' : forall m', In m' ms -> m_list m' <> [] /\ Forall agrees (m_list m')) by (intros; apply H; right; assumption).
    destruct (H m (or_introl eq_refl)) as [Hne HF]. pose proof (agrees_layer Hne HF) as HL.
    assert (Herr : forall e, fold_left (@mult S) ms (Err e) = Err e).
    { intros e. unfold mult. apply (@fold_bind_err _ _ (fun a m => k <- moment_exec NB (m_list m) ;;
            match a with None => Ok (Some k) | Some d => p <- b_dot d k ;; Ok (Some p) end)). }
    destruct (layer_verdict (m_list m)) as [e|r c] eqn:EL.
    + unfold mult at 2. cbn [bind]. rewrite HL. cbn [bind]. apply Herr.
    + destruct HL as [M [EM [E1 E2]]]. unfold mult at 2 4. cbn [bind]. rewrite EM. cbn [bind]. destruct acc as [d|]; cbn [option_map].
      * cbn [b_dot NumpyBackend]. unfold ddot. rewrite E1. destruct (Nat.eqb_spec (mc d) r) as [Ed|Ed]; [|cbn [bind]; apply Herr].
        cbn [bind].
        set (P := mkmat (mr d) (mc M) _). specialize (IH (Some P) H'). cbn [option_map] in IH.
        change (mc P) with (mc M) in IH. rewrite E2 in IH.
        destruct (failing (Some c) (map (@m_list S) ms)) as [e|]; [exact IH|]. destruct IH as [R [ER HR]]. exists R. split; [exact ER|]. exact HR.
      * specialize (IH (Some M) H'). cbn [option_map] in IH. rewrite E2 in IH.
        destruct (failing (Some c) (map (@m_list S) ms)) as [e|]; [exact IH|]. destruct IH as [R [ER HR]]. exists R. split; [exact ER|].
        cbn [rows_of]. rewrite <- E1. exact HR.
Qed.

(** ** Histories *)
Section Hist.
Variable dims : list nat.
Hypothesis Hdims : forall d, In d dims -> 2 <= d.

Lemma slice_nats : forall (c : circuit) a b, shaped dims c -> exists dn, py_slice (c_dims c) a b = map Z.of_nat dn /\ forall d, In d dn -> 2 <= d.
Proof.
  intros c a b Hs. rewrite (sh_dims Hs), slice_map. eexists. split; [reflexivity|]. intros d Hd. apply Hdims. eapply slice_in; exact Hd.
Qed.

Lemma agrees_issue : forall (c : circuit) k g, shaped dims c -> issues c k g -> occupies (length dims) g <> [] -> agrees g.
Proof.
  intros c k g Hs Hi Ho.
  assert (N : forall q dm d, dims_or c dm q = Ok d -> registers g = [q] -> (d <> 0)%Z).
  { intros q dm d D Er. destruct (@placed_single S dims g q Er Ho) as [r [Hr [-> _]]]. exact (dim_nonzero Hdims Hs _ Hr D). }
  destruct Hi as [q dm d V D|q dm p d V D|q dm d V D|a p a0 a1 A0 A1|cs t p ds acting u Hm|q dm d u V D|l dm ds u V D].
  - apply agrees_hz. eapply N; [exact D | reflexivity].
  - apply agrees_x.
  - apply agrees_hz. eapply N; [exact D | reflexivity].
  - destruct a as [|s [|t [|x a]]]; try discriminate A0; try discriminate A1.
    + injection A0 as <-. injection A1 as <-.
      destruct (s <? t)%Z; match goal with |- agrees (OCX (py_slice _ ?x ?y) _ _) => destruct (@slice_nats c x y Hs) as [dn [-> Hdn]] end;
        apply agrees_cx; exact Hdn.
    + unfold agrees. cbn [verdict_of unitary cx_rows]. reflexivity.
  - eapply agrees_tof; [|exact Hm]. intros d Hd. rewrite (sh_qregs Hs) in Hd. cbn [qregs_list] in Hd.
    apply in_map_iff in Hd as [x [<- Hx]]. specialize (Hdims x Hx). lia.
  - apply agrees_arb.
  - apply agrees_arb.
Qed.

Lemma agrees_ops : forall (c : circuit) P m l0 ls, inv (length dims) c m l0 ls -> shaped dims c ->
  (forall o, In o (gate_ops ls) -> from_calls c P o) -> forall l, In l (l0 :: ls) -> Forall agrees l.
Proof.
  intros c P m l0 ls I Hs HF l [<-|Hl]; apply Forall_forall; intros o Ho.
  - pose proof (proj1 (i_m0 I)) as X. rewrite forallb_forall in X. specialize (X o Ho).
    destruct o; try discriminate. unfold agrees. cbn [verdict_of unitary]. eexists; split; [reflexivity | split; reflexivity].
  - assert (Hin : In o (gate_ops ls)) by (apply in_concat; eauto).
    destruct (HF o Hin) as [[i [_ ->]]|[k [_ Hi]]].
    + unfold agrees, idop. cbn [verdict_of unitary]. eexists; split; [reflexivity | split; reflexivity].
    + eapply agrees_issue; [exact Hs | exact Hi|]. exact (proj2 (proj1 (Forall_forall _ _) (i_tile I) l Hl) o Ho).
Qed.
End Hist.

Lemma rev_last : forall A (l : list A) d, l <> [] -> exists l', rev l = last l d :: l'.
Proof.
  intros A l d H. destruct (exists_last H) as [l' [x ->]]. exists (rev l'). rewrite rev_app_distr, last_last. reflexivity.
Qed.

Theorem run_verdict : forall dims init out ty me ks (c : circuit),
  history (QList (map Z.of_nat dims)) init out ks c -> dims <> [] -> ~ In CMeasureAll ks -> wants dims out ty me ->
  match failing None (rev (layers_of c)) with
  | Some e => run NB (after c [CMeasureAll]) = Err e
  | None => (rows_of (layer_verdict (last (layers_of c) [])) <= prodn dims -> exists l, run NB (after c [CMeasureAll]) = Ok l) /\
            (forall e, run NB (after c [CMeasureAll]) = Err e -> e = IndexError)
  end.
Proof.
  intros dims init out ty me ks c H Hne Hm Hw.
  assert (Hdims : forall d, In d dims -> 2 <= d).
  { intros x Hx. assert (2 <= Z.of_nat x)%Z; [|lia]. apply (history_dims2 H). apply in_map. exact Hx. }
  pose proof (hl_shaped dims H) as Hs.
  pose proof (history_layout H) as [_ [_ [_ Eo]]].
  destruct (@history_full S (fun _ => True) _ _ _ _ _ H) as [l0 [ls [I HF]]]; [apply Forall_forall; auto|].
  rewrite (hl_nregs dims) in I.
  replace ((0 <? length dims) && existsb (@is_measure_all S) ks) with false in I.
  2:{ symmetry. destruct (existsb _ ks) eqn:E; [|apply andb_false_r]. apply measured_in in E. contradiction. }
  assert (Hn : 0 < length dims) by (destruct dims; [congruence | simpl; lia]).
  destruct (inv_measure I) as [c' [Ea [[[X|X] _]|[_ [_ [I' [f Ec']]]]]]]; [discriminate | lia |].
  assert (Ec : after c [CMeasureAll] = c') by (unfold after; cbn [fold_left]; unfold step; rewrite Ea; reflexivity).
  assert (Hcol : forall M, flow_exec NB (c_flow c') = Ok (Some M) -> mc M = 1).
  { intros M HM. destruct H as [c0 [E0 EE]]. destruct (inv_new _ _ _ E0) as [l0' I0].
    assert (El0 : l0' = l0).
    { destruct (after_inv ks I0) as [ls' I2]. rewrite <- EE in I2. pose proof (i_list I) as A1. pose proof (i_list I2) as A2. congruence. }
    subst l0'. eapply flow_column; [exact I' | eapply first_column; [exact E0 | exact I0] | exact HM]. }
  rewrite Ec. clear Ea Ec.
  pose proof (i_list I) as E1. pose proof (i_list I') as E2. unfold layers in E1, E2. fold (layers_of c) in E1. rewrite app_nil_r in E1.
  rewrite app_comm_cons in E2. apply map_eq_app in E2 as [fl1 [fl2 [Ef [M1 M2]]]]. destruct fl2 as [|lst [|? ?]]; try discriminate.
  assert (Er : rev (f_list (c_flow c')) = lst :: rev fl1) by (rewrite Ef, rev_app_distr; reflexivity).
  assert (Efl : layers_of c = map (@m_list S) fl1) by congruence.
  assert (HG : forall m, In m (rev fl1) -> m_list m <> [] /\ Forall agrees (m_list m)).
  { intros m Hin. apply in_rev in Hin. assert (Hl : In (m_list m) (l0 :: ls)) by (rewrite <- M1; apply in_map; exact Hin). split.
    - destruct Hl as [<-|Hl].
      + intros E. pose proof (proj2 (i_m0 I)) as X. rewrite E in X. destruct (length dims); [lia | discriminate].
      + intros E. pose proof (proj1 (proj1 (Forall_forall _ _) (i_tile I) _ Hl)) as X. rewrite E in X. cbn in X. destruct (length dims); [lia | discriminate].
    - eapply agrees_ops; [exact Hdims | exact I | exact Hs | exact HF | exact Hl]. }
  pose proof (@agrees_flow (rev fl1) None HG) as HA. cbn [option_map] in HA. rewrite map_rev, <- Efl in HA.
  assert (Efe : flow_exec NB (c_flow c') = fold_left (@mult S) (rev fl1) (Ok None)).
  { unfold flow_exec. rewrite (i_meas I'), forallb_repeat, orb_true_r, Er. reflexivity. }
  unfold run. destruct (failing None (rev (layers_of c))) as [e|].
  - rewrite (eq_trans Efe HA). reflexivity.
  - destruct HA as [R [ER HR]].
    assert (Hne1 : fl1 <> []) by (intros ->; discriminate M1).
    destruct (@rev_last _ fl1 lst Hne1) as [rest Erev]. rewrite Erev in HR.
    destruct HR as [M [-> HM]].
    assert (Elast : last (layers_of c) [] = m_list (last fl1 lst)).
    { rewrite Efl. clear - Hne1. induction fl1 as [|a [|b l] IH]; [congruence | reflexivity|].
      cbn [map] in *. change (last (m_list a :: m_list b :: map (@m_list S) l) []) with (last (m_list b :: map (@m_list S) l) []).
      rewrite IH by discriminate. reflexivity. }
    rewrite Elast, <- HM. apply (eq_trans Efe) in ER. specialize (Hcol M ER). rewrite ER. cbn [bind b_toarray NumpyBackend].
    assert (Eo' : c_out c' = {| o_base := map Z.of_nat dims; o_type := ty; o_method := me |}).
    { rewrite Ec'. cbn [c_out set_flow]. rewrite Eo. destruct Hw as [->|[-> [-> ->]]]; reflexivity. }
    rewrite Eo'. split.
    + intros Hle. unfold output_call. cbn [o_base o_type o_method].
      destruct (mapM _ _) as [l|e] eqn:Em; [eauto|]. exfalso. apply mapM_err in Em as [v [Hv Em]].
      assert (Hlt : v < prodn dims).
      { apply in_flat_map in Hv as [i [Hi Hv]]. apply in_flat_map in Hv as [j [_ Hv]]. destruct (seqb _ _); [contradiction|].
        destruct Hv as [<-|[]]. apply in_seq in Hi. lia. }
      rewrite <- (@lin_unlin dims v Hlt) in Em. rewrite (Nbase_to_bin_lin (unlin_valid dims Hlt)) in Em. discriminate.
    + intros e He. unfold output_call in He. apply mapM_err in He as [v [_ Hv]].
      destruct (Nbase_to_bin _ _) eqn:En; cbn [bind] in Hv; [discriminate|]. apply Nbase_err in En. congruence.
Qed.

(** ** Gates of the right size *)
Section Right.
Variable dims : list nat.
Hypothesis Hdims : forall d, In d dims -> 2 <= d.
Notation n := (length dims).

Definition exact_size (o : op) : Prop :=
  match verdict_of o with Raises _ => True | Sized r c => r = csize dims o /\ c = csize dims o end.

Lemma right_issue : forall (c : circuit) k g, shaped dims c -> issues c k g -> right_size dims k -> occupies n g <> [] -> exact_size g.
Proof.
  intros c k g Hs Hi Hk Ho. unfold exact_size. pose proof (agrees_issue Hdims Hs Hi Ho) as A. unfold agrees in A.
  destruct (verdict_of g) as [e|r cc]; [exact Logic.I|]. destruct A as [m [Em [<- <-]]].
  assert (B : fits dims g /\ fills dims g).
  { destruct Hi as [q dm d V D|q dm p d V D|q dm d V D|a p a0 a1 A0 A1|cs t p ds acting u Hm|q dm d u V D|l dm ds u V D].
    - assert (X : issues c (CH q dm) (OH q d)) by (constructor; assumption).
      split; [eapply issue_fits; eauto; exact Logic.I | eapply issue_fills; eauto].
    - assert (X : issues c (CX q dm p) (OX q d p)) by (constructor; assumption).
      split; [eapply issue_fits; eauto; exact Logic.I | eapply issue_fills; eauto].
    - assert (X : issues c (CZ q dm) (OZ q d)) by (constructor; assumption).
      split; [eapply issue_fits; eauto; exact Logic.I | eapply issue_fills; eauto].
    - split; intros m' Hm'; destruct (cx_exact L Hdims Hs A0 A1 eq_refl Ho Hm') as [X Y]; rewrite <- X, Y; auto.
    - split; intros m' Hm'; destruct (tof_exact Hdims Hs Hm Hk Hm') as [X Y]; rewrite <- X, Y; auto.
    - assert (X : issues c (CGate u (RInt q) dm) (OArb (RInt q) (RInt d) u)) by (constructor; assumption).
      split; [eapply issue_fits; eauto; exact Logic.I | eapply issue_fills; eauto].
    - destruct Hk as [Hk1 Hk2]. split.
      + eapply list_fits; eauto. intros H3. destruct (Hk2 H3) as [-> ->]. auto.
      + eapply list_fills; eauto. intros H3. destruct (Hk2 H3) as [-> ->]. auto. }
  destruct B as [B1 B2]. destruct (B1 m Em) as [B3 B4]. destruct (B2 m Em) as [_ B5]. lia.
Qed.

Lemma exact_layer : forall l, tiles n l -> Forall exact_size l ->
  match first_some (@raises S) l with
  | Some e => layer_verdict l = Raises e
  | None => layer_verdict l = Sized (prodn dims) (prodn dims)
  end.
Proof.
  intros l Ht HF. rewrite <- (@csize_layer S dims l Ht). clear Ht. unfold layer_verdict.
  induction HF as [|o l Ho HF IH]; [reflexivity|]. cbn [first_some map in_order]. unfold raises at 1. unfold exact_size in Ho.
  destruct (verdict_of o) as [e|r c]; [reflexivity|]. destruct Ho as [-> ->].
  destruct (first_some (@raises S) l) as [e|]; rewrite IH; [reflexivity|]. rewrite prodn_cons. reflexivity.
Qed.

Lemma exact_flow : forall ls, Forall (tiles n) ls -> Forall (Forall exact_size) ls -> forall l0,
  layer_verdict l0 = Sized (prodn dims) 1 ->
  failing None (ls ++ [l0]) = first_some (@raises S) (concat ls) /\ failing (Some (prodn dims)) (ls ++ [l0]) = first_some (@raises S) (concat ls).
Proof.
  intros ls HT HF l0 H0. induction ls as [|l ls IH].
  - cbn. rewrite H0, Nat.eqb_refl. auto.
  - inversion HT as [|? ? T1 T2]; subst. inversion HF as [|? ? F1 F2]; subst. destruct (IH T2 F2) as [_ I2].
    assert (E : forall A B (f : A -> option B) a b, first_some f (a ++ b) = match first_some f a with Some y => Some y | None => first_some f b end).
    { clear. intros A B f a b. induction a as [|x a IH]; [reflexivity|]. cbn [app first_some]. destruct (f x); [reflexivity | exact IH]. }
    cbn [app failing concat]. rewrite E. pose proof (@exact_layer l T1 F1) as X.
    destruct (first_some (@raises S) l) as [e|]; rewrite X; [auto|]. rewrite Nat.eqb_refl. auto.
Qed.
End Right.

Lemma init_verdict : forall dims (l0 : list op), Forall (@init_rows S dims) l0 -> Forall (@column S) l0 ->
  map (@qreg_of S) l0 = map Z.of_nat (seq 0 (length dims)) -> layer_verdict l0 = Sized (prodn dims) 1.
Proof.
  intros dims l0 HF HC Hq. unfold layer_verdict.
  transitivity (Sized (prodn (map (fun q => nth (Z.to_nat q) dims 0) (map (@qreg_of S) l0))) 1).
  - clear Hq. induction l0 as [|o l0 IH]; [reflexivity|]. inversion HF; subst. inversion HC; subst. cbn [map in_order].
    destruct o; try contradiction. cbn [verdict_of]. rewrite IH by assumption. rewrite prodn_cons. cbn in H1, H3. rewrite H1, H3. reflexivity.
  - rewrite Hq, map_map. do 2 f_equal. rewrite <- (map_nth_seq dims 0) at 2. apply map_ext. intros i. rewrite Nat2Z.id. reflexivity.
Qed.

Theorem run_right : forall dims init out ty me ks (c : circuit),
  history (QList (map Z.of_nat dims)) init out ks c -> dims <> [] -> Forall (right_size dims) ks -> wants dims out ty me ->
  match first_some (@raises S) (concat (rev (layers_of c))) with
  | Some e => run NB (after c [CMeasureAll]) = Err e
  | None => exists l, run NB (after c [CMeasureAll]) = Ok l
  end.
Proof.
  intros dims init out ty me ks c H Hne Hk Hw.
  assert (Hm : ~ In CMeasureAll ks).
  { intros Hin. rewrite Forall_forall in Hk. exact (Hk _ Hin). }
  pose proof (run_verdict H Hne Hm Hw) as HR.
  assert (Hdims : forall d, In d dims -> 2 <= d).
  { intros x Hx. assert (2 <= Z.of_nat x)%Z; [|lia]. apply (history_dims2 H). apply in_map. exact Hx. }
  pose proof (hl_shaped dims H) as Hs.
  destruct (@history_full S (right_size dims) _ _ _ _ _ H Hk) as [l0 [ls [I HF]]].
  rewrite (hl_nregs dims) in I.
  replace ((0 <? length dims) && existsb (@is_measure_all S) ks) with false in I.
  2:{ symmetry. destruct (existsb _ ks) eqn:E; [|apply andb_false_r]. apply measured_in in E. contradiction. }
  pose proof (i_list I) as El. unfold layers in El. fold (layers_of c) in El. rewrite app_nil_r in El. rewrite El in *.
  assert (V0 : layer_verdict l0 = Sized (prodn dims) 1).
  { destruct H as [c0 [E0 EE]]. destruct (inv_new _ _ _ E0) as [l0' I0].
    assert (El0 : l0' = l0).
    { destruct (after_inv ks I0) as [ls' I2]. rewrite <- EE in I2. pose proof (i_list I) as A1. pose proof (i_list I2) as A2. congruence. }
    subst l0'. apply init_verdict; [eapply first_rows; [exact E0 | exact I0] | eapply first_column; [exact E0 | exact I0] | apply (i_m0 I)]. }
  assert (HT := i_tile I).
  assert (HE : Forall (Forall (exact_size dims)) ls).
  { apply Forall_forall. intros l Hl. apply Forall_forall. intros o Ho.
    assert (Hocc : occupies (length dims) o <> []) by exact (proj2 (proj1 (Forall_forall _ _) HT l Hl) o Ho).
    destruct (HF o ltac:(apply in_concat; eauto)) as [[i [Hi ->]]|[k [Hk' Hi]]].
    - unfold exact_size, idop. cbn [verdict_of].
      rewrite (i_dims I) in Hi. unfold csize.
      rewrite (@occupies_single S (length dims) _ i); [|reflexivity | exact Hi].
      cbn [map]. rewrite prodn_cons. rewrite (sh_dims Hs), GateTof.nth_map_Z, Nat2Z.id. unfold prodn; simpl. lia.
    - eapply right_issue; eassumption. }
  assert (HT' : Forall (tiles (length dims)) (rev ls)) by (apply Forall_rev; exact HT).
  assert (HE' : Forall (Forall (exact_size dims)) (rev ls)) by (apply Forall_rev; exact HE).
  cbn [rev] in HR |- *. destruct (@exact_flow dims (rev ls) HT' HE' l0 V0) as [EF _]. rewrite EF in HR.
  rewrite concat_app. cbn [concat].
  assert (E : forall A B (f : A -> option B) a b, first_some f (a ++ b) = match first_some f a with Some y => Some y | None => first_some f b end).
  { clear. intros A B f a b. induction a as [|x a IH]; [reflexivity|]. cbn [app first_some]. destruct (f x); [reflexivity | exact IH]. }
  rewrite E. destruct (first_some (@raises S) (concat (rev ls))) as [e|] eqn:Efs; [exact HR|].
  replace (first_some (@raises S) (l0 ++ [])) with (@None exn).
  - apply HR.
    assert (Hl : forall l, In l ls -> rows_of (layer_verdict l) = prodn dims).
    { intros l Hl. pose proof (@exact_layer dims l (proj1 (Forall_forall _ _) HT l Hl) (proj1 (Forall_forall _ _) HE l Hl)) as X.
      destruct (first_some (@raises S) l) as [e|] eqn:E1; [|rewrite X; reflexivity]. exfalso.
      assert (Hin : In l (rev ls)) by (apply in_rev; rewrite rev_involutive; exact Hl).
      clear - Efs Hin E1 E. induction (rev ls) as [|a b IH]; [contradiction|]. cbn [concat] in Efs. rewrite E in Efs.
      destruct Hin as [->|Hin]; [rewrite E1 in Efs; discriminate|]. destruct (first_some _ a); [discriminate | auto]. }
    destruct ls as [|l1 ls].
    + cbn [last]. rewrite V0. cbn [rows_of]. lia.
    + change (last (l0 :: l1 :: ls) []) with (last (l1 :: ls) []). rewrite Hl; [lia|].
      destruct (@exists_last _ (l1 :: ls)) as [a [x ->]]; [discriminate|]. rewrite last_last. apply in_or_app. right; left; reflexivity.
  - symmetry. rewrite app_nil_r. pose proof (proj1 (i_m0 I)) as X. clear - X. induction l0 as [|o l0 IH]; [reflexivity|].
    cbn [forallb] in X. apply andb_true_iff in X as [X1 X2]. cbn [first_some]. destruct o; try discriminate. cbn. auto.
Qed.
End RaiseLib.
