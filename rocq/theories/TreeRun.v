(** * TreeRun: what the gates of the tree decomposition do to the levels of
    the nodes. *)
From Verif Require Import Py Scalar Mat Utils Gates Circuit Spec Lib Tree TreeLib TreeMap.
Set Implicit Arguments.
Open Scope Z_scope.
Ltac Zify.zify_post_hook ::= Z.div_mod_to_equations.

Definition sgn (g : tgate) : Z := match g_sign g with Minus => -1 | _ => 1 end.

Section Nodes.
Variable c : Z.
Variable b : Z -> nat.
Hypothesis Hc : 2 <= c.
Hypothesis Hb : forall v, 1 <= v <= c -> (b v < 2)%nat.

(** Dimension of a node. *)
Definition int (v : Z) : bool := 2 * v <=? c.
Definition rgt (v : Z) : bool := Z.odd v && negb (v =? 1).
Definition nd (v : Z) : nat := if v =? c + 1 then 2%nat else (2 + Nat.b2n (int v) + Nat.b2n (rgt v))%nat.

(** A cx between nodes. *)
Definition nmove (ct tg p : Z) (f : Z -> nat) : Z -> nat :=
  if Nat.eqb (f ct + 1) (nd ct) then fun v => if v =? tg then shift (nd tg) (f tg) p else f v else f.
Definition nrun (gs : list tgate) (f : Z -> nat) : Z -> nat :=
  fold_left (fun f g => nmove (g_control g) (g_target g) (sgn g) f) gs f.
Definition feq (f g : Z -> nat) : Prop := forall v, f v = g v.

Lemma nmove_feq : forall ct tg p f g, feq f g -> feq (nmove ct tg p f) (nmove ct tg p g).
Proof.
  intros ct tg p f g H v. unfold nmove. rewrite <- (H ct). destruct (Nat.eqb (f ct + 1) (nd ct)); [|apply H].
  rewrite <- (H tg), <- (H v). reflexivity.
Qed.

Lemma nrun_feq : forall gs f g, feq f g -> feq (nrun gs f) (nrun gs g).
Proof.
  induction gs as [|x gs IH]; intros f g H; [exact H|]. unfold nrun. cbn [fold_left].
  apply IH. apply nmove_feq. exact H.
Qed.

Lemma nrun_app : forall l m f, nrun (l ++ m) f = nrun m (nrun l f).
Proof. intros l m f. unfold nrun. apply fold_left_app. Qed.

Lemma shift_back : forall d x, (x < d)%nat -> shift d (shift d x 1) (-1) = x.
Proof.
  intros d x H. unfold shift. assert (0 < Z.of_nat d) by lia.
  rewrite Z2Nat.id by (apply Z.mod_pos_bound; lia). rewrite Zplus_mod_idemp_l.
  rewrite Z.mod_small by lia. lia.
Qed.

Lemma shift_up : forall d x, (x + 1 < d)%nat -> shift d x 1 = (x + 1)%nat.
Proof. intros d x H. unfold shift. rewrite Z.mod_small by lia. lia. Qed.

Lemma nmove_back : forall ct tg f, ct <> tg -> (f tg < nd tg)%nat ->
  feq (nmove ct tg (-1) (nmove ct tg 1 f)) f.
Proof.
  intros ct tg f Hn Hl v. unfold nmove. destruct (Nat.eqb (f ct + 1) (nd ct)) eqn:E.
  - rewrite (proj2 (Z.eqb_neq ct tg)) by exact Hn. rewrite E. rewrite Z.eqb_refl. rewrite shift_back by exact Hl.
    destruct (Z.eqb_spec v tg); congruence.
  - rewrite E. reflexivity.
Qed.

(** All the bits below [v], and [v] itself, are 1. *)
Definition F : nat := Z.to_nat (c + 1).
Definition A (v : Z) : bool := forallb (fun u => Nat.eqb (b u) 1) (generate_inorder F c v).
Definition off1 (v : Z) : nat := if int v then Nat.b2n (A (v * 2) && A (v * 2 + 1)) else 0%nat.
Definition off2 (v : Z) : nat := if rgt v then Nat.b2n (A (v - 1)) else 0%nat.

(** The level of node [v] after the decompositions at the nodes in [P]. *)
Definition val (P : Z -> bool) (x : nat) (v : Z) : nat :=
  if v =? c + 1 then x
  else (b v + (if P v then off1 v else 0) + (if P (v / 2)%Z then off2 v else 0))%nat.

Lemma A_unfold : forall v, 1 <= v <= c -> A v = A (v * 2) && Nat.eqb (b v) 1 && A (v * 2 + 1).
Proof.
  intros v Hv. unfold A. rewrite (@gi_unfold c F v) by (unfold F; lia).
  rewrite !forallb_app. simpl. rewrite andb_true_r, andb_assoc. reflexivity.
Qed.

Lemma A_out : forall v, c < v -> A v = true.
Proof. intros v Hv. unfold A. rewrite (@gi_empty c F v Hv). reflexivity. Qed.

Lemma b2n_le : forall x, (Nat.b2n x <= 1)%nat.
Proof. destruct x; simpl; lia. Qed.

Lemma off1_le : forall v, (off1 v <= Nat.b2n (int v))%nat.
Proof. intros v. unfold off1. destruct (int v); simpl; [apply b2n_le | lia]. Qed.
Lemma off2_le : forall v, (off2 v <= Nat.b2n (rgt v))%nat.
Proof. intros v. unfold off2. destruct (rgt v); simpl; [apply b2n_le | lia]. Qed.

Lemma val_lt : forall P x v, 1 <= v <= c -> (val P x v < nd v)%nat.
Proof.
  intros P x v Hv. unfold val, nd. rewrite (proj2 (Z.eqb_neq v (c + 1))) by lia.
  pose proof (Hb Hv). pose proof (off1_le v). pose proof (off2_le v). destruct (P v), (P (v / 2)); lia.
Qed.

Lemma val_ext : forall P Q x, (forall v, P v = Q v) -> feq (val P x) (val Q x).
Proof. intros P Q x H v. unfold val. rewrite <- !H. reflexivity. Qed.

(** A decomposition may be done at [v]: not done yet, nor at the parent, and
    done at the children. *)
Definition ready (P : Z -> bool) (v : Z) : Prop :=
  1 <= v /\ int v = true /\ P v = false /\ P (v / 2) = false /\
  (int (v * 2) = true -> P (v * 2) = true) /\ (int (v * 2 + 1) = true -> P (v * 2 + 1) = true).

Definition with_node (P : Z -> bool) (v : Z) : Z -> bool := fun u => P u || (u =? v).

Lemma top_child : forall v P x, 1 <= v <= c -> (int v = true -> P v = true) -> P (v / 2) = false ->
  val P x v = (b v + off1 v)%nat.
Proof.
  intros v P x Hv H1 H2. unfold val. rewrite (proj2 (Z.eqb_neq v (c + 1))) by lia. rewrite H2.
  destruct (int v) eqn:E; [rewrite H1 by reflexivity; lia|].
  unfold off1. rewrite E. destruct (P v); lia.
Qed.

Lemma full_node : forall v k, 1 <= v <= c ->
  Nat.eqb (b v + off1 v + k) (1 + Nat.b2n (int v) + k) = A v.
Proof.
  intros v k Hv. rewrite (A_unfold Hv). pose proof (Hb Hv). unfold off1. destruct (int v) eqn:E.
  - destruct (A (v * 2)), (A (v * 2 + 1)); simpl; destruct (b v) as [|[|]]; simpl; try lia; rewrite ?Nat.add_0_r;
      try (apply Nat.eqb_neq; lia); apply Nat.eqb_eq; lia.
  - unfold int in E. apply Z.leb_gt in E. rewrite !A_out by lia. simpl. rewrite andb_true_r.
    destruct (b v) as [|[|]]; simpl; try lia; [apply Nat.eqb_neq; lia | apply Nat.eqb_eq; lia].
Qed.

Lemma int_le : forall v, int v = true -> 2 * v <= c.
Proof. intros v H. apply Z.leb_le. exact H. Qed.

Lemma odd_right : forall v, 1 <= v -> rgt (v * 2 + 1) = true /\ rgt (v * 2) = false.
Proof.
  intros v Hv. unfold rgt. rewrite Z.odd_add, Z.odd_mul. change (Z.odd 2) with false. change (Z.odd 1) with true.
  rewrite andb_false_r. simpl. split; [|reflexivity]. rewrite (proj2 (Z.eqb_neq (v * 2 + 1) 1)) by lia. reflexivity.
Qed.

Definition gg (ct tg : Z) (f : Z -> nat) : Z -> nat := nmove ct tg 1 f.

Lemma dec_gates : forall v, int v = true -> 1 <= v ->
  map (fun g => (g_control g, g_target g, sgn g)) (decomp_gates (dec c v)) =
  if v * 2 + 1 >? c then [(v * 2, v, 1)] else [(v * 2, v * 2 + 1, 1); (v * 2 + 1, v, 1)].
Proof.
  intros v Hv H1. apply int_le in Hv. unfold dec. rewrite !Z.gtb_ltb.
  destruct (Z.ltb_spec (gp c) v) as [H|H].
  - destruct (Z.ltb_spec c (v * 2 + 1)); reflexivity.
  - rewrite (proj2 (Z.ltb_ge c (v * 2 + 1))) by (unfold gp in H; lia). destruct (v =? gp c); reflexivity.
Qed.

Definition nrun3 (l : list (Z * Z * Z)) (f : Z -> nat) : Z -> nat :=
  fold_left (fun f '(ct, tg, p) => nmove ct tg p f) l f.

Lemma nrun_nrun3 : forall gs f, nrun gs f = nrun3 (map (fun g => (g_control g, g_target g, sgn g)) gs) f.
Proof. induction gs as [|g gs IH]; intros f; [reflexivity|]. unfold nrun, nrun3 in *. cbn [map fold_left]. apply IH. Qed.

Lemma step_forward : forall P x v, ready P v ->
  feq (nrun (decomp_gates (dec c v)) (val P x)) (val (with_node P v) x).
Proof.
  intros P x v [H1 [Hi [HPv [HPp [HPl HPr]]]]] u. rewrite nrun_nrun3, dec_gates by assumption.
  pose proof (int_le _ Hi) as Hle. pose proof (odd_right H1) as [Or Ol].
  assert (Fl : val P x (v * 2) = (b (v * 2) + off1 (v * 2))%nat).
  { apply top_child; [lia | exact HPl |]. replace (v * 2 / 2) with v by lia. exact HPv. }
  assert (Fv : val P x v = b v).
  { unfold val. rewrite HPv, HPp. rewrite (proj2 (Z.eqb_neq v (c + 1))) by lia. lia. }
  assert (Dl : nd (v * 2) = (2 + Nat.b2n (int (v * 2)))%nat).
  { unfold nd. rewrite (proj2 (Z.eqb_neq (v * 2) (c + 1))) by lia. rewrite Ol. simpl. lia. }
  assert (Dv : (3 <= nd v)%nat).
  { unfold nd. rewrite (proj2 (Z.eqb_neq v (c + 1))) by lia. rewrite Hi. simpl. lia. }
  assert (Tl : Nat.eqb (val P x (v * 2) + 1) (nd (v * 2)) = A (v * 2)).
  { rewrite Fl, Dl. rewrite <- (@full_node (v * 2) 1) by lia. f_equal. lia. }
  pose proof (Hb (v := v) ltac:(lia)) as Bv.
  assert (O1 : off1 v = Nat.b2n (A (v * 2) && A (v * 2 + 1))) by (unfold off1; rewrite Hi; reflexivity).
  (* the new values, node by node *)
  assert (W : val (with_node P v) x u =
    if u =? v then (b v + off1 v)%nat
    else if (u =? v * 2 + 1) && negb (u =? c + 1) then (val P x u + off2 u)%nat else val P x u).
  { unfold val, with_node. destruct (Z.eqb_spec u (c + 1)) as [Eu|Eu].
    - rewrite (proj2 (Z.eqb_neq u v)) by lia. rewrite andb_false_r. reflexivity.
    - destruct (Z.eqb_spec u v) as [->|Ev].
      + rewrite HPv, HPp. rewrite (proj2 (Z.eqb_neq (v / 2) v)) by lia. simpl. lia.
      + simpl. rewrite orb_false_r. rewrite andb_true_r. destruct (Z.eqb_spec u (v * 2 + 1)) as [->|Er].
        * replace ((v * 2 + 1) / 2) with v by lia. rewrite HPv, Z.eqb_refl. simpl. lia.
        * destruct (Z.eqb_spec (u / 2) v) as [E|E].
          -- assert (u = v * 2) by lia. subst u. rewrite E, HPv. simpl. unfold off2. rewrite Ol. lia.
          -- rewrite orb_false_r. reflexivity. }
  rewrite W. clear W. rewrite Z.gtb_ltb. destruct (Z.ltb_spec c (v * 2 + 1)) as [Hr|Hr].
  - (* one child *)
    assert (v * 2 = c) by lia. unfold nrun3. cbn [fold_left]. unfold nmove. rewrite Tl, O1, (@A_out (v * 2 + 1)) by lia.
    rewrite andb_true_r. rewrite Fv.
    assert (X : (u =? v * 2 + 1) && negb (u =? c + 1) = false).
    { replace (v * 2 + 1) with (c + 1) by lia. destruct (u =? c + 1); reflexivity. }
    rewrite X. destruct (A (v * 2)); simpl Nat.b2n.
    + destruct (Z.eqb_spec u v) as [->|]; [|reflexivity]. rewrite shift_up by lia. reflexivity.
    + destruct (Z.eqb_spec u v) as [->|]; [rewrite Fv; lia | reflexivity].
  - (* two children *)
    assert (Fr : val P x (v * 2 + 1) = (b (v * 2 + 1) + off1 (v * 2 + 1))%nat).
    { apply top_child; [lia | exact HPr |]. replace ((v * 2 + 1) / 2) with v by lia. exact HPv. }
    assert (Dr : nd (v * 2 + 1) = (3 + Nat.b2n (int (v * 2 + 1)))%nat).
    { unfold nd. rewrite (proj2 (Z.eqb_neq (v * 2 + 1) (c + 1))) by lia. rewrite Or. simpl. lia. }
    assert (O2 : off2 (v * 2 + 1) = Nat.b2n (A (v * 2))).
    { unfold off2. rewrite Or. do 2 f_equal. lia. }
    pose proof (off1_le (v * 2 + 1)) as Lr. pose proof (Hb (v := v * 2 + 1) ltac:(lia)) as Br.
    pose proof (@full_node (v * 2 + 1) 2 ltac:(lia)) as Tr. pose proof (@full_node (v * 2 + 1) 1 ltac:(lia)) as Tr1.
    unfold nrun3. cbn [fold_left]. set (f1 := nmove (v * 2) (v * 2 + 1) 1 (val P x)).
    assert (E1 : forall w, f1 w = if w =? v * 2 + 1 then (val P x w + off2 w)%nat else val P x w).
    { intros w. unfold f1, nmove. rewrite Tl. destruct (Z.eqb_spec w (v * 2 + 1)) as [->|Hw].
      - rewrite O2. destruct (A (v * 2)); simpl Nat.b2n; [|lia].
        rewrite Z.eqb_refl. apply shift_up. rewrite Fr, Dr. lia.
      - destruct (A (v * 2)); [|reflexivity]. rewrite (proj2 (Z.eqb_neq w (v * 2 + 1))) by exact Hw. reflexivity. }
    unfold nmove. rewrite !E1. rewrite Z.eqb_refl. rewrite (proj2 (Z.eqb_neq v (v * 2 + 1))) by lia.
    rewrite Fr, O2, Dr, Fv, O1.
    assert (T2 : Nat.eqb (b (v * 2 + 1) + off1 (v * 2 + 1) + Nat.b2n (A (v * 2)) + 1) (3 + Nat.b2n (int (v * 2 + 1)))
                 = A (v * 2) && A (v * 2 + 1)).
    { destruct (A (v * 2)); simpl Nat.b2n; simpl andb.
      - rewrite <- Tr. f_equal; lia.
      - apply Nat.eqb_neq. lia. }
    rewrite T2.
    assert (Y : (u =? v * 2 + 1) && negb (u =? c + 1) = (u =? v * 2 + 1)).
    { destruct (Z.eqb_spec u (v * 2 + 1)); [|reflexivity]. rewrite (proj2 (Z.eqb_neq u (c + 1))) by lia. reflexivity. }
    rewrite Y. destruct (A (v * 2) && A (v * 2 + 1)); simpl Nat.b2n.
    + destruct (Z.eqb_spec u v) as [->|]; [rewrite shift_up by lia; reflexivity | rewrite E1; reflexivity].
    + rewrite E1. destruct (Z.eqb_spec u v) as [->|]; [|reflexivity].
      rewrite (proj2 (Z.eqb_neq v (v * 2 + 1))) by lia. rewrite Fv. lia.
Qed.

(** The inverse decomposition. *)
Definition rdec (v : Z) : decomp := (option_map flip (snd (dec c v)), option_map flip (fst (dec c v))).

Lemma reflect_dec : forall v, reflect_decomp (dec c v) = Ok (rdec v).
Proof.
  intros v. unfold rdec, dec. destruct (v >? gp c); [destruct (v * 2 + 1 >? c) | destruct (v =? gp c)]; reflexivity.
Qed.

Lemma rdec_gates : forall v, int v = true -> 1 <= v ->
  map (fun g => (g_control g, g_target g, sgn g)) (decomp_gates (rdec v)) =
  if v * 2 + 1 >? c then [(v * 2, v, -1)] else [(v * 2 + 1, v, -1); (v * 2, v * 2 + 1, -1)].
Proof.
  intros v Hv H1. apply int_le in Hv. unfold rdec, dec. rewrite !Z.gtb_ltb.
  destruct (Z.ltb_spec (gp c) v) as [H|H].
  - destruct (Z.ltb_spec c (v * 2 + 1)); reflexivity.
  - rewrite (proj2 (Z.ltb_ge c (v * 2 + 1))) by (unfold gp in H; lia). destruct (v =? gp c); reflexivity.
Qed.

Lemma feq_trans : forall f g h, feq f g -> feq g h -> feq f h.
Proof. intros f g h H1 H2 v. rewrite H1. apply H2. Qed.
Lemma feq_sym : forall f g, feq f g -> feq g f.
Proof. intros f g H v. symmetry. apply H. Qed.

Lemma step_backward : forall P x v, ready P v ->
  feq (nrun (decomp_gates (rdec v)) (val (with_node P v) x)) (val P x).
Proof.
  intros P x v HR. eapply feq_trans; [apply nrun_feq; apply feq_sym; apply step_forward; exact HR|].
  destruct HR as [H1 [Hi _]]. pose proof (int_le _ Hi) as Hle.
  rewrite !nrun_nrun3, dec_gates, rdec_gates by assumption. rewrite Z.gtb_ltb.
  destruct (Z.ltb_spec c (v * 2 + 1)) as [Hr|Hr]; unfold nrun3; cbn [fold_left].
  - apply nmove_back; [lia | apply val_lt; lia].
  - eapply feq_trans; [apply nmove_feq; apply nmove_back|].
    + lia.
    + unfold nmove. destruct (Nat.eqb _ _); [|apply val_lt; lia].
      rewrite (proj2 (Z.eqb_neq v (v * 2 + 1))) by lia. apply val_lt; lia.
    + apply nmove_back; [lia | apply val_lt; lia].
Qed.

(** ** Levels *)
Variable D : Z.
Hypothesis HD : Z.log2 c <= D.
Notation idx := (idx c D).

Lemma child_first : forall v w, 1 <= v -> w = v * 2 \/ w = v * 2 + 1 -> int w = true -> idx w < idx v.
Proof.
  intros v w Hv Hw Hi. apply int_le in Hi. assert (Hg : v <= gp c) by (unfold gp; lia).
  unfold TreeLib.idx, cdn. rewrite (proj2 (Z.leb_le v (gp c))) by exact Hg.
  assert (Z.log2 w = Z.log2 v + 1).
  { destruct Hw as [-> | ->].
    - rewrite Z.mul_comm, Z.log2_double by lia. lia.
    - rewrite Z.mul_comm, Z.log2_succ_double by lia. lia. }
  destruct (Z.leb_spec w (gp c)); [lia|]. rewrite (proj2 (Z.eqb_neq (gp c) 0)) by lia.
  assert (Z.log2 v <= Z.log2 (gp c)) by (apply Z.log2_le_mono; exact Hg). lia.
Qed.

Lemma parent_later : forall v, 2 <= v -> int v = true -> idx v < idx (v / 2).
Proof.
  intros v Hv Hi. apply child_first; [lia | lia | exact Hi].
Qed.

Definition joined (P : Z -> bool) (l : list Z) : Z -> bool := fun u => P u || zmem u l.

Lemma zmem_in : forall x l, zmem x l = true <-> In x l.
Proof.
  intros x l. unfold zmem. rewrite existsb_exists. split.
  - intros [y [H E]]. apply Z.eqb_eq in E. subst. exact H.
  - intros H. exists x. split; [exact H | apply Z.eqb_refl].
Qed.

(** The nodes done while level [i] is processed. *)
Definition between (i : Z) (P : Z -> bool) : Prop :=
  (forall u, P u = true -> 1 <= u /\ int u = true /\ idx u <= i) /\
  (forall u, 1 <= u -> int u = true -> idx u < i -> P u = true).

Lemma between_ready : forall i P v, between i P -> 1 <= v -> int v = true -> idx v = i -> P v = false -> ready P v.
Proof.
  intros i P v [B1 B2] Hv Hi Hx HP. unfold ready. repeat (split; [assumption|]). split; [|split].
  - destruct (P (v / 2)) eqn:E; [|reflexivity]. exfalso. apply B1 in E as [E1 [E2 E3]].
    destruct (Z.eq_dec v 1) as [->|]; [change (1 / 2) with 0 in E1; lia|].
    pose proof (@parent_later v ltac:(lia) Hi). lia.
  - intros H. apply B2; [lia | exact H |]. pose proof (@child_first v (v * 2) Hv (or_introl eq_refl) H). lia.
  - intros H. apply B2; [lia | exact H |]. pose proof (@child_first v (v * 2 + 1) Hv (or_intror eq_refl) H). lia.
Qed.

Lemma between_add : forall i P v, between i P -> 1 <= v -> int v = true -> idx v = i -> between i (with_node P v).
Proof.
  intros i P v [B1 B2] Hv Hi Hx. split.
  - intros u H. unfold with_node in H. apply orb_true_iff in H as [H|H]; [apply B1; exact H|].
    apply Z.eqb_eq in H. subst. repeat split; auto; lia.
  - intros u H1 H2 H3. unfold with_node. rewrite B2 by assumption. reflexivity.
Qed.

Lemma joined_cons : forall P v l u, joined (with_node P v) l u = joined P (v :: l) u.
Proof. intros P v l u. unfold joined, with_node, zmem. simpl. rewrite orb_assoc. reflexivity. Qed.

Lemma level_forward : forall i x l P, between i P -> NoDup l ->
  (forall v, In v l -> 1 <= v /\ int v = true /\ idx v = i /\ P v = false) ->
  feq (nrun (flat_map (fun v => decomp_gates (dec c v)) l) (val P x)) (val (joined P l) x).
Proof.
  intros i x. induction l as [|v l IH]; intros P HP Hn Hl.
  - apply val_ext. intros u. unfold joined. simpl. rewrite orb_false_r. reflexivity.
  - cbn [flat_map]. rewrite nrun_app. destruct (Hl v (or_introl eq_refl)) as [V1 [V2 [V3 V4]]]. inversion Hn; subst.
    eapply feq_trans; [apply nrun_feq; apply step_forward; apply between_ready with (idx v); auto|].
    eapply feq_trans; [apply IH|].
    + apply between_add; auto.
    + assumption.
    + intros w Hw. destruct (Hl w (or_intror Hw)) as [W1 [W2 [W3 W4]]]. repeat split; auto.
      unfold with_node. rewrite W4. simpl. apply Z.eqb_neq. intros ->. contradiction.
    + apply val_ext. intros u. apply joined_cons.
Qed.

Lemma level_backward : forall i x l P, between i P -> NoDup l ->
  (forall v, In v l -> 1 <= v /\ int v = true /\ idx v = i /\ P v = false) ->
  feq (nrun (flat_map (fun v => decomp_gates (rdec v)) l) (val (joined P l) x)) (val P x).
Proof.
  intros i x. induction l as [|v l IH]; intros P HP Hn Hl.
  - apply val_ext. intros u. unfold joined. simpl. rewrite orb_false_r. reflexivity.
  - cbn [flat_map]. rewrite nrun_app. destruct (Hl v (or_introl eq_refl)) as [V1 [V2 [V3 V4]]]. inversion Hn; subst.
    assert (HB : between (idx v) (joined P l)).
    { destruct HP as [B1 B2]. split.
      - intros u H. unfold joined in H. apply orb_true_iff in H as [H|H]; [apply B1; exact H|].
        apply zmem_in in H. destruct (Hl u (or_intror H)) as [W1 [W2 [W3 W4]]]. repeat split; auto. lia.
      - intros u U1 U2 U3. unfold joined. rewrite B2 by assumption. reflexivity. }
    eapply feq_trans; [apply nrun_feq|].
    + eapply feq_trans; [apply nrun_feq; apply val_ext with (Q := with_node (joined P l) v)|].
      * intros u. unfold joined, with_node, zmem. simpl.
        rewrite <- orb_assoc. f_equal. apply orb_comm.
      * apply step_backward. apply between_ready with (idx v); auto.
        unfold joined. rewrite V4. simpl. destruct (zmem v l) eqn:E; [|reflexivity]. apply zmem_in in E. contradiction.
    + apply IH; auto. intros w Hw. apply Hl. right. exact Hw.
Qed.

(** The nodes of level [i], and the nodes done before it. *)
Definition lev (i : Z) : list Z := filter (fun v => idx v =? i) (zrange 1 (hb c + 1)).
Definition upto (i : Z) : Z -> bool := fun u => (1 <=? u) && int u && (idx u <? i).

Lemma in_lev : forall i v, In v (lev i) <-> 1 <= v /\ int v = true /\ idx v = i.
Proof.
  clear Hb b. intros i v. unfold lev. rewrite filter_In, in_zrange, Z.eqb_eq. unfold int, hb. rewrite Z.leb_le. lia.
Qed.

Lemma between_upto : forall i, between i (upto i).
Proof.
  intros i. unfold upto. split.
  - intros u H. apply andb_true_iff in H as [H H3]. apply andb_true_iff in H as [H1 H2].
    apply Z.leb_le in H1. apply Z.ltb_lt in H3. repeat split; auto; lia.
  - intros u H1 H2 H3. rewrite H2, (proj2 (Z.leb_le 1 u)), (proj2 (Z.ltb_lt _ _)) by assumption. reflexivity.
Qed.

Lemma lev_fresh : forall i v, In v (lev i) -> 1 <= v /\ int v = true /\ idx v = i /\ upto i v = false.
Proof.
  intros i v H. apply in_lev in H as [H1 [H2 H3]]. repeat split; auto. unfold upto.
  rewrite H3, Z.ltb_irrefl, andb_false_r. reflexivity.
Qed.

Lemma upto_next : forall i u, joined (upto i) (lev i) u = upto (i + 1) u.
Proof.
  intros i u. unfold joined. destruct (zmem u (lev i)) eqn:E.
  - apply zmem_in, in_lev in E as [H1 [H2 H3]]. rewrite orb_true_r. unfold upto.
    rewrite H2, (proj2 (Z.leb_le 1 u)), (proj2 (Z.ltb_lt _ _)) by lia. reflexivity.
  - rewrite orb_false_r. unfold upto. destruct (Z.leb_spec 1 u) as [H1|]; [|reflexivity]. destruct (int u) eqn:H2; [|reflexivity].
    simpl. destruct (Z.ltb_spec (idx u) i); destruct (Z.ltb_spec (idx u) (i + 1)); try reflexivity; try lia.
    exfalso. assert (K : In u (lev i)) by (apply in_lev; repeat split; auto; lia). apply zmem_in in K. congruence.
Qed.

Lemma NoDup_lev : forall i, NoDup (lev i).
Proof. intros i. apply NoDup_filter, NoDup_zrange. Qed.

Definition gates_of (l : list Z) : list tgate := flat_map (fun v => decomp_gates (dec c v)) l.
Definition rgates_of (l : list Z) : list tgate := flat_map (fun v => decomp_gates (rdec v)) l.

Lemma levels_forward : forall x k, feq (nrun (flat_map (fun i => gates_of (lev i)) (zrange 0 (Z.of_nat k))) (val (upto 0) x))
                                       (val (upto (Z.of_nat k)) x).
Proof.
  intros x. induction k as [|k IH]; [intros u; reflexivity|].
  replace (Z.of_nat (S k)) with (Z.of_nat k + 1) by lia. rewrite zrange_last by lia. rewrite flat_map_app, nrun_app.
  eapply feq_trans; [apply nrun_feq; exact IH|]. cbn [flat_map]. rewrite app_nil_r. unfold gates_of.
  eapply feq_trans; [apply level_forward with (i := Z.of_nat k)|].
  - apply between_upto.
  - apply NoDup_lev.
  - apply lev_fresh.
  - apply val_ext. apply upto_next.
Qed.

Lemma levels_backward : forall x k, feq (nrun (flat_map (fun i => rgates_of (lev i)) (rev (zrange 0 (Z.of_nat k)))) (val (upto (Z.of_nat k)) x))
                                        (val (upto 0) x).
Proof.
  intros x. induction k as [|k IH]; [intros u; reflexivity|].
  replace (Z.of_nat (S k)) with (Z.of_nat k + 1) by lia. rewrite zrange_last by lia.
  rewrite rev_app_distr. cbn [rev app flat_map]. rewrite nrun_app.
  eapply feq_trans; [apply nrun_feq|exact IH].
  eapply feq_trans; [apply nrun_feq; apply val_ext; intros u; symmetry; apply upto_next|].
  unfold rgates_of. apply level_backward with (i := Z.of_nat k).
  - apply between_upto.
  - apply NoDup_lev.
  - apply lev_fresh.
Qed.

(** ** The whole sequence of gates *)
Definition the_levels : list (list decomp) := map (fun i => map (dec c) (lev i)) (zrange 0 D).
Definition the_reflection : list (list decomp) := map (fun i => map rdec (lev i)) (rev (zrange 0 D)).

Lemma reflection_ok : get_reflection the_levels = Ok the_reflection.
Proof.
  unfold get_reflection, the_levels, the_reflection. rewrite <- map_rev.
  rewrite mapM_map. rewrite (@mapM_ok _ _ _ (fun i => map rdec (lev i))); [reflexivity|].
  intros i _. rewrite mapM_map. apply mapM_ok. intros v _. apply reflect_dec.
Qed.

Definition final_levels : list (list decomp) := the_levels ++ [[(Some (main_gate (c + 1)), None)]] ++ the_reflection.

Lemma all_gates_app : forall l m, all_gates (l ++ m) = all_gates l ++ all_gates m.
Proof. intros l m. unfold all_gates. apply flat_map_app. Qed.

Lemma all_gates_levels : forall (f : Z -> decomp) l, all_gates (map (fun i => map f (lev i)) l)
  = flat_map (fun i => flat_map (fun v => decomp_gates (f v)) (lev i)) l.
Proof.
  intros f l. unfold all_gates. rewrite Lib.flat_map_map. apply flat_map_ext. intros i. apply Lib.flat_map_map.
Qed.

Lemma whole : forall x, (x < 2)%nat ->
  feq (nrun (all_gates final_levels) (fun v => if v =? c + 1 then x else b v))
      (fun v => if v =? c + 1 then (if A 1 then 1 - x else x)%nat else b v).
Proof.
  intros x Hx. unfold final_levels. rewrite !all_gates_app, !nrun_app.
  unfold the_levels, the_reflection. rewrite !all_gates_levels.
  pose proof (D_pos Hc HD) as HDp.
  assert (E0 : forall y, feq (val (upto 0) y) (fun v => if v =? c + 1 then y else b v)).
  { intros y v. unfold val. destruct (v =? c + 1); [reflexivity|].
    assert (K : forall u, upto 0 u = false).
    { intros u. unfold upto. destruct (Z.leb_spec 1 u); [|reflexivity]. destruct (int u) eqn:Hu; [|reflexivity].
      simpl. apply Z.ltb_ge. pose proof (@idx_range c D Hc HD u ltac:(lia)). lia. }
    rewrite !K. lia. }
  pose proof (levels_forward x (Z.to_nat D)) as HF. rewrite Z2Nat.id in HF by lia.
  assert (H1 : feq (nrun (flat_map (fun i => flat_map (fun v => decomp_gates (dec c v)) (lev i)) (zrange 0 D))
                         (fun v => if v =? c + 1 then x else b v)) (val (upto D) x)).
  { eapply feq_trans; [apply nrun_feq; apply feq_sym; apply E0 | exact HF]. }
  set (f1 := nrun _ (fun v => if v =? c + 1 then x else b v)) in *.
  assert (Hroot : val (upto D) x 1 = (b 1 + off1 1)%nat).
  { unfold val. rewrite (proj2 (Z.eqb_neq 1 (c + 1))) by lia.
    assert (K : upto D 1 = true).
    { unfold upto. pose proof (@idx_range c D Hc HD 1 ltac:(lia)). rewrite (proj2 (Z.ltb_lt _ _)) by lia.
      unfold int. rewrite (proj2 (Z.leb_le (2 * 1) c)) by lia. reflexivity. }
    rewrite K. unfold off2, rgt. simpl. destruct (upto D (1 / 2)); lia. }
  assert (H2 : feq (nrun (all_gates [[(Some (main_gate (c + 1)), None)]]) f1) (val (upto D) (if A 1 then 1 - x else x)%nat)).
  { eapply feq_trans; [apply nrun_feq; exact H1|]. intros v. unfold all_gates. cbn [flat_map decomp_gates fst snd opt_list app].
    unfold nrun. cbn [fold_left]. unfold nmove, sgn. cbn [main_gate g_control g_target g_sign].
    assert (T : Nat.eqb (val (upto D) x 1 + 1) (nd 1) = A 1).
    { rewrite Hroot, <- (@full_node 1 1) by lia. f_equal. unfold nd, rgt.
      rewrite (proj2 (Z.eqb_neq 1 (c + 1))) by lia. unfold int. rewrite (proj2 (Z.leb_le (2 * 1) c)) by lia. reflexivity. }
    rewrite T. destruct (A 1).
    - unfold val. rewrite Z.eqb_refl. destruct (v =? c + 1); [|reflexivity].
      unfold nd. rewrite Z.eqb_refl. destruct x as [|[|x]]; [reflexivity | reflexivity | lia].
    - unfold val. destruct (v =? c + 1); reflexivity. }
  eapply feq_trans; [apply nrun_feq; exact H2|].
  pose proof (levels_backward (if A 1 then 1 - x else x)%nat (Z.to_nat D)) as HBk. rewrite Z2Nat.id in HBk by lia.
  eapply feq_trans; [exact HBk | apply E0].
Qed.
End Nodes.
