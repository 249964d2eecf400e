(** * Commute: compatible gates commute. *)
From Coq Require String.
From Verif Require Import Py Scalar Mat Utils Gates Circuit Spec Calls Lib Kern GateMat GateTof Flow Layers Blocks Refine Run Reversible PartsSpec Parts CommuteSpec.
Set Implicit Arguments.

Section Commute.
Variable S : scalar.
Hypothesis L : scalar_laws S.
Add Ring Sring : (sl_ring L).
Infix "*s" := (@smul S) (at level 40, left associativity).
Notation gate := (gate S).
Notation kernel := (config -> config -> S).
Notation off P := (fun r => negb (P r)).

(** A kernel that changes registers in [C] only and reads those in [P]. *)
Record reads_on (dims : list nat) (C P : nat -> bool) (K : kernel) : Prop := {
  ro_sub : forall r, C r = true -> P r = true;
  ro_out : forall s t, valid dims s -> valid dims t -> ~ agree (off C) s t -> K s t = s0;
  ro_in : forall s t s' t', valid dims s -> valid dims t -> valid dims s' -> valid dims t' ->
    agree (off P) s t -> agree (off P) s' t' -> agree P s s' -> agree P t t' -> K s t = K s' t' }.

Lemma compose_shared : forall dims C1 P1 C2 P2 K1 K2 s t,
  reads_on dims C1 P1 K1 -> reads_on dims C2 P2 K2 -> (forall r, C1 r = true -> C2 r = true -> False) ->
  valid dims s -> valid dims t ->
  bsum (fun u => K1 s u *s K2 u t) (all_configs dims) = K1 s (mix C1 s t) *s K2 (mix C1 s t) t.
Proof.
  intros dims C1 P1 C2 P2 K1 K2 s t [_ O1 _] [_ O2 _] Hdis Hs Ht.
  assert (El : length s = length t) by (rewrite (valid_length Hs), (valid_length Ht); reflexivity).
  apply (@bsum_single S L _ (fun u => K1 s u *s K2 u t) (all_configs dims) (mix C1 s t)); [apply all_configs_NoDup | apply in_all_configs, mix_valid; assumption|].
  intros u Hu Hne. apply in_all_configs in Hu.
  destruct (agree_dec (off C1) Hs Hu) as [A1|A1]; [|rewrite O1 by assumption; ring].
  destruct (agree_dec (off C2) Hu Ht) as [A2|A2]; [|rewrite O2 by assumption; ring].
  exfalso. apply Hne.
  assert (Elu : length u = length s) by (rewrite (valid_length Hs), (valid_length Hu); reflexivity).
  apply level_ext.
  - unfold mix. rewrite map_length, seq_length. exact Elu.
  - intros r _. rewrite level_mix by exact El. destruct (C1 r) eqn:E1.
    + apply A2. destruct (C2 r) eqn:E2; [exfalso; eauto | reflexivity].
    + symmetry. apply A1. rewrite E1. reflexivity.
Qed.

Lemma shared_commute : forall dims C1 P1 C2 P2 K1 K2 psi s,
  reads_on dims C1 P1 K1 -> reads_on dims C2 P2 K2 ->
  (forall r, C1 r = true -> P2 r = false) -> (forall r, C2 r = true -> P1 r = false) -> valid dims s ->
  kapply S dims K1 (kapply S dims K2 psi) s = kapply S dims K2 (kapply S dims K1 psi) s.
Proof.
  intros dims C1 P1 C2 P2 K1 K2 psi s HA1 HA2 H12 H21 Hs. rewrite <- !(kapply_comp L).
  apply kapply_ext; auto. intros t Ht.
  assert (Hdis : forall r, C1 r = true -> C2 r = true -> False).
  { intros r X Y. apply H12 in X. apply (ro_sub HA2) in Y. congruence. }
  assert (Hdis' : forall r, C2 r = true -> C1 r = true -> False) by eauto.
  rewrite (compose_shared HA1 HA2 Hdis Hs Ht), (compose_shared HA2 HA1 Hdis' Hs Ht).
  assert (El : length s = length t) by (rewrite (valid_length Hs), (valid_length Ht); reflexivity).
  set (u := mix C1 s t). set (v := mix C2 s t).
  assert (Hu : valid dims u) by (apply mix_valid; assumption).
  assert (Hv : valid dims v) by (apply mix_valid; assumption).
  assert (Lu : forall r, level u r = if C1 r then level t r else level s r) by (intros r; apply level_mix; exact El).
  assert (Lv : forall r, level v r = if C2 r then level t r else level s r) by (intros r; apply level_mix; exact El).
  assert (N1 : forall r, P1 r = false -> C1 r = false).
  { intros r X. destruct (C1 r) eqn:E; [apply (ro_sub HA1) in E; congruence | reflexivity]. }
  assert (N2 : forall r, P2 r = false -> C2 r = false).
  { intros r X. destruct (C2 r) eqn:E; [apply (ro_sub HA2) in E; congruence | reflexivity]. }
  assert (M1 : forall r, P1 r = true -> C2 r = false).
  { intros r X. destruct (C2 r) eqn:E; [apply H21 in E; congruence | reflexivity]. }
  assert (M2 : forall r, P2 r = true -> C1 r = false).
  { intros r X. destruct (C1 r) eqn:E; [apply H12 in E; congruence | reflexivity]. }
  destruct (agree_dec (fun r => negb (C1 r) && negb (C2 r)) Hs Ht) as [A|A].
  - assert (A' : forall r, C1 r = false -> C2 r = false -> level s r = level t r).
    { intros r X Y. apply A. rewrite X, Y. reflexivity. }
    rewrite (ro_in HA1 (s := s) (t := u) (s' := v) (t' := t)), (ro_in HA2 (s := u) (t := t) (s' := s) (t' := v)); auto;
    try ring; intros r H; try (apply negb_true_iff in H); rewrite ?Lu, ?Lv.
    + destruct (C1 r) eqn:E; [reflexivity | apply A'; auto].
    + rewrite (N2 r H). reflexivity.
    + rewrite (M2 r H). reflexivity.
    + destruct (C2 r) eqn:E; [reflexivity|]. symmetry. apply A'; auto.
    + rewrite (N1 r H). reflexivity.
    + destruct (C2 r) eqn:E; [reflexivity | apply A'; auto].
    + rewrite (M1 r H). reflexivity.
    + destruct (C1 r) eqn:E; [reflexivity | apply A'; auto].
  - rewrite (ro_out HA2 (s := u) (t := t)), (ro_out HA1 (s := v) (t := t)); auto; [ring| |].
    + intros A'. apply A. intros r H. apply andb_true_iff in H as [H1 H2]. specialize (A' r H1).
      rewrite Lv in A'. apply negb_true_iff in H2. rewrite H2 in A'. exact A'.
    + intros A'. apply A. intros r H. apply andb_true_iff in H as [H1 H2]. specialize (A' r H2).
      rewrite Lu in A'. apply negb_true_iff in H1. rewrite H1 in A'. exact A'.
Qed.

Lemma changes_touch : forall (g : gate) r, In r (changes g) -> In r (touches g).
Proof. intros g r. destruct g; simpl; intros H; try exact H; try tauto. apply in_or_app. right. exact H. Qed.

Lemma gate_reads : forall dims (g : gate), gate_ok dims g -> reads_on dims (mem (changes g)) (mem (touches g)) (amp dims g).
Proof.
  intros dims g Hg. constructor.
  - intros r H. apply mem_spec, changes_touch, mem_spec. exact H.
  - intros s t Hs Ht HA.
    assert (X : exists r, In r (seq 0 (length dims)) /\ ~ In r (changes g) /\ level s r <> level t r).
    { destruct (existsb (fun r => negb (mem (changes g) r) && negb (level s r =? level t r)) (seq 0 (length dims))) eqn:E.
      - apply existsb_exists in E as [r [Hr E]]. apply andb_true_iff in E as [E1 E2]. exists r. split; [exact Hr|].
        apply negb_true_iff in E1, E2. split; [apply mem_false; exact E1 | apply Nat.eqb_neq; exact E2].
      - exfalso. apply HA. intros r Hr. destruct (Nat.lt_ge_cases r (length dims)) as [Hl|Hl].
        + destruct (Nat.eqb_spec (level s r) (level t r)) as [E2|E2]; [exact E2|]. exfalso.
          assert (existsb (fun r => negb (mem (changes g) r) && negb (level s r =? level t r)) (seq 0 (length dims)) = true); [|congruence].
          apply existsb_exists. exists r. split; [apply in_seq; lia|]. rewrite Hr. apply negb_true_iff, Nat.eqb_neq. exact E2.
        + unfold level. rewrite !nth_overflow; [reflexivity| |]; rewrite ?(valid_length Hs), ?(valid_length Ht); exact Hl. }
    destruct X as [r [_ [X1 X2]]]. exact (@amp_changes S dims g r s t Hg Hs Ht X1 X2).
  - destruct (@gate_acts S dims g Hg) as [_ I]. exact I.
Qed.

(** ** Increments of one register *)
Definition guard (dims : list nat) (g : gate) (s : config) : bool :=
  match g with GCX c _ _ => top dims s c | GTof cs _ _ => forallb (top dims s) cs | _ => true end.

Lemma move_guard : forall dims (g : gate) t s, reversible g -> changes g = [t] ->
  move dims g s = if guard dims g s then move_x dims t (plus_of g) s else s.
Proof. intros dims g t s Hr Hc. destruct g; simpl in *; try contradiction; injection Hc as <-; reflexivity. Qed.

Lemma guard_keep : forall dims (g : gate) t p s, reversible g -> gate_ok dims g -> changes g = [t] -> valid dims s ->
  guard dims g (move_x dims t p s) = guard dims g s.
Proof.
  intros dims g t p s Hr Hg Hc Hs.
  assert (K : forall r, t < length dims -> r <> t -> top dims (move_x dims t p s) r = top dims s r).
  { intros r H1 H2. unfold top. rewrite (@move_x_level dims t p s r) by auto. reflexivity. }
  destruct g as [r q|r|r|c r q|cs r q|r u|r k u]; simpl in *; try contradiction; injection Hc as ->; [reflexivity | |].
  - apply K; tauto.
  - apply forallb_ext_in. intros x Hx. apply K; [tauto|]. intros ->. tauto.
Qed.

Lemma shift_comm : forall d x p q, 0 < d -> shift d (shift d x p) q = shift d (shift d x q) p.
Proof.
  intros d x p q Hd. unfold shift.
  assert (E : forall a b, Z.to_nat ((Z.of_nat (Z.to_nat ((Z.of_nat x + a) mod Z.of_nat d)) + b) mod Z.of_nat d) = Z.to_nat ((Z.of_nat x + a + b) mod Z.of_nat d)).
  { intros a b. rewrite Z2Nat.id by (apply Z.mod_pos_bound; lia). rewrite Z.add_mod_idemp_l by lia. reflexivity. }
  rewrite !E. do 2 f_equal. lia.
Qed.

Lemma move_x_comm : forall dims t p q s, valid dims s -> t < length dims ->
  move_x dims t p (move_x dims t q s) = move_x dims t q (move_x dims t p s).
Proof.
  intros dims t p q s Hs Ht. unfold move_x. rewrite !level_put, Nat.eqb_refl by (rewrite (valid_length Hs); exact Ht).
  rewrite !put_put. f_equal. apply shift_comm. pose proof (valid_level Hs Ht). lia.
Qed.

Lemma target_ok : forall dims (g : gate) t, gate_ok dims g -> changes g = [t] -> t < length dims.
Proof. intros dims g t Hg Hc. destruct g as [r q|r|r|c r q|cs r q|r u|r k u]; simpl in *; try discriminate; try (injection Hc as <-; tauto).
  destruct k as [|[|k]]; try discriminate. injection Hc as <-. lia. Qed.

Lemma move_comm : forall dims (g g' : gate) s, reversible g -> reversible g' -> gate_ok dims g -> gate_ok dims g' ->
  changes g = changes g' -> valid dims s -> move dims g (move dims g' s) = move dims g' (move dims g s).
Proof.
  intros dims g g' s R R' Hg Hg' Hc Hs.
  assert (X : exists t, changes g = [t]) by (destruct g; simpl in *; try contradiction; eauto). destruct X as [t Et].
  assert (Et' : changes g' = [t]) by congruence. pose proof (@target_ok dims g t Hg Et) as Ht.
  rewrite !(@move_guard dims g t) by assumption. rewrite !(@move_guard dims g' t) by assumption.
  destruct (guard dims g' s) eqn:G'; destruct (guard dims g s) eqn:G; rewrite ?G, ?G', ?(@guard_keep dims g t), ?(@guard_keep dims g' t), ?G, ?G' by assumption; try reflexivity.
  apply move_x_comm; assumption.
Qed.

Lemma undo_changes : forall g : gate, changes (undo g) = changes g.
Proof. intros []; reflexivity. Qed.
Lemma undo_reversible : forall g : gate, reversible g -> reversible (undo g).
Proof. intros []; simpl; auto. Qed.

Lemma move_undo_comm : forall dims (g g' : gate) s, reversible g -> reversible g' -> gate_ok dims g -> gate_ok dims g' ->
  changes g = changes g' -> valid dims s -> move dims (undo g) (move dims (undo g') s) = move dims (undo g') (move dims (undo g) s).
Proof.
  intros dims g g' s R R' Hg Hg' Hc Hs.
  set (a := move dims (undo g) (move dims (undo g') s)). set (b := move dims (undo g') (move dims (undo g) s)).
  assert (V1 : valid dims (move dims (undo g') s)) by (apply undo_valid; assumption).
  assert (V2 : valid dims (move dims (undo g) s)) by (apply undo_valid; assumption).
  assert (Va : valid dims a) by (apply undo_valid; assumption). assert (Vb : valid dims b) by (apply undo_valid; assumption).
  assert (E : move dims g (move dims g' a) = move dims g (move dims g' b)).
  { rewrite (@move_comm dims g g' a R R' Hg Hg' Hc Va). unfold a, b.
    rewrite (@move_undo' S dims g _ R Hg V1), (@move_undo' S dims g' _ R' Hg' Hs).
    rewrite (@move_undo' S dims g' _ R' Hg' V2), (@move_undo' S dims g _ R Hg Hs). reflexivity. }
  apply (f_equal (move dims (undo g))) in E.
  rewrite !(@move_undo S dims g _ R Hg) in E by (apply move_valid; assumption).
  apply (f_equal (move dims (undo g'))) in E. rewrite !(@move_undo S dims g' _ R' Hg') in E by assumption. exact E.
Qed.

Lemma compatible_commute : forall dims (g g' : gate) psi s, compatible g g' -> gate_ok dims g -> gate_ok dims g' -> valid dims s ->
  apply dims g' (apply dims g psi) s = apply dims g (apply dims g' psi) s.
Proof.
  intros dims g g' psi s [[H1 H2]|[R [R' Hc]]] Hg Hg' Hs.
  - rewrite !apply_kapply.
    rewrite kapply_ext with (K' := amp dims g') (psi' := kapply S dims (amp dims g) psi); auto; [|intros v _; apply apply_kapply].
    rewrite (shared_commute psi (@gate_reads dims g' Hg') (@gate_reads dims g Hg)); [|intros r Hr|intros r Hr|exact Hs].
    + apply kapply_ext; auto. intros v _. symmetry. apply apply_kapply.
    + apply mem_false. apply H2, mem_spec. exact Hr.
    + apply mem_false. apply H1, mem_spec. exact Hr.
  - rewrite (@apply_reversible S L dims g' _ _ R' Hg' Hs), (@apply_reversible S L dims g _ _ R Hg Hs).
    rewrite (@apply_reversible S L dims g _ _ R Hg) by (apply undo_valid; assumption).
    rewrite (@apply_reversible S L dims g' _ _ R' Hg') by (apply undo_valid; assumption).
    f_equal. apply move_undo_comm; assumption.
Qed.

Lemma reorders_final : forall dims prog prog', reorders (@compatible S) prog prog' -> Forall (gate_ok dims) prog ->
  forall psi s, valid dims s -> final dims prog psi s = final dims prog' psi s.
Proof.
  intros dims prog prog' H. induction H as [l|l1 x y l2 l' Hc H IH]; intros Hok psi s Hs; [reflexivity|].
  assert (Hok' : Forall (gate_ok dims) (l1 ++ y :: x :: l2)).
  { apply Forall_app in Hok as [A B]. apply Forall_app. split; [exact A|].
    pose proof (Forall_inv B) as Hx. apply Forall_inv_tail in B. pose proof (Forall_inv B) as Hy. apply Forall_inv_tail in B.
    constructor; [exact Hy | constructor; assumption]. }
  rewrite <- (IH Hok' psi s Hs). rewrite !final_app. cbn [final]. apply final_ext; [|exact Hs].
  intros u Hu. apply Forall_app in Hok as [_ B]. pose proof (Forall_inv B) as Hx. apply Forall_inv_tail, Forall_inv in B.
  apply compatible_commute; assumption.
Qed.
End Commute.
