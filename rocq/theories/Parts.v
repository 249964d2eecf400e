(** * Parts: registers no gate changes, gates that add up, and circuits side
    by side. *)
From Verif Require Import Py Scalar Mat Utils Gates Circuit Spec Calls Lib Kern GateMat GateTof Flow Layers Blocks Refine Run
  Reversible PartsSpec.
Set Implicit Arguments.

Section Parts.
Variable S : scalar.
Hypothesis L : scalar_laws S.
Add Ring Sring : (sl_ring L).
Infix "*s" := (@smul S) (at level 40, left associativity).
Notation gate := (gate S).

(** ** Registers that keep their level *)
Lemma move_x_level : forall dims r p s r', valid dims s -> r < length dims -> r' <> r ->
  level (move_x dims r p s) r' = level s r'.
Proof.
  intros dims r p s r' Hs Hr Hne. unfold move_x. rewrite level_put by (rewrite (valid_length Hs); exact Hr).
  rewrite (proj2 (Nat.eqb_neq _ _) Hne). reflexivity.
Qed.

Lemma level_firstn : forall n s r, r < n -> level (firstn n s) r = level s r.
Proof.
  unfold level. induction n as [|n IH]; intros [|x s] [|r] H; simpl; try lia; auto. apply IH. lia.
Qed.
Lemma level_skipn : forall n s r, level (skipn n s) r = level s (n + r).
Proof. unfold level. induction n as [|n IH]; intros [|x s] r; simpl; auto. destruct r; reflexivity. Qed.

Lemma amp_changes : forall dims (g : gate) r out inp, gate_ok dims g -> valid dims out -> valid dims inp ->
  ~ In r (changes g) -> level out r <> level inp r -> amp dims g out inp = s0.
Proof.
  intros dims g r out inp Hg Ho Hi Hr Hne.
  assert (Hloc : forall r' u, r' < length dims -> r <> r' -> local S r' u out inp = s0).
  { intros r' u H1 H2. unfold local. destruct (config_eqb (put inp r' (level out r')) out) eqn:E; [|reflexivity].
    apply config_eqb_eq in E. exfalso. apply Hne. rewrite <- E.
    rewrite level_put by (rewrite (valid_length Hi); exact H1). rewrite (proj2 (Nat.eqb_neq _ _) H2). reflexivity. }
  assert (Hcl : forall f, level (f inp) r = level inp r -> classical S f out inp = s0).
  { intros f Hf. unfold classical. destruct (config_eqb (f inp) out) eqn:E; [|reflexivity].
    apply config_eqb_eq in E. exfalso. apply Hne. rewrite <- E. exact Hf. }
  destruct g as [r' p|r'|r'|c t p|cs t p|r' u|r' k u]; simpl in *.
  - apply Hcl. apply move_x_level; auto; tauto.
  - apply Hloc; auto.
  - unfold local. destruct (config_eqb (put inp r' (level out r')) out) eqn:E; [|reflexivity].
    apply config_eqb_eq in E. destruct (Nat.eqb_spec (level out r') (level inp r')) as [E2|E2]; [|reflexivity].
    exfalso. apply Hne. rewrite <- E, E2, put_level. reflexivity.
  - apply Hcl. unfold move_cx. destruct (top dims inp c); [|reflexivity]. apply move_x_level; auto; tauto.
  - apply Hcl. unfold move_tof. destruct (forallb (top dims inp) cs); [|reflexivity]. apply move_x_level; auto; tauto.
  - apply Hloc; [tauto | auto].
  - destruct (config_eqb (firstn r' inp) (firstn r' out)) eqn:E1; [|reflexivity].
    destruct (config_eqb (skipn (r' + k) inp) (skipn (r' + k) out)) eqn:E2; [|reflexivity].
    exfalso. apply Hne. apply config_eqb_eq in E1. apply config_eqb_eq in E2. rewrite in_seq in Hr.
    destruct (Nat.lt_ge_cases r r') as [H|H].
    + rewrite <- (@level_firstn r' out), <- (@level_firstn r' inp) by exact H. congruence.
    + replace r with ((r' + k) + (r - (r' + k))) by lia. rewrite <- !level_skipn. congruence.
Qed.

Definition holds_level (dims : list nat) (r a : nat) (psi : state S) : Prop :=
  forall s, valid dims s -> level s r <> a -> psi s = s0.

Lemma apply_holds : forall dims (g : gate) r a psi, gate_ok dims g -> ~ In r (changes g) ->
  holds_level dims r a psi -> holds_level dims r a (apply dims g psi).
Proof.
  intros dims g r a psi Hg Hr H s Hs Hne. rewrite apply_kapply. unfold kapply. apply (bsum_zero L).
  intros u Hu. apply in_all_configs in Hu.
  destruct (Nat.eq_dec (level u r) a) as [E|E].
  - rewrite (@amp_changes dims g r s u Hg Hs Hu Hr) by congruence. ring.
  - rewrite (H u Hu E). ring.
Qed.

Lemma final_holds : forall dims prog r a psi, Forall (gate_ok dims) prog ->
  (forall g, In g prog -> ~ In r (changes g)) ->
  holds_level dims r a psi -> holds_level dims r a (final dims prog psi).
Proof.
  intros dims prog r a; induction prog as [|g prog IH]; intros psi Hok Hr H; simpl; [exact H|].
  inversion Hok; subst. apply IH; auto.
  - intros g' Hg'. apply Hr. right; exact Hg'.
  - apply apply_holds; auto. apply Hr. left; reflexivity.
Qed.

Lemma answer_holds : forall dims r a psi s x, holds_level dims r a psi ->
  In (s, x) (answer dims psi) -> valid dims s /\ level s r = a.
Proof.
  intros dims r a psi s x H Hin. unfold answer in Hin. apply in_map_iff in Hin as [t [E Ht]].
  injection E as -> E. apply filter_In in Ht as [Ht Hn]. apply in_all_configs in Ht. split; [exact Ht|].
  destruct (Nat.eq_dec (level s r) a) as [El|El]; [exact El|].
  rewrite (H s Ht El), (seqb_refl L) in Hn. discriminate.
Qed.

(** ** Increments add up *)
Lemma shift_shift : forall d x p q e, 0 < d -> sums_to d p q e -> shift d (shift d x p) q = shift d x e.
Proof.
  intros d x p q e Hd [k Hk]. unfold shift. f_equal.
  pose proof (Z.mod_pos_bound (Z.of_nat x + p) (Z.of_nat d) ltac:(lia)).
  rewrite Z2Nat.id by lia. rewrite Z.add_mod_idemp_l by lia.
  replace (Z.of_nat x + p + q)%Z with (Z.of_nat x + e + k * Z.of_nat d)%Z by lia.
  apply Z.mod_add. lia.
Qed.

Lemma move_x_add : forall dims r p q e s, valid dims s -> r < length dims -> sums_to (nth r dims 0) p q e ->
  move_x dims r q (move_x dims r p s) = move_x dims r e s.
Proof.
  intros dims r p q e s Hs Hr H. unfold move_x. rewrite put_put.
  rewrite level_put by (rewrite (valid_length Hs); exact Hr). rewrite Nat.eqb_refl.
  rewrite (@shift_shift (nth r dims 0) (level s r) p q e); [reflexivity | | exact H].
  pose proof (valid_level Hs Hr). lia.
Qed.

Lemma move_add : forall dims (g g' h : gate) s, adds dims g g' h -> gate_ok dims g -> valid dims s ->
  move dims g' (move dims g s) = move dims h s.
Proof.
  intros dims g g' h s Ha Hg Hs. destruct Ha as [r p q e H|c t p q e Hc H|cs t p q e H]; simpl in *.
  - apply move_x_add; tauto.
  - unfold move_cx. destruct (top dims s c) eqn:E; [|rewrite E; reflexivity].
    assert (E' : top dims (move_x dims t p s) c = true).
    { unfold top in *. rewrite move_x_level by (auto; tauto). exact E. }
    rewrite E'. apply move_x_add; tauto.
  - unfold move_tof. destruct (forallb (top dims s) cs) eqn:E; [|rewrite E; reflexivity].
    assert (E' : forallb (top dims (move_x dims t p s)) cs = true).
    { rewrite forallb_forall in *. intros c Hin. specialize (E c Hin). unfold top in *.
      rewrite move_x_level; [exact E | exact Hs | tauto |]. intros ->. tauto. }
    rewrite E'. apply move_x_add; tauto.
Qed.

Lemma adds_reversible : forall dims (g g' h : gate), adds dims g g' h ->
  reversible g /\ reversible g' /\ reversible h.
Proof. intros dims g g' h H. destruct H; simpl; auto. Qed.

Lemma reversible_classical : forall g : gate, reversible g -> is_classical g = true.
Proof. intros g. destruct g; simpl; auto; contradiction. Qed.

Lemma apply_reversible : forall dims (g : gate) psi s, reversible g -> gate_ok dims g -> valid dims s ->
  apply dims g psi s = psi (move dims (undo g) s).
Proof.
  intros dims g psi s Hr Hg Hs. rewrite apply_kapply, amp_reversible by (apply reversible_classical; exact Hr).
  apply apply_classical; auto.
  - intros t Ht. apply undo_valid; assumption.
  - intros t Ht. apply move_undo; assumption.
  - intros t Ht. apply move_undo'; assumption.
Qed.

Lemma apply_adds : forall dims (g g' h : gate) psi s, adds dims g g' h ->
  gate_ok dims g -> gate_ok dims g' -> gate_ok dims h -> valid dims s ->
  apply dims g' (apply dims g psi) s = apply dims h psi s.
Proof.
  intros dims g g' h psi s Ha Hg Hg' Hh Hs. destruct (adds_reversible Ha) as [R1 [R2 R3]].
  assert (V : valid dims (move dims (undo g') s)) by (apply undo_valid; assumption).
  assert (V2 : valid dims (move dims (undo g) (move dims (undo g') s))) by (apply undo_valid; assumption).
  rewrite (@apply_reversible dims g' _ _ R2 Hg' Hs), (@apply_reversible dims g _ _ R1 Hg V), (@apply_reversible dims h _ _ R3 Hh Hs). f_equal.
  rewrite <- (@move_undo S dims h _ R3 Hh V2). f_equal. rewrite <- (move_add Ha Hg V2).
  rewrite (@move_undo' S dims g _ R1 Hg V), (@move_undo' S dims g' _ R2 Hg' Hs). reflexivity.
Qed.

Theorem increments_add : forall dims levels out ty me ks1 ks2 k k' k'' prog1 prog2 g g' h,
  dims <> [] -> (forall d, In d dims -> 2 <= d) ->
  length levels <= length dims -> valid dims (start dims levels) ->
  wants dims out ty me ->
  Forall2 (denotes dims) ks1 prog1 -> Forall (gate_ok dims) prog1 ->
  Forall2 (denotes dims) ks2 prog2 -> Forall (gate_ok dims) prog2 ->
  adds dims g g' h -> gate_ok dims g -> gate_ok dims g' -> gate_ok dims h ->
  denotes dims k g -> denotes dims k' g' -> denotes dims k'' h ->
  simulate (NumpyBackend S) (QList (map Z.of_nat dims)) (Some (map Z.of_nat levels)) out (ks1 ++ k :: k' :: ks2)
  = simulate (NumpyBackend S) (QList (map Z.of_nat dims)) (Some (map Z.of_nat levels)) out (ks1 ++ k'' :: ks2).
Proof.
  intros dims levels out ty me ks1 ks2 k k' k'' prog1 prog2 g g' h Hne Hd Hlen Hv Hw HF1 Hok1 HF2 Hok2 Ha Hg Hg' Hh Hk Hk' Hk''.
  apply (@simulate_same S L dims levels out ty me _ _ (prog1 ++ g :: g' :: prog2) (prog1 ++ h :: prog2)); auto.
  - apply Forall2_app; [exact HF1|]. repeat (constructor; auto).
  - apply Forall_app. split; [exact Hok1|]. repeat (constructor; auto).
  - apply Forall2_app; [exact HF1|]. repeat (constructor; auto).
  - apply Forall_app. split; [exact Hok1|]. repeat (constructor; auto).
  - intros psi s Hs. rewrite !final_app. simpl. apply final_ext; [|exact Hs].
    intros u Hu'. apply apply_adds; assumption.
Qed.

(** A gate applied as often as its target has levels. *)
Definition with_plus (g : gate) (e : Z) : gate :=
  match g with
  | GX r _ => GX r e
  | GCX c t _ => GCX c t e
  | GTof cs t _ => GTof cs t e
  | g => g
  end.
Definition plus_of (g : gate) : Z :=
  match g with GX _ p | GCX _ _ p | GTof _ _ p => p | _ => 0%Z end.

Lemma move_with_plus : forall dims (g : gate) a b s, reversible g -> gate_ok dims g -> valid dims s ->
  move dims (with_plus g b) (move dims (with_plus g a) s) = move dims (with_plus g (a + b)) s.
Proof.
  intros dims g a b s Hr Hg Hs.
  assert (Hx : forall r, r < length dims -> move_x dims r b (move_x dims r a s) = move_x dims r (a + b) s).
  { intros r H. apply move_x_add; auto. exists 0%Z. lia. }
  destruct g as [r p|r|r|c t p|cs t p|r u|r k u]; try contradiction; simpl in *.
  - apply Hx. tauto.
  - unfold move_cx. destruct (top dims s c) eqn:E; [|rewrite E; reflexivity].
    assert (E' : top dims (move_x dims t a s) c = true).
    { unfold top in *. rewrite move_x_level by (auto; tauto). exact E. }
    rewrite E'. apply Hx. tauto.
  - unfold move_tof. destruct (forallb (top dims s) cs) eqn:E; [|rewrite E; reflexivity].
    assert (E' : forallb (top dims (move_x dims t a s)) cs = true).
    { rewrite forallb_forall in *. intros c Hin. specialize (E c Hin). unfold top in *.
      rewrite move_x_level; [exact E | exact Hs | tauto |]. intros ->. tauto. }
    rewrite E'. apply Hx. tauto.
Qed.

Lemma move_with_plus_valid : forall dims (g : gate) a s, reversible g -> gate_ok dims g -> valid dims s ->
  valid dims (move dims (with_plus g a) s).
Proof.
  intros dims g a s Hr Hg Hs. destruct g; try contradiction; simpl in *.
  - apply move_x_valid; tauto.
  - apply move_cx_valid; tauto.
  - apply move_tof_valid; tauto.
Qed.

Lemma final_repeat : forall dims (g : gate) k psi s, reversible g -> gate_ok dims g -> valid dims s ->
  final dims (repeat g k) psi s = psi (move dims (with_plus g (- (Z.of_nat k * plus_of g))) s).
Proof.
  intros dims g k; induction k as [|k IH]; intros psi s Hr Hg Hs; cbn [repeat final].
  - f_equal. assert (E : forall r, r < length dims -> move_x dims r (- (Z.of_nat 0 * plus_of g)) s = s).
    { intros r H. unfold move_x, shift. pose proof (valid_level Hs H).
      replace (Z.of_nat (level s r) + - (Z.of_nat 0 * plus_of g))%Z with (Z.of_nat (level s r)) by lia.
      rewrite Z.mod_small by lia. rewrite Nat2Z.id. apply put_level. }
    destruct g as [r p|r|r|c t p|cs t p|r u|r k u]; try contradiction; simpl in *.
    + symmetry. apply E; tauto.
    + unfold move_cx. destruct (top dims s c); [symmetry; apply E; tauto | reflexivity].
    + unfold move_tof. destruct (forallb (top dims s) cs); [symmetry; apply E; tauto | reflexivity].
  - rewrite IH by assumption.
    rewrite (@apply_reversible dims g _ _ Hr Hg) by (apply move_with_plus_valid; assumption). f_equal.
    assert (E : undo g = with_plus g (- plus_of g)) by (destruct g; try contradiction; reflexivity).
    rewrite E, move_with_plus by assumption. do 2 f_equal. lia.
Qed.

Lemma final_period : forall dims (g : gate) psi s, reversible g -> gate_ok dims g -> valid dims s ->
  final dims (repeat g (period dims g)) psi s = psi s.
Proof.
  intros dims g psi s Hr Hg Hs. rewrite final_repeat by assumption. f_equal.
  assert (E : forall r p, r < length dims -> move_x dims r (- (Z.of_nat (nth r dims 0) * p)) s = s).
  { intros r p H. unfold move_x, shift. pose proof (valid_level Hs H).
    replace (Z.of_nat (level s r) + - (Z.of_nat (nth r dims 0%nat) * p))%Z
      with (Z.of_nat (level s r) + (- p) * Z.of_nat (nth r dims 0%nat))%Z by lia.
    rewrite Z.mod_add, Z.mod_small by lia. rewrite Nat2Z.id. apply put_level. }
  destruct g as [r p|r|r|c t p|cs t p|r u|r k u]; try contradiction; simpl in *.
  - apply E; tauto.
  - unfold move_cx. destruct (top dims s c); [apply E; tauto | reflexivity].
  - unfold move_tof. destruct (forallb (top dims s) cs); [apply E; tauto | reflexivity].
Qed.

Theorem period_cancels : forall dims levels out ty me ks1 ks2 k prog1 prog2 g,
  dims <> [] -> (forall d, In d dims -> 2 <= d) ->
  length levels <= length dims -> valid dims (start dims levels) ->
  wants dims out ty me ->
  Forall2 (denotes dims) ks1 prog1 -> Forall (gate_ok dims) prog1 ->
  Forall2 (denotes dims) ks2 prog2 -> Forall (gate_ok dims) prog2 ->
  reversible g -> gate_ok dims g -> denotes dims k g ->
  simulate (NumpyBackend S) (QList (map Z.of_nat dims)) (Some (map Z.of_nat levels)) out
    (ks1 ++ repeat k (period dims g) ++ ks2)
  = simulate (NumpyBackend S) (QList (map Z.of_nat dims)) (Some (map Z.of_nat levels)) out (ks1 ++ ks2).
Proof.
  intros dims levels out ty me ks1 ks2 k prog1 prog2 g Hne Hd Hlen Hv Hw HF1 Hok1 HF2 Hok2 Hr Hg Hk.
  apply (@simulate_same S L dims levels out ty me _ _ (prog1 ++ repeat g (period dims g) ++ prog2) (prog1 ++ prog2)); auto.
  - apply Forall2_app; [exact HF1|]. apply Forall2_app; [|exact HF2].
    generalize (period dims g). intros m. induction m; simpl; constructor; auto.
  - apply Forall_app. split; [exact Hok1|]. apply Forall_app. split; [|exact Hok2].
    apply Forall_forall. intros x Hx. apply repeat_spec in Hx. subst. exact Hg.
  - apply Forall2_app; assumption.
  - apply Forall_app; auto.
  - intros psi s Hs. rewrite !final_app. apply final_ext; [|exact Hs].
    intros u Hu'. apply final_period; assumption.
Qed.

(** ** Circuits side by side *)
Lemma level_app_l : forall (s t : config) r, r < length s -> level (s ++ t) r = level s r.
Proof. intros s t r H. unfold level. apply app_nth1. exact H. Qed.
Lemma level_app_r : forall (s t : config) n r, length s = n -> level (s ++ t) (n + r) = level t r.
Proof. intros s t n r <-. unfold level. rewrite app_nth2 by lia. f_equal. lia. Qed.
Lemma put_app_l : forall (s t : config) r v, r < length s -> put (s ++ t) r v = put s r v ++ t.
Proof. induction s as [|x s IH]; intros t [|r] v H; simpl in *; try lia; [reflexivity|]. f_equal. apply IH. lia. Qed.
Lemma put_app_r : forall (s t : config) n r v, length s = n -> put (s ++ t) (n + r) v = s ++ put t r v.
Proof. intros s t n r v <-. induction s as [|x s IH]; simpl; [reflexivity|]. f_equal. exact IH. Qed.

Lemma config_eqb_app : forall s t s' t' : config, length s = length s' ->
  config_eqb (s ++ t) (s' ++ t') = config_eqb s s' && config_eqb t t'.
Proof.
  intros s t s' t' Hl. destruct (config_eqb s s') eqn:E1; [destruct (config_eqb t t') eqn:E2|]; simpl.
  - apply config_eqb_eq in E1. apply config_eqb_eq in E2. subst. apply config_eqb_refl.
  - apply config_eqb_eq in E1. subst. apply config_eqb_neq in E2. apply config_eqb_neq. intros E.
    apply app_inv_head in E. contradiction.
  - apply config_eqb_neq in E1. apply config_eqb_neq. intros E. apply E1.
    assert (H := f_equal (firstn (length s)) E). rewrite firstn_app, Nat.sub_diag, firstn_all, app_nil_r in H.
    rewrite Hl, firstn_app, Nat.sub_diag, firstn_all, app_nil_r in H. exact H.
Qed.

Section Sides.
Variables d1 d2 : list nat.
Notation n := (length d1).

Lemma nth_dims_l : forall r, r < n -> nth r (d1 ++ d2) 0 = nth r d1 0.
Proof. intros r H. apply app_nth1. exact H. Qed.
Lemma nth_dims_r : forall r, nth (n + r) (d1 ++ d2) 0 = nth r d2 0.
Proof. intros r. rewrite app_nth2 by lia. f_equal. lia. Qed.

Lemma top_l : forall s t r, valid d1 s -> r < n -> top (d1 ++ d2) (s ++ t) r = top d1 s r.
Proof.
  intros s t r Hs Hr. unfold top. rewrite nth_dims_l by exact Hr.
  rewrite level_app_l by (rewrite (valid_length Hs); exact Hr). reflexivity.
Qed.
Lemma top_r : forall s t r, valid d1 s -> top (d1 ++ d2) (s ++ t) (n + r) = top d2 t r.
Proof.
  intros s t r Hs. unfold top. rewrite nth_dims_r. rewrite level_app_r by (apply (valid_length Hs)). reflexivity.
Qed.

Lemma move_x_l : forall s t r p, valid d1 s -> r < n ->
  move_x (d1 ++ d2) r p (s ++ t) = move_x d1 r p s ++ t.
Proof.
  intros s t r p Hs Hr. unfold move_x. rewrite nth_dims_l by exact Hr.
  rewrite level_app_l, put_app_l by (rewrite (valid_length Hs); exact Hr). reflexivity.
Qed.
Lemma move_x_r : forall s t r p, valid d1 s ->
  move_x (d1 ++ d2) (n + r) p (s ++ t) = s ++ move_x d2 r p t.
Proof.
  intros s t r p Hs. unfold move_x. rewrite nth_dims_r.
  rewrite level_app_r, put_app_r by (apply (valid_length Hs)). reflexivity.
Qed.

Lemma classical_l : forall (f : config -> config) h s t s' t',
  f (s' ++ t') = h s' ++ t' -> length (h s') = length s ->
  classical S f (s ++ t) (s' ++ t') = classical S h s s' *s delta S t t'.
Proof.
  intros f h s t s' t' E Hl. unfold classical, delta. rewrite E, config_eqb_app by exact Hl.
  destruct (config_eqb (h s') s); simpl; [|ring].
  destruct (config_eqb t t') eqn:E2.
  - apply config_eqb_eq in E2. subst. rewrite config_eqb_refl. ring.
  - apply config_eqb_neq in E2. rewrite (proj2 (config_eqb_neq t' t)) by congruence. ring.
Qed.
Lemma classical_r : forall (f : config -> config) h s t s' t',
  f (s' ++ t') = s' ++ h t' -> length s' = length s ->
  classical S f (s ++ t) (s' ++ t') = delta S s s' *s classical S h t t'.
Proof.
  intros f h s t s' t' E Hl. unfold classical, delta. rewrite E, config_eqb_app by exact Hl.
  destruct (config_eqb s s') eqn:E2.
  - apply config_eqb_eq in E2. subst. rewrite config_eqb_refl. simpl. destruct (config_eqb (h t') t); ring.
  - apply config_eqb_neq in E2. rewrite (proj2 (config_eqb_neq s' s)) by congruence. simpl. ring.
Qed.

Lemma local_l : forall r u s t s' t', r < length s -> length s' = length s ->
  local S r u (s ++ t) (s' ++ t') = local S r u s s' *s delta S t t'.
Proof.
  intros r u s t s' t' Hr Hl. unfold local, delta.
  rewrite !level_app_l, put_app_l by lia. rewrite config_eqb_app by (rewrite put_length; exact Hl).
  destruct (config_eqb (put s' r (level s r)) s); simpl; [|ring].
  destruct (config_eqb t t') eqn:E2.
  - apply config_eqb_eq in E2. subst. rewrite config_eqb_refl. ring.
  - apply config_eqb_neq in E2. rewrite (proj2 (config_eqb_neq t' t)) by congruence. ring.
Qed.
Lemma local_r : forall r u s t s' t', length s = n -> length s' = n ->
  local S (n + r) u (s ++ t) (s' ++ t') = delta S s s' *s local S r u t t'.
Proof.
  intros r u s t s' t' Hs Hs'. unfold local, delta.
  rewrite !level_app_r, put_app_r by assumption. rewrite config_eqb_app by congruence.
  destruct (config_eqb s s') eqn:E2.
  - apply config_eqb_eq in E2. subst. rewrite config_eqb_refl. simpl. destruct (config_eqb _ t); ring.
  - apply config_eqb_neq in E2. rewrite (proj2 (config_eqb_neq s' s)) by congruence. simpl. ring.
Qed.

Lemma move_x_length : forall dims r p s, length (move_x dims r p s) = length s.
Proof. intros. unfold move_x. apply put_length. Qed.

Lemma firstn_app_le : forall (s t : config) k, k <= length s -> firstn k (s ++ t) = firstn k s.
Proof. intros s t k H. rewrite firstn_app. replace (k - length s) with 0 by lia. simpl. apply app_nil_r. Qed.
Lemma skipn_app_le : forall (s t : config) k, k <= length s -> skipn k (s ++ t) = skipn k s ++ t.
Proof. intros s t k H. rewrite skipn_app. replace (k - length s) with 0 by lia. reflexivity. Qed.
Lemma firstn_app_ge : forall (s t : config) m k, length s = m -> firstn (m + k) (s ++ t) = s ++ firstn k t.
Proof. intros s t m k <-. apply firstn_app_2. Qed.
Lemma skipn_app_ge : forall (s t : config) m k, length s = m -> skipn (m + k) (s ++ t) = skipn k t.
Proof.
  intros s t m k <-. rewrite skipn_app, skipn_all2 by lia. simpl. f_equal. lia.
Qed.

Lemma amp_l : forall (g : gate) s t s' t', gate_ok d1 g -> valid d1 s -> valid d1 s' ->
  amp (d1 ++ d2) g (s ++ t) (s' ++ t') = amp d1 g s s' *s delta S t t'.
Proof.
  intros g s t s' t' Hg Hs Hs'. pose proof (valid_length Hs) as El. pose proof (valid_length Hs') as El'.
  assert (E : length s' = length s) by (rewrite El, El'; reflexivity).
  destruct g as [r p|r|r|c t0 p|cs t0 p|r u|r k u]; simpl in *.
  - apply classical_l; [apply move_x_l; tauto | rewrite move_x_length; exact E].
  - rewrite nth_dims_l by exact Hg. apply local_l; [unfold config in *; lia | exact E].
  - rewrite nth_dims_l by exact Hg. apply local_l; [unfold config in *; lia | exact E].
  - apply classical_l.
    + unfold move_cx. rewrite top_l by tauto. destruct (top d1 s' c); [apply move_x_l; tauto | reflexivity].
    + unfold move_cx. destruct (top d1 s' c); [rewrite move_x_length|]; exact E.
  - assert (Ef : forallb (top (d1 ++ d2) (s' ++ t')) cs = forallb (top d1 s') cs).
    { destruct Hg as [Hc _]. clear - Hc Hs'. induction cs as [|c cs IH]; simpl; [reflexivity|].
      rewrite top_l, IH; auto; [intros; apply Hc; right; assumption | apply Hc; left; reflexivity]. }
    apply classical_l.
    + unfold move_tof. rewrite Ef. destruct (forallb (top d1 s') cs); [apply move_x_l; tauto | reflexivity].
    + unfold move_tof. destruct (forallb (top d1 s') cs); [rewrite move_x_length|]; exact E.
  - apply local_l; [destruct Hg; unfold config in *; lia | exact E].
  - destruct Hg as [Hk [Hr _]].
    rewrite !firstn_app_le, !skipn_app_le by (unfold config in *; lia).
    rewrite config_eqb_app by (rewrite !skipn_length; unfold config in *; lia).
    rewrite !firstn_app_le by (rewrite skipn_length; unfold config in *; lia). unfold delta.
    destruct (config_eqb (firstn r s') (firstn r s)); simpl; [|ring].
    destruct (config_eqb (skipn (r + k) s') (skipn (r + k) s)); simpl; [|ring].
    destruct (config_eqb t t') eqn:E2.
    + apply config_eqb_eq in E2. subst. rewrite config_eqb_refl. ring.
    + apply config_eqb_neq in E2. rewrite (proj2 (config_eqb_neq t' t)) by congruence. ring.
Qed.

Lemma amp_r : forall (g : gate) s t s' t', gate_ok d2 g -> valid d1 s -> valid d1 s' ->
  amp (d1 ++ d2) (lifted n g) (s ++ t) (s' ++ t') = delta S s s' *s amp d2 g t t'.
Proof.
  intros g s t s' t' Hg Hs Hs'. pose proof (valid_length Hs) as El. pose proof (valid_length Hs') as El'.
  assert (E : length s' = length s) by (rewrite El, El'; reflexivity).
  destruct g as [r p|r|r|c t0 p|cs t0 p|r u|r k u]; simpl in *.
  - apply classical_r; [apply move_x_r; exact Hs' | exact E].
  - rewrite nth_dims_r. apply local_r; assumption.
  - rewrite nth_dims_r. apply local_r; assumption.
  - apply classical_r; [|exact E].
    unfold move_cx. rewrite top_r by exact Hs'. destruct (top d2 t' c); [apply move_x_r; exact Hs' | reflexivity].
  - assert (Ef : forallb (top (d1 ++ d2) (s' ++ t')) (map (Nat.add n) cs) = forallb (top d2 t') cs).
    { clear - Hs'. induction cs as [|c cs IH]; simpl; [reflexivity|]. rewrite top_r, IH by exact Hs'. reflexivity. }
    apply classical_r; [|exact E].
    unfold move_tof. rewrite Ef. destruct (forallb (top d2 t') cs); [apply move_x_r; exact Hs' | reflexivity].
  - apply local_r; assumption.
  - rewrite <- Nat.add_assoc, !firstn_app_ge, !skipn_app_ge by assumption.
    rewrite config_eqb_app by exact E. unfold delta.
    destruct (config_eqb s s') eqn:E2.
    + apply config_eqb_eq in E2. subst. rewrite config_eqb_refl. simpl.
      destruct (config_eqb (firstn r t') (firstn r t) && config_eqb (skipn (r + k) t') (skipn (r + k) t)); ring.
    + apply config_eqb_neq in E2. rewrite (proj2 (config_eqb_neq s' s)) by congruence. simpl. ring.
Qed.

Definition is_pair (psi psi1 psi2 : state S) : Prop :=
  forall s t, valid d1 s -> valid d2 t -> psi (s ++ t) = psi1 s *s psi2 t.

Lemma apply_pair_l : forall (g : gate) psi psi1 psi2, gate_ok d1 g -> is_pair psi psi1 psi2 ->
  is_pair (apply (d1 ++ d2) g psi) (apply d1 g psi1) psi2.
Proof.
  intros g psi psi1 psi2 Hg H s t Hs Ht. rewrite !apply_kapply. unfold kapply.
  rewrite (bsum_configs_app L d1 d2). rewrite <- (bsum_mul_r L). apply bsum_ext. intros u Hu. apply in_all_configs in Hu.
  rewrite bsum_ext with (g := fun v => delta S t v *s (amp d1 g s u *s psi1 u *s psi2 v)).
  - rewrite (bsum_delta_l L) by exact Ht. reflexivity.
  - intros v Hv. apply in_all_configs in Hv. rewrite amp_l by assumption. rewrite (H u v Hu Hv). ring.
Qed.
Lemma apply_pair_r : forall (g : gate) psi psi1 psi2, gate_ok d2 g -> is_pair psi psi1 psi2 ->
  is_pair (apply (d1 ++ d2) (lifted n g) psi) psi1 (apply d2 g psi2).
Proof.
  intros g psi psi1 psi2 Hg H s t Hs Ht. rewrite !apply_kapply. unfold kapply.
  rewrite (bsum_configs_app L d1 d2).
  rewrite bsum_ext with (g := fun u => delta S s u *s (psi1 u *s bsum (fun v => amp d2 g t v *s psi2 v) (all_configs d2))).
  - rewrite (bsum_delta_l L) by exact Hs. reflexivity.
  - intros u Hu. apply in_all_configs in Hu. rewrite <- !(bsum_mul_l L). apply bsum_ext. intros v Hv.
    apply in_all_configs in Hv. rewrite amp_r by assumption. rewrite (H u v Hu Hv). ring.
Qed.

Lemma final_pair : forall prog1 prog2' prog, interleaves prog1 prog2' prog ->
  forall prog2 psi psi1 psi2, prog2' = map (lifted n) prog2 ->
  Forall (gate_ok d1) prog1 -> Forall (gate_ok d2) prog2 -> is_pair psi psi1 psi2 ->
  is_pair (final (d1 ++ d2) prog psi) (final d1 prog1 psi1) (final d2 prog2 psi2).
Proof.
  intros prog1 prog2' prog H; induction H as [|g l1 l2 l H IH|g l1 l2 l H IH]; intros prog2 psi psi1 psi2 E H1 H2 HP.
  - destruct prog2; [|discriminate]. exact HP.
  - inversion H1; subst. simpl. apply IH; auto. apply apply_pair_l; assumption.
  - destruct prog2 as [|g2 prog2]; [discriminate|]. simpl in E. injection E as -> ->. inversion H2; subst.
    simpl. apply IH; auto. apply apply_pair_r; assumption.
Qed.

Lemma basis_pair : forall s t, length s = n -> is_pair (basis S (s ++ t)) (basis S s) (basis S t).
Proof.
  intros s t Hl u v Hu Hv. unfold basis. rewrite config_eqb_app by (rewrite (valid_length Hu); exact Hl).
  destruct (config_eqb s u), (config_eqb t v); simpl; ring.
Qed.

Lemma filter_map : forall A B (f : A -> B) P l, filter P (map f l) = map f (filter (fun x => P (f x)) l).
Proof.
  intros A B f P l; induction l as [|x l IH]; simpl; [reflexivity|]. rewrite IH. destruct (P (f x)); reflexivity.
Qed.
Lemma filter_flat_map : forall A B (f : A -> list B) P l, filter P (flat_map f l) = flat_map (fun x => filter P (f x)) l.
Proof.
  intros A B f P l; induction l as [|x l IH]; simpl; [reflexivity|]. rewrite filter_app, IH. reflexivity.
Qed.
Lemma flat_map_filter : forall A B (f : A -> list B) P l,
  (forall x, In x l -> P x = false -> f x = []) -> flat_map f (filter P l) = flat_map f l.
Proof.
  intros A B f P l; induction l as [|x l IH]; intros H; simpl; [reflexivity|].
  rewrite <- IH by (intros; apply H; auto; right; assumption).
  destruct (P x) eqn:E; simpl; [reflexivity|]. rewrite (H x (or_introl eq_refl) E). reflexivity.
Qed.
Lemma filter_filter : forall A (P Q : A -> bool) l, (forall x, In x l -> Q x = true -> P x = true) ->
  filter Q (filter P l) = filter Q l.
Proof.
  intros A P Q l; induction l as [|x l IH]; intros H; simpl; [reflexivity|].
  rewrite <- IH by (intros; apply H; auto; right; assumption).
  destruct (P x) eqn:E; simpl; [reflexivity|].
  destruct (Q x) eqn:E2; [|reflexivity]. rewrite (H x (or_introl eq_refl) E2) in E. discriminate.
Qed.

Lemma map_flat_map : forall A B C (f : B -> C) (g : A -> list B) l, map f (flat_map g l) = flat_map (fun x => map f (g x)) l.
Proof. intros A B C f g l; induction l as [|x l IH]; simpl; [reflexivity|]. rewrite map_app, IH. reflexivity. Qed.
Lemma flat_map_map : forall A B C (f : A -> B) (g : B -> list C) l, flat_map g (map f l) = flat_map (fun x => g (f x)) l.
Proof. intros A B C f g l; induction l as [|x l IH]; simpl; [reflexivity|]. rewrite IH. reflexivity. Qed.
Lemma flat_map_ext_in' : forall A B (f g : A -> list B) l, (forall x, In x l -> f x = g x) -> flat_map f l = flat_map g l.
Proof.
  intros A B f g l; induction l as [|x l IH]; intros H; simpl; [reflexivity|].
  rewrite (H x (or_introl eq_refl)), IH; [reflexivity|]. intros; apply H; right; assumption.
Qed.
Lemma filter_none : forall A P (l : list A), (forall x, In x l -> P x = false) -> filter P l = [].
Proof.
  intros A P l; induction l as [|x l IH]; intros H; simpl; [reflexivity|].
  rewrite (H x (or_introl eq_refl)). apply IH. intros; apply H; right; assumption.
Qed.

Lemma answer_pair : forall psi psi1 psi2, is_pair psi psi1 psi2 ->
  answer (d1 ++ d2) psi = pairs (answer d1 psi1) (answer d2 psi2).
Proof.
  intros psi psi1 psi2 H. unfold answer at 1, pairs. rewrite all_configs_app, !filter_flat_map, map_flat_map.
  unfold answer at 2. rewrite flat_map_map, flat_map_filter.
  2: { intros s _ Hs. apply filter_none. intros o Ho. apply in_map_iff in Ho as [o2 [<- _]]. simpl.
       apply negb_false_iff in Hs. apply (sl_eqb L) in Hs. rewrite Hs. apply negb_false_iff, (sl_eqb L). ring. }
  apply flat_map_ext_in'. intros s Hs. apply in_all_configs in Hs. unfold answer.
  rewrite !map_map, !filter_map, !map_map. simpl.
  rewrite filter_filter.
  2: { intros t _ Ht. apply negb_true_iff in Ht. apply negb_true_iff. destruct (seqb (psi2 t) s0) eqn:E; [|reflexivity].
       apply (sl_eqb L) in E. rewrite E in Ht. rewrite (proj2 (sl_eqb L _ _)) in Ht by ring. exact Ht. }
  rewrite (@filter_ext_in _ (fun x => negb (seqb (psi (s ++ x)) s0)) (fun x => negb (seqb (psi1 s *s psi2 x) s0))).
  - apply map_ext_in. intros t Ht. apply filter_In in Ht as [Ht _]. apply in_all_configs in Ht.
    rewrite (H s t Hs Ht). reflexivity.
  - intros t Ht. apply in_all_configs in Ht. rewrite (H s t Hs Ht). reflexivity.
Qed.
End Sides.
End Parts.
