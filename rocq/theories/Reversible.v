(** * Reversible: consequences of the headline theorem for reversible gates,
    inverse pairs and gates on disjoint registers. *)
From Coq Require String.
From Verif Require Import Py Scalar Mat Utils Gates Circuit Spec Calls Lib Kern GateMat GateTof Flow Layers Blocks Refine Run.
Set Implicit Arguments.

Section Reversible.
Variable S : scalar.
Hypothesis L : scalar_laws S.
Add Ring Sring : (sl_ring L).
Infix "*s" := (@smul S) (at level 40, left associativity).
Notation gate := (gate S).
Notation kernel := (config -> config -> S).

Lemma move_valid : forall dims g s, gate_ok dims g -> valid dims s -> valid dims (move (S := S) dims g s).
Proof.
  intros dims g s Hg Hs. destruct g; simpl in *; auto.
  - apply move_x_valid; tauto.
  - apply move_cx_valid; tauto.
  - apply move_tof_valid; tauto.
Qed.

Lemma amp_reversible : forall dims (g : gate), is_classical g = true ->
  amp dims g = classical S (move dims g).
Proof. intros dims g Hr. destruct g; try discriminate; reflexivity. Qed.

Lemma apply_basis : forall dims (g : gate) s, is_classical g = true -> gate_ok dims g -> valid dims s ->
  forall out, apply dims g (basis S s) out = basis S (move dims g s) out.
Proof.
  intros dims g s Hr Hg Hs out. rewrite apply_kapply. unfold kapply.
  rewrite bsum_ext with (g := fun u => delta S s u *s amp dims g out u) by (intros u _; unfold delta, basis; ring).
  rewrite (bsum_delta_l L) by exact Hs. rewrite amp_reversible by exact Hr. reflexivity.
Qed.

Lemma final_reversible : forall dims prog s,
  forallb (@is_classical S) prog = true -> Forall (gate_ok dims) prog -> valid dims s ->
  (forall out, valid dims out -> final dims prog (basis S s) out = basis S (moves dims prog s) out) /\
  valid dims (moves dims prog s).
Proof.
  intros dims prog; induction prog as [|g prog IH]; intros s Hr Hok Hs; simpl in *; [auto|].
  apply andb_true_iff in Hr as [Hr1 Hr2]. inversion Hok as [|g' prog' Hok1 Hok2]; subst.
  destruct (IH (move dims g s) Hr2 Hok2 (move_valid _ Hok1 Hs)) as [IH1 IH2].
  split; [|exact IH2]. intros out Ho. rewrite <- IH1 by exact Ho.
  apply final_ext; [|exact Ho]. intros u _. apply apply_basis; assumption.
Qed.

Lemma filter_unique : forall A (P : A -> bool) l x, NoDup l -> In x l ->
  (forall y, In y l -> P y = true <-> y = x) -> filter P l = [x].
Proof.
  intros A P l x Hnd; induction Hnd as [|y l Hy Hnd IH]; intros Hin HP; [contradiction|]. simpl.
  destruct Hin as [->|Hin].
  - rewrite (proj2 (HP x (or_introl eq_refl)) eq_refl). f_equal.
    assert (E : forall l', (forall y, In y l' -> P y = false) -> filter P l' = []).
    { induction l' as [|z l' IH']; intros H; simpl; [reflexivity|]. rewrite (H z (or_introl eq_refl)).
      apply IH'. intros; apply H; right; assumption. }
    apply E. intros z Hz. destruct (P z) eqn:Ez; [|reflexivity]. apply HP in Ez; [|right; exact Hz]. congruence.
  - assert (P y = false) as ->.
    { destruct (P y) eqn:Ey; [|reflexivity]. apply HP in Ey; [|left; reflexivity]. congruence. }
    apply IH; [exact Hin|]. intros z Hz. apply HP. right; exact Hz.
Qed.

Lemma answer_basis : forall dims s, valid dims s -> answer dims (basis S s) = [(s, s1)].
Proof.
  intros dims s Hs. unfold answer. rewrite (@filter_unique _ _ _ s).
  - simpl. unfold basis. rewrite config_eqb_refl. reflexivity.
  - apply all_configs_NoDup.
  - apply in_all_configs. exact Hs.
  - intros t _. unfold basis. destruct (config_eqb s t) eqn:E.
    + apply config_eqb_eq in E. rewrite (seqb_10 L). simpl. split; congruence.
    + apply config_eqb_neq in E. rewrite (seqb_refl L). simpl. split; congruence.
Qed.

Theorem simulate_reversible : forall dims levels out ty me ks prog,
  dims <> [] -> (forall d, In d dims -> 2 <= d) ->
  length levels <= length dims -> valid dims (start dims levels) ->
  wants dims out ty me ->
  Forall2 (denotes dims) ks prog -> Forall (gate_ok dims) prog ->
  forallb (@is_classical S) prog = true ->
  simulate (NumpyBackend S) (QList (map Z.of_nat dims)) (Some (map Z.of_nat levels)) out ks
  = Ok [(shown ty (moves dims prog (start dims levels)), s1)].
Proof.
  intros dims levels out ty me ks prog Hne Hd Hlen Hv Hw HF Hok Hr.
  rewrite (simulate_correct L levels Hne Hd Hlen Hv Hw HF Hok).
  destruct (final_reversible Hr Hok Hv) as [E Hv'].
  rewrite (answer_ext S _ _ E), (answer_basis Hv'). simpl. do 3 f_equal.
  destruct me; simpl; [ring | reflexivity].
Qed.

(** ** Inverse pairs *)
Lemma apply_classical : forall dims f g psi out,
  (forall s, valid dims s -> valid dims (g s)) ->
  (forall s, valid dims s -> g (f s) = s) -> (forall s, valid dims s -> f (g s) = s) -> valid dims out ->
  kapply S dims (classical S f) psi out = psi (g out).
Proof.
  intros dims f g psi out Hg Hgf Hfg Ho. unfold kapply.
  rewrite bsum_ext with (g := fun u => delta S (g out) u *s psi u).
  - apply (bsum_delta_l L). auto.
  - intros u Hu. apply in_all_configs in Hu. f_equal. unfold classical, delta.
    destruct (config_eqb (f u) out) eqn:E.
    + apply config_eqb_eq in E. subst out. rewrite Hgf by exact Hu. rewrite config_eqb_refl. reflexivity.
    + apply config_eqb_neq in E. rewrite (proj2 (config_eqb_neq _ _)); [reflexivity|].
      intros E'. apply E. rewrite <- E'. apply Hfg; exact Ho.
Qed.

Lemma move_undo : forall dims (g : gate) s, reversible g -> gate_ok dims g -> valid dims s ->
  move dims (undo g) (move dims g s) = s.
Proof.
  intros dims g s Hr Hg Hs. destruct g; try contradiction; simpl in *.
  - apply move_x_inv; tauto.
  - apply move_cx_inv; tauto.
  - apply move_tof_inv; tauto.
Qed.

Lemma undo_undo : forall g : gate, undo (undo g) = g.
Proof. intros g. destruct g; simpl; rewrite ?Z.opp_involutive; reflexivity. Qed.

(** The move of a reversible gate is a bijection, also when the increment is
    out of the range the X gate accepts. *)
Lemma move_undo' : forall dims (g : gate) s, reversible g -> gate_ok dims g -> valid dims s ->
  move dims g (move dims (undo g) s) = s.
Proof.
  intros dims g s Hr Hg Hs. destruct g as [r p|r|r|c t p|cs t p|r u|r k u]; try contradiction; simpl in *.
  - rewrite <- (Z.opp_involutive p) at 1. apply move_x_inv; tauto.
  - rewrite <- (Z.opp_involutive p) at 1. apply move_cx_inv; tauto.
  - rewrite <- (Z.opp_involutive p) at 1. apply move_tof_inv; tauto.
Qed.

Lemma undo_valid : forall dims (g : gate) s, reversible g -> gate_ok dims g -> valid dims s ->
  valid dims (move dims (undo g) s).
Proof.
  intros dims g s Hr Hg Hs. destruct g; try contradiction; simpl in *.
  - apply move_x_valid; tauto.
  - apply move_cx_valid; tauto.
  - apply move_tof_valid; tauto.
Qed.

Lemma apply_undo : forall dims (g : gate) psi s, reversible g -> gate_ok dims g ->
  valid dims s -> apply dims (undo g) (apply dims g psi) s = psi s.
Proof.
  intros dims g psi s Hr Hg Hs.
  assert (Hc : is_classical g = true) by (destruct g; try contradiction; reflexivity).
  assert (Hr' : is_classical (undo g) = true) by (destruct g; try contradiction; reflexivity).
  rewrite apply_kapply, amp_reversible by exact Hr'.
  rewrite (@apply_classical dims _ (move dims g)).
  - rewrite apply_kapply, amp_reversible by exact Hc.
    rewrite (@apply_classical dims _ (move dims (undo g))).
    + rewrite move_undo by assumption. reflexivity.
    + intros t Ht. apply undo_valid; assumption.
    + intros t Ht. apply move_undo; assumption.
    + intros t Ht. apply move_undo'; assumption.
    + apply move_valid; assumption.
  - intros t Ht. apply move_valid; assumption.
  - intros t Ht. apply move_undo'; assumption.
  - intros t Ht. apply move_undo; assumption.
  - exact Hs.
Qed.

Lemma final_app : forall dims p1 p2 psi, final (S := S) dims (p1 ++ p2) psi = final dims p2 (final dims p1 psi).
Proof. intros dims p1; induction p1 as [|g p1 IH]; intros p2 psi; simpl; auto. Qed.

(** Replacing part of a program by a part with the same effect. *)
Lemma simulate_same : forall dims levels out ty me ks ks' prog prog',
  dims <> [] -> (forall d, In d dims -> 2 <= d) ->
  length levels <= length dims -> valid dims (start dims levels) ->
  wants dims out ty me ->
  Forall2 (denotes dims) ks prog -> Forall (gate_ok dims) prog ->
  Forall2 (denotes dims) ks' prog' -> Forall (gate_ok dims) prog' ->
  (forall psi s, valid dims s -> final dims prog psi s = final dims prog' psi s) ->
  simulate (NumpyBackend S) (QList (map Z.of_nat dims)) (Some (map Z.of_nat levels)) out ks
  = simulate (NumpyBackend S) (QList (map Z.of_nat dims)) (Some (map Z.of_nat levels)) out ks'.
Proof.
  intros dims levels out ty me ks ks' prog prog' Hne Hd Hlen Hv Hw HF Hok HF' Hok' E.
  rewrite (simulate_correct L levels Hne Hd Hlen Hv Hw HF Hok), (simulate_correct L levels Hne Hd Hlen Hv Hw HF' Hok').
  do 2 f_equal. apply answer_ext. intros s Hs. apply E; exact Hs.
Qed.

Theorem inverse_cancels : forall dims levels out ty me ks1 ks2 k k' prog1 prog2 g,
  dims <> [] -> (forall d, In d dims -> 2 <= d) ->
  length levels <= length dims -> valid dims (start dims levels) ->
  wants dims out ty me ->
  Forall2 (denotes dims) ks1 prog1 -> Forall (gate_ok dims) prog1 ->
  Forall2 (denotes dims) ks2 prog2 -> Forall (gate_ok dims) prog2 ->
  reversible g -> gate_ok dims g -> gate_ok dims (undo g) ->
  denotes dims k g -> denotes dims k' (undo g) ->
  simulate (NumpyBackend S) (QList (map Z.of_nat dims)) (Some (map Z.of_nat levels)) out (ks1 ++ k :: k' :: ks2)
  = simulate (NumpyBackend S) (QList (map Z.of_nat dims)) (Some (map Z.of_nat levels)) out (ks1 ++ ks2).
Proof.
  intros dims levels out ty me ks1 ks2 k k' prog1 prog2 g Hne Hd Hlen Hv Hw HF1 Hok1 HF2 Hok2 Hr Hg Hu Hk Hk'.
  apply (@simulate_same dims levels out ty me _ _ (prog1 ++ g :: undo g :: prog2) (prog1 ++ prog2)); auto.
  - apply Forall2_app; [exact HF1|]. repeat (constructor; auto).
  - apply Forall_app. split; [exact Hok1|]. repeat (constructor; auto).
  - apply Forall2_app; assumption.
  - apply Forall_app; auto.
  - intros psi s Hs. rewrite !final_app. simpl. apply final_ext; [|exact Hs].
    intros u Hu'. apply apply_undo; assumption.
Qed.

(** ** Disjoint gates commute *)
Definition agree (P : nat -> bool) (s t : config) : Prop := forall r, P r = true -> level s r = level t r.

Record acts_on (dims : list nat) (P : nat -> bool) (K : kernel) : Prop := {
  ao_out : forall s t, valid dims s -> valid dims t -> ~ agree (fun r => negb (P r)) s t -> K s t = s0;
  ao_in : forall s t s' t', valid dims s -> valid dims t -> valid dims s' -> valid dims t' ->
    agree (fun r => negb (P r)) s t -> agree (fun r => negb (P r)) s' t' ->
    agree P s s' -> agree P t t' -> K s t = K s' t' }.

(** [mix P s t]: the levels of [t] on [P], of [s] elsewhere. *)
Definition mix (P : nat -> bool) (s t : config) : config :=
  map (fun r => if P r then level t r else level s r) (seq 0 (length s)).

Lemma level_ext : forall s t, length s = length t -> (forall r, r < length s -> level s r = level t r) -> s = t.
Proof.
  intros s t Hl H. apply (nth_ext _ _ 0 0 Hl). intros r Hr. apply (H r Hr).
Qed.

Lemma level_mix : forall P s t r, length s = length t -> level (mix P s t) r = if P r then level t r else level s r.
Proof.
  intros P s t r Hl. unfold mix. destruct (Nat.lt_ge_cases r (length s)) as [H|H].
  - unfold level at 1. rewrite nth_map_seq by exact H. reflexivity.
  - unfold level. rewrite !nth_overflow by (rewrite ?map_length, ?seq_length; unfold config in *; lia).
    destruct (P r); reflexivity.
Qed.

Lemma valid_levels : forall dims s, length s = length dims ->
  (forall r, r < length dims -> level s r < nth r dims 0) -> valid dims s.
Proof.
  induction dims as [|d dims IH]; intros [|x s] Hl H; simpl in *; try discriminate; constructor.
  - apply (H 0). lia.
  - apply IH; [lia|]. intros r Hr. apply (H (Datatypes.S r)). lia.
Qed.

Lemma mix_valid : forall dims P s t, valid dims s -> valid dims t -> valid dims (mix P s t).
Proof.
  intros dims P s t Hs Ht.
  assert (El : length s = length t) by (rewrite (valid_length Hs), (valid_length Ht); reflexivity).
  apply valid_levels.
  - unfold mix. rewrite map_length, seq_length. apply (valid_length Hs).
  - intros r Hr. rewrite level_mix by exact El. destruct (P r); apply valid_level; assumption.
Qed.

Lemma agree_dec : forall dims P s t, valid dims s -> valid dims t -> agree P s t \/ ~ agree P s t.
Proof.
  intros dims P s t Hs Ht.
  destruct (forallb (fun r => negb (P r) || (level s r =? level t r)) (seq 0 (length dims))) eqn:E.
  - left. intros r Hr. rewrite forallb_forall in E.
    destruct (Nat.lt_ge_cases r (length dims)) as [Hl|Hl].
    + specialize (E r). rewrite in_seq in E. specialize (E ltac:(lia)). rewrite Hr in E. simpl in E.
      apply Nat.eqb_eq; exact E.
    + unfold level. rewrite !nth_overflow; [reflexivity| |];
      rewrite ?(valid_length Hs), ?(valid_length Ht); exact Hl.
  - right. intros Ha. assert (Et : forallb (fun r => negb (P r) || (level s r =? level t r)) (seq 0 (length dims)) = true).
    { apply forallb_forall. intros r _. destruct (P r) eqn:EP; simpl; [|reflexivity]. apply Nat.eqb_eq, Ha, EP. }
    congruence.
Qed.

Lemma compose_disjoint : forall dims P1 P2 K1 K2 s t,
  acts_on dims P1 K1 -> acts_on dims P2 K2 -> (forall r, P1 r = true -> P2 r = true -> False) ->
  valid dims s -> valid dims t ->
  bsum (fun u => K1 s u *s K2 u t) (all_configs dims) = K1 s (mix P1 s t) *s K2 (mix P1 s t) t.
Proof.
  intros dims P1 P2 K1 K2 s t [O1 I1] [O2 I2] Hdis Hs Ht.
  assert (El : length s = length t) by (rewrite (valid_length Hs), (valid_length Ht); reflexivity).
  apply (@bsum_single S L _ (fun u => K1 s u *s K2 u t) (all_configs dims) (mix P1 s t)); [apply all_configs_NoDup | apply in_all_configs, mix_valid; assumption|].
  intros u Hu Hne. apply in_all_configs in Hu.
  destruct (agree_dec (fun r => negb (P1 r)) Hs Hu) as [A1|A1]; [|rewrite O1 by assumption; ring].
  destruct (agree_dec (fun r => negb (P2 r)) Hu Ht) as [A2|A2]; [|rewrite O2 by assumption; ring].
  exfalso. apply Hne.
  assert (Elu : length u = length s) by (rewrite (valid_length Hs), (valid_length Hu); reflexivity).
  apply level_ext.
  - unfold mix. rewrite map_length, seq_length. exact Elu.
  - intros r _. rewrite level_mix by exact El. destruct (P1 r) eqn:E1.
    + apply A2. destruct (P2 r) eqn:E2; [exfalso; eauto | reflexivity].
    + symmetry. apply A1. rewrite E1. reflexivity.
Qed.

Lemma disjoint_commute : forall dims P1 P2 K1 K2 psi s,
  acts_on dims P1 K1 -> acts_on dims P2 K2 -> (forall r, P1 r = true -> P2 r = true -> False) ->
  valid dims s ->
  kapply S dims K1 (kapply S dims K2 psi) s = kapply S dims K2 (kapply S dims K1 psi) s.
Proof.
  intros dims P1 P2 K1 K2 psi s HA1 HA2 Hdis Hs. rewrite <- !(kapply_comp L).
  apply kapply_ext; auto. intros t Ht.
  assert (Hdis' : forall r, P2 r = true -> P1 r = true -> False) by eauto.
  rewrite (compose_disjoint HA1 HA2 Hdis Hs Ht), (compose_disjoint HA2 HA1 Hdis' Hs Ht).
  assert (El : length s = length t) by (rewrite (valid_length Hs), (valid_length Ht); reflexivity).
  set (u := mix P1 s t). set (v := mix P2 s t).
  assert (Hu : valid dims u) by (apply mix_valid; assumption).
  assert (Hv : valid dims v) by (apply mix_valid; assumption).
  assert (Lu : forall r, level u r = if P1 r then level t r else level s r) by (intros r; apply level_mix; exact El).
  assert (Lv : forall r, level v r = if P2 r then level t r else level s r) by (intros r; apply level_mix; exact El).
  assert (X : forall r, P1 r = true -> P2 r = false).
  { intros r H1. destruct (P2 r) eqn:E2; [exfalso; eauto | reflexivity]. }
  assert (Y : forall r, P2 r = true -> P1 r = false).
  { intros r H2. destruct (P1 r) eqn:E1; [exfalso; eauto | reflexivity]. }
  destruct (agree_dec (fun r => negb (P1 r) && negb (P2 r)) Hs Ht) as [A|A].
  - rewrite (ao_in HA1 (s := s) (t := u) (s' := v) (t' := t)), (ao_in HA2 (s := u) (t := t) (s' := s) (t' := v)); auto.
    + ring.
    + intros r H. rewrite Lu. apply negb_true_iff in H. destruct (P1 r) eqn:E1; [reflexivity|].
      apply A. rewrite E1, H. reflexivity.
    + intros r H. rewrite Lv. apply negb_true_iff in H. rewrite H. reflexivity.
    + intros r H. rewrite Lu, (Y r H). reflexivity.
    + intros r H. rewrite Lv, H. reflexivity.
    + intros r H. rewrite Lu. apply negb_true_iff in H. rewrite H. reflexivity.
    + intros r H. rewrite Lv. apply negb_true_iff in H. destruct (P2 r) eqn:E2; [reflexivity|].
      apply A. rewrite E2, H. reflexivity.
    + intros r H. rewrite Lv, (X r H). reflexivity.
    + intros r H. rewrite Lu, H. reflexivity.
  - rewrite (ao_out HA2 (s := u) (t := t)), (ao_out HA1 (s := v) (t := t)); auto; [ring| |].
    + intros A'. apply A. intros r H. apply andb_true_iff in H as [H1 H2]. specialize (A' r H1).
      rewrite Lv in A'. apply negb_true_iff in H2. rewrite H2 in A'. exact A'.
    + intros A'. apply A. intros r H. apply andb_true_iff in H as [H1 H2]. specialize (A' r H2).
      rewrite Lu in A'. apply negb_true_iff in H1. rewrite H1 in A'. exact A'.
Qed.

Definition mem (l : list nat) (r : nat) : bool := existsb (Nat.eqb r) l.
Lemma mem_spec : forall l r, mem l r = true <-> In r l.
Proof.
  intros l r. unfold mem. rewrite existsb_exists. split.
  - intros [x [Hx E]]. apply Nat.eqb_eq in E. subst. exact Hx.
  - intros H. exists r. split; [exact H | apply Nat.eqb_refl].
Qed.
Lemma mem_false : forall l r, mem l r = false <-> ~ In r l.
Proof. intros l r. rewrite <- mem_spec. destruct (mem l r); split; intros; congruence. Qed.

(** A gate that permutes basis states by changing only registers of [l],
    reading only registers of [l]. *)
Lemma classical_acts : forall dims l f,
  (forall s, valid dims s -> valid dims (f s)) ->
  (forall s r, valid dims s -> ~ In r l -> level (f s) r = level s r) ->
  (forall s t r, valid dims s -> valid dims t -> agree (mem l) s t -> In r l -> level (f s) r = level (f t) r) ->
  acts_on dims (mem l) (classical S f).
Proof.
  intros dims l f Hv H1 H2. constructor.
  - intros s t Hs Ht Hno. unfold classical. rewrite (proj2 (config_eqb_neq _ _)); [reflexivity|].
    intros E. apply Hno. intros r Hr. apply negb_true_iff, mem_false in Hr. rewrite <- E. apply H1; assumption.
  - intros s t s' t' Hs Ht Hs' Ht' A A' B B'. unfold classical.
    assert (E : f t = s <-> f t' = s').
    { split; intros E.
      - apply level_ext; [rewrite (valid_length (Hv _ Ht')), (valid_length Hs'); reflexivity|].
        intros r _. destruct (mem l r) eqn:Er.
        + rewrite <- (B r Er), <- E. apply H2; auto. intros q Hq. symmetry. apply B', Hq. apply mem_spec; exact Er.
        + rewrite H1; [symmetry; apply A'; rewrite Er; reflexivity | exact Ht' | apply mem_false; exact Er].
      - apply level_ext; [rewrite (valid_length (Hv _ Ht)), (valid_length Hs); reflexivity|].
        intros r _. destruct (mem l r) eqn:Er.
        + rewrite (B r Er), <- E. apply H2; auto. apply mem_spec; exact Er.
        + rewrite H1; [symmetry; apply A; rewrite Er; reflexivity | exact Ht | apply mem_false; exact Er]. }
    destruct (config_eqb (f t) s) eqn:E1, (config_eqb (f t') s') eqn:E2; auto; exfalso.
    + apply config_eqb_eq in E1. apply config_eqb_neq in E2. tauto.
    + apply config_eqb_neq in E1. apply config_eqb_eq in E2. tauto.
Qed.

Lemma local_acts : forall dims r u, r < length dims -> acts_on dims (mem [r]) (local S r u).
Proof.
  intros dims r u Hr.
  assert (E : forall s t, valid dims s -> valid dims t ->
            config_eqb (put t r (level s r)) s = true <-> agree (fun q => negb (mem [r] q)) s t).
  { intros s t Hs Ht. rewrite config_eqb_eq.
    assert (Lt : length t = length dims) by (apply valid_length; exact Ht).
    split; intros H.
    - intros q Hq. apply negb_true_iff, mem_false in Hq. rewrite <- H at 1.
      rewrite level_put by lia. destruct (Nat.eqb_spec q r) as [->|Hn]; [|reflexivity].
      exfalso. apply Hq. left; reflexivity.
    - apply level_ext.
      + rewrite put_length, Lt, (valid_length Hs). reflexivity.
      + intros q _. rewrite level_put by lia. destruct (Nat.eqb_spec q r) as [->|Hn]; [reflexivity|].
        symmetry. apply H. apply negb_true_iff, mem_false. simpl. intuition congruence. }
  constructor.
  - intros s t Hs Ht Hno. unfold local. destruct (config_eqb _ _) eqn:E1; [|reflexivity].
    apply E in E1; [contradiction | assumption | assumption].
  - intros s t s' t' Hs Ht Hs' Ht' A A' B B'. unfold local.
    apply E in A; [|assumption|assumption]. apply E in A'; [|assumption|assumption]. rewrite A, A'.
    assert (Er : mem [r] r = true) by (apply mem_spec; left; reflexivity).
    rewrite (B r Er), (B' r Er). reflexivity.
Qed.

Lemma firstn_levels : forall n s t, length s = length t ->
  (firstn n s = firstn n t <-> forall r, r < n -> level s r = level t r).
Proof.
  induction n as [|n IH]; intros s t Hl; simpl.
  - split; [intros _ r Hr; lia | reflexivity].
  - destruct s as [|x s], t as [|y t]; simpl in *; try discriminate.
    + split; auto.
    + split.
      * intros E r Hr. injection E as -> E. destruct r as [|r]; [reflexivity|].
        apply (proj1 (IH s t ltac:(lia)) E). lia.
      * intros H. f_equal; [apply (H 0); lia|]. apply IH; [lia|]. intros r Hr. apply (H (Datatypes.S r)). lia.
Qed.

Lemma skipn_levels : forall n s t, length s = length t ->
  (skipn n s = skipn n t <-> forall r, n <= r -> level s r = level t r).
Proof.
  intros n s t Hl. split.
  - intros E r Hr. unfold level. replace r with (n + (r - n)) by lia. rewrite <- !nth_skipn', E. reflexivity.
  - intros H. apply (nth_ext _ _ 0 0); [rewrite !skipn_length; lia|].
    intros i _. rewrite !nth_skipn'. apply H. lia.
Qed.

Lemma span_acts : forall dims r k u, r + k <= length dims ->
  acts_on dims (mem (seq r k)) (amp dims (GSpan (S := S) r k u)).
Proof.
  intros dims r k u Hr.
  assert (E : forall s t, valid dims s -> valid dims t ->
    (config_eqb (firstn r t) (firstn r s) && config_eqb (skipn (r + k) t) (skipn (r + k) s) = true
     <-> agree (fun q => negb (mem (seq r k) q)) s t)).
  { intros s t Hs Ht.
    assert (El : length t = length s) by (rewrite (valid_length Hs), (valid_length Ht); reflexivity).
    rewrite andb_true_iff, !config_eqb_eq.
    assert (Hm : forall q, mem (seq r k) q = false <-> (q < r \/ r + k <= q)).
    { intros q. rewrite mem_false, in_seq. lia. }
    split.
    - intros [H1 H2] q Hq. apply negb_true_iff, Hm in Hq. symmetry. destruct Hq as [Hq|Hq].
      + apply (proj1 (firstn_levels r t s El) H1); exact Hq.
      + apply (proj1 (skipn_levels (r + k) t s El) H2); exact Hq.
    - intros H. split.
      + apply firstn_levels; [exact El|]. intros q Hq. symmetry. apply H, negb_true_iff, Hm. lia.
      + apply skipn_levels; [exact El|]. intros q Hq. symmetry. apply H, negb_true_iff, Hm. lia. }
  assert (M : forall s s', valid dims s -> valid dims s' -> agree (mem (seq r k)) s s' ->
            firstn k (skipn r s) = firstn k (skipn r s')).
  { intros s s' Hs Hs' A. apply firstn_levels.
    - rewrite !skipn_length, (valid_length Hs), (valid_length Hs'). reflexivity.
    - intros q Hq. unfold level. rewrite !nth_skipn'. apply A, mem_spec, in_seq. lia. }
  constructor.
  - intros s t Hs Ht Hno. cbn [amp].
    destruct (config_eqb _ _ && config_eqb _ _) eqn:E1; [|reflexivity]. apply E in E1; tauto.
  - intros s t s' t' Hs Ht Hs' Ht' A A' B B'. cbn [amp].
    apply E in A; [|assumption|assumption]. apply E in A'; [|assumption|assumption]. rewrite A, A'.
    rewrite (M s s'), (M t t'); auto.
Qed.

Lemma gate_acts : forall dims (g : gate), gate_ok dims g -> acts_on dims (mem (touches g)) (amp dims g).
Proof.
  intros dims g Hg. destruct g as [r p|r|r|c t p|cs t p|r u|r k u]; simpl in Hg.
  - apply classical_acts.
    + intros s Hs. apply move_x_valid; tauto.
    + intros s q Hs Hq. unfold move_x. rewrite level_put by (rewrite (valid_length Hs); tauto).
      destruct (Nat.eqb_spec q r) as [->|]; [simpl in Hq; tauto | reflexivity].
    + intros s s' q Hs Hs' A Hq. destruct Hq as [<-|[]]. unfold move_x.
      rewrite !level_put by (rewrite ?(valid_length Hs), ?(valid_length Hs'); tauto).
      rewrite Nat.eqb_refl. rewrite (A r); [reflexivity | apply mem_spec; left; reflexivity].
  - apply local_acts; exact Hg.
  - apply local_acts; exact Hg.
  - destruct Hg as [Hc Ht]. apply classical_acts.
    + intros s Hs. apply move_cx_valid; tauto.
    + intros s q Hs Hq. simpl in Hq. unfold move_cx. destruct (top dims s c); [|reflexivity].
      unfold move_x. rewrite level_put by (rewrite (valid_length Hs); tauto).
      destruct (Nat.eqb_spec q t) as [->|]; [tauto | reflexivity].
    + intros s s' q Hs Hs' A Hq. unfold move_cx.
      assert (Ec : level s c = level s' c) by (apply A, mem_spec; left; reflexivity).
      assert (Et : level s t = level s' t) by (apply A, mem_spec; right; left; reflexivity).
      unfold top. rewrite Ec. destruct (level s' c + 1 =? nth c dims 0).
      * unfold move_x. rewrite !level_put by (rewrite ?(valid_length Hs), ?(valid_length Hs'); tauto).
        destruct (q =? t); [rewrite Et; reflexivity | apply A, mem_spec; exact Hq].
      * apply A, mem_spec; exact Hq.
  - destruct Hg as [Hc [Ht [Hne _]]]. apply classical_acts.
    + intros s Hs. apply move_tof_valid; tauto.
    + intros s q Hs Hq. cbn [touches] in Hq. rewrite in_app_iff in Hq. simpl in Hq.
      unfold move_tof. destruct (forallb _ _); [|reflexivity].
      unfold move_x. rewrite level_put by (rewrite (valid_length Hs); tauto).
      destruct (Nat.eqb_spec q t) as [->|]; [tauto | reflexivity].
    + intros s s' q Hs Hs' A Hq. unfold move_tof.
      assert (Et : level s t = level s' t) by (apply A, mem_spec, in_or_app; right; left; reflexivity).
      assert (Ec : forallb (top dims s) cs = forallb (top dims s') cs).
      { apply forallb_ext_in. intros x Hx. unfold top. rewrite (A x); [reflexivity|].
        apply mem_spec, in_or_app; left; exact Hx. }
      rewrite Ec. destruct (forallb (top dims s') cs).
      * unfold move_x. rewrite !level_put by (rewrite ?(valid_length Hs), ?(valid_length Hs'); tauto).
        destruct (q =? t); [rewrite Et; reflexivity | apply A, mem_spec; exact Hq].
      * apply A, mem_spec; exact Hq.
  - destruct Hg as [Hr _]. apply local_acts; exact Hr.
  - destruct Hg as [_ [Hr _]]. apply span_acts; exact Hr.
Qed.

Theorem disjoint_swap : forall dims levels out ty me ks1 ks2 k k' prog1 prog2 g g',
  dims <> [] -> (forall d, In d dims -> 2 <= d) ->
  length levels <= length dims -> valid dims (start dims levels) ->
  wants dims out ty me ->
  Forall2 (denotes dims) ks1 prog1 -> Forall (gate_ok dims) prog1 ->
  Forall2 (denotes dims) ks2 prog2 -> Forall (gate_ok dims) prog2 ->
  gate_ok dims g -> gate_ok dims g' ->
  (forall r, In r (touches g) -> In r (touches g') -> False) ->
  denotes dims k g -> denotes dims k' g' ->
  simulate (NumpyBackend S) (QList (map Z.of_nat dims)) (Some (map Z.of_nat levels)) out (ks1 ++ k :: k' :: ks2)
  = simulate (NumpyBackend S) (QList (map Z.of_nat dims)) (Some (map Z.of_nat levels)) out (ks1 ++ k' :: k :: ks2).
Proof.
  intros dims levels out ty me ks1 ks2 k k' prog1 prog2 g g' Hne Hd Hlen Hv Hw HF1 Hok1 HF2 Hok2 Hg Hg' Hdis Hk Hk'.
  apply (@simulate_same dims levels out ty me _ _ (prog1 ++ g :: g' :: prog2) (prog1 ++ g' :: g :: prog2)); auto.
  1,3: apply Forall2_app; [exact HF1|]; repeat (constructor; auto).
  1,2: apply Forall_app; split; [exact Hok1|]; repeat (constructor; auto).
  intros psi s Hs. rewrite !final_app. simpl. apply final_ext; [|exact Hs].
  intros u Hu. rewrite !apply_kapply.
  rewrite kapply_ext with (K' := amp dims g') (psi' := kapply S dims (amp dims g) (final dims prog1 psi)); auto.
  2: { intros v _. apply apply_kapply. }
  rewrite (@disjoint_commute dims (mem (touches g')) (mem (touches g))); auto using gate_acts.
  - apply kapply_ext; auto. intros v _. symmetry. apply apply_kapply.
  - intros r H1 H2. apply mem_spec in H1, H2. eauto.
Qed.

End Reversible.
