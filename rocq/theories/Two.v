(** * Two: circuits on two qubits, followed as vectors of four amplitudes. *)
From Verif Require Import Py Scalar Mat Utils Gates Circuit Spec Calls Lib Flow Layers Blocks Refine Run Reversible Parts Moved Local Props_Run Product Algo.
Set Implicit Arguments.
Open Scope nat_scope.

Section Two.
Variable S : scalar.
Variable L : scalar_laws S.
Add Ring Tring : (sl_ring L).
Notation gate := (gate S).
Notation "x +s y" := (sadd x y) (at level 50).
Notation "x *s y" := (smul x y) (at level 40).
Hypothesis Hroot : nth 0 (sroots 2) s0 = sopp s1 :> S.
Hypothesis Hscale : sadd (smul (sisqrt 2) (sisqrt 2)) (smul (sisqrt 2) (sisqrt 2)) = s1 :> S.
Notation h := (sisqrt (s := S) 2).

Definition is (psi : config -> S) (a b c d : S) : Prop := psi [0; 0] = a /\ psi [0; 1] = b /\ psi [1; 0] = c /\ psi [1; 1] = d.

Lemma valid_two : forall s, valid [2; 2] s -> s = [0; 0] \/ s = [0; 1] \/ s = [1; 0] \/ s = [1; 1].
Proof.
  intros s H. inversion H as [|x d s1 ds Hx H1]; subst. inversion H1 as [|y d s2 ds' Hy H2]; subst. inversion H2; subst.
  assert (D : x = 0 \/ x = 1) by lia. assert (E : y = 0 \/ y = 1) by lia. destruct D, E; subst; tauto.
Qed.
Lemma two_valid : forall x y, x < 2 -> y < 2 -> valid [2; 2] [x; y].
Proof. intros. constructor; [assumption|]. constructor; [assumption | constructor]. Qed.

Lemma apply_h : forall r psi s, valid [2; 2] s -> r < 2 ->
  apply [2; 2] (GH r) psi s = h *s (psi (put s r 0) +s sign S (level s r) *s psi (put s r 1)).
Proof.
  intros r psi s Hs Hr. rewrite apply_kapply. unfold kapply. cbn [amp]. rewrite (local_apply L) by assumption.
  pose proof (valid_level Hs (r := r) Hr) as V. change [2; 2] with (qubits 2) in *. rewrite nth_qubits in * by exact Hr.
  exact (hh_val L Hroot (fun j => psi (put s r j)) V).
Qed.
Lemma step_h0 : forall psi a b c d, is psi a b c d ->
  is (apply [2; 2] (GH 0) psi) (h *s (a +s c)) (h *s (b +s d)) (h *s (a +s sopp c)) (h *s (b +s sopp d)).
Proof.
  intros psi a b c d [A [B [C D]]]. repeat split; rewrite apply_h by (try (apply two_valid; lia); lia);
    unfold level, sign; cbn [put nth Nat.eqb]; rewrite ?A, ?B, ?C, ?D; ring.
Qed.
Lemma step_h1 : forall psi a b c d, is psi a b c d ->
  is (apply [2; 2] (GH 1) psi) (h *s (a +s b)) (h *s (a +s sopp b)) (h *s (c +s d)) (h *s (c +s sopp d)).
Proof.
  intros psi a b c d [A [B [C D]]]. repeat split; rewrite apply_h by (try (apply two_valid; lia); lia);
    unfold level, sign; cbn [put nth Nat.eqb]; rewrite ?A, ?B, ?C, ?D; ring.
Qed.
Lemma step_x0 : forall psi a b c d, is psi a b c d -> is (apply [2; 2] (GX 0 1) psi) c d a b.
Proof.
  intros psi a b c d [A [B [C D]]].
  repeat split; (rewrite (apply_reversible L); [assumption | exact I | simpl; lia | apply two_valid; lia]).
Qed.
Lemma step_x1 : forall psi a b c d, is psi a b c d -> is (apply [2; 2] (GX 1 1) psi) b a d c.
Proof.
  intros psi a b c d [A [B [C D]]].
  repeat split; (rewrite (apply_reversible L); [assumption | exact I | simpl; lia | apply two_valid; lia]).
Qed.
Lemma step_cx : forall psi a b c d, is psi a b c d -> is (apply [2; 2] (GCX 0 1 1) psi) a b d c.
Proof.
  intros psi a b c d [A [B [C D]]].
  repeat split; (rewrite (apply_reversible L); [assumption | simpl; lia | simpl; lia | apply two_valid; lia]).
Qed.
Lemma is_eq : forall psi a b c d a' b' c' d', is psi a b c d -> a = a' -> b = b' -> c = c' -> d = d' -> is psi a' b' c' d'.
Proof. intros; subst; assumption. Qed.

(** h on both qubits; the phase flip of the state 11. *)
Notation k := (h *s h).
Lemma both_h : forall psi a b c d, is psi a b c d ->
  is (final [2; 2] [GH 0; GH 1] psi) (k *s (a +s b +s c +s d)) (k *s (a +s (sopp b) +s c +s (sopp d))) (k *s (a +s b +s (sopp c) +s (sopp d))) (k *s (a +s (sopp b) +s (sopp c) +s d)).
Proof. intros psi a b c d H. cbn [final]. eapply is_eq; [exact (step_h1 (step_h0 H)) | ring ..]. Qed.

Lemma flip : forall psi a b c d, is psi a b c d -> is (final [2; 2] [GH 1; GCX 0 1 1; GH 1] psi) a b c (sopp d).
Proof.
  intros psi a b c d H. cbn [final]. pose proof (step_h1 (step_cx (step_h1 H))) as K.
  eapply is_eq; [exact K | ..].
  - transitivity ((k +s k) *s a); [ring | rewrite Hscale; ring].
  - transitivity ((k +s k) *s b); [ring | rewrite Hscale; ring].
  - transitivity ((k +s k) *s c); [ring | rewrite Hscale; ring].
  - transitivity ((k +s k) *s (sopp d)); [ring | rewrite Hscale; ring].
Qed.

(** The x gates around the flip that select the marked state. *)
Definition around (m : nat * nat) : list gate := (if Nat.eqb (fst m) 1 then [] else [GX 0 1]) ++ (if Nat.eqb (snd m) 1 then [] else [GX 1 1]).
Definition mark (m : nat * nat) : list gate := around m ++ ([GH 1; GCX 0 1 1; GH 1] : list gate) ++ around m.
Definition grover (m : nat * nat) : list gate := [GH 0; GH 1] ++ mark m ++ [GH 0; GH 1] ++ mark (0, 0) ++ [GH 0; GH 1].

Lemma final_app : forall (p q : list gate) psi, final [2; 2] (p ++ q) psi = final [2; 2] q (final [2; 2] p psi).
Proof. induction p as [|g p IH]; intros q psi; simpl; [reflexivity | apply IH]. Qed.

Definition neg_if (x y : nat * nat) (a : S) : S := if Nat.eqb (fst x) (fst y) && Nat.eqb (snd x) (snd y) then (sopp a) else a.
Lemma mark_flips : forall m psi a b c d, fst m < 2 -> snd m < 2 -> is psi a b c d ->
  is (final [2; 2] (mark m) psi) (neg_if m (0, 0) a) (neg_if m (0, 1) b) (neg_if m (1, 0) c) (neg_if m (1, 1) d).
Proof.
  intros [x y] psi a b c d Hx Hy H. simpl in Hx, Hy. unfold mark. rewrite !final_app.
  assert (D : x = 0 \/ x = 1) by lia. assert (E : y = 0 \/ y = 1) by lia.
  destruct D as [-> | ->], E as [-> | ->]; cbn [around fst snd Nat.eqb app neg_if andb].
  - exact (step_x1 (step_x0 (flip (step_x1 (step_x0 H))))).
  - exact (step_x0 (flip (step_x0 H))).
  - exact (step_x1 (flip (step_x1 H))).
  - exact (flip H).
Qed.

Ltac half := first [ring | transitivity (k *s (k +s k)); [ring | rewrite Hscale; ring]
  | transitivity (sopp (k *s (k +s k))); [ring | rewrite Hscale; ring]
  | transitivity (sopp ((k +s k) *s (k +s k))); [ring | rewrite Hscale; ring]
  | transitivity ((k +s k) *s (k +s k)); [ring | rewrite Hscale; ring] ].

Ltac decide_eq := unfold basis;
  repeat match goal with |- context [config_eqb ?a ?b] => let v := eval vm_compute in (config_eqb a b) in change (config_eqb a b) with v end; cbn [Nat.eqb].

Lemma start_two : is (basis S [0; 0]) s1 s0 s0 s0.
Proof. repeat split. Qed.

Lemma grover_state : forall x y s, x < 2 -> y < 2 -> valid [2; 2] s ->
  final [2; 2] (grover (x, y)) (basis S [0; 0]) s = sopp (basis S [x; y] s).
Proof.
  intros x y s Hx Hy Hs. unfold grover. rewrite !final_app.
  pose proof (both_h start_two) as K.
  assert (K1 : is (final [2; 2] [GH 0; GH 1] (basis S [0; 0])) k k k k) by (eapply is_eq; [exact K | ring ..]).
  pose proof (mark_flips (x, y) Hx Hy K1) as K2.
  assert (D : x = 0 \/ x = 1) by lia. assert (E : y = 0 \/ y = 1) by lia.
  set (psi := final [2; 2] (mark (x, y)) _) in *.
  assert (K4 : is (final [2; 2] [GH 0; GH 1] psi) k (if Nat.eqb x y then (if Nat.eqb x 0 then (sopp k) else k) else (if Nat.eqb x 0 then k else (sopp k)))
    (if Nat.eqb y 0 then (if Nat.eqb x 0 then (sopp k) else k) else (if Nat.eqb x 0 then (sopp k) else k)) (if Nat.eqb x y then (sopp k) else k)).
  { destruct D as [-> | ->], E as [-> | ->]; cbn [neg_if fst snd Nat.eqb andb] in K2 |- *; pose proof (both_h K2) as K3; (eapply is_eq; [exact K3 | half ..]). }
  pose proof (mark_flips (0, 0) ltac:(simpl; lia) ltac:(simpl; lia) K4) as K5. cbn [neg_if fst snd Nat.eqb andb] in K5. pose proof (both_h K5) as [A [B [C F]]].
  destruct (valid_two Hs) as [->|[->|[->| ->]]]; [rewrite A | rewrite B | rewrite C | rewrite F]; clear - D E L Hscale;
    destruct D as [-> | ->], E as [-> | ->]; decide_eq; half.
Qed.

(** The same without the last x gates around the second flip. *)
Lemma plain_state : forall s, valid [2; 2] s ->
  final [2; 2] ([GH 0; GH 1] ++ mark (1, 1) ++ [GH 0; GH 1] ++ mark (1, 1) ++ [GH 0; GH 1]) (basis S [0; 0]) s = basis S [0; 0] s.
Proof.
  intros s Hs. rewrite !final_app.
  assert (K1 : is (final [2; 2] [GH 0; GH 1] (basis S [0; 0])) k k k k) by (eapply is_eq; [exact (both_h start_two) | ring ..]).
  pose proof (mark_flips (1, 1) ltac:(simpl; lia) ltac:(simpl; lia) K1) as K2. cbn [neg_if fst snd Nat.eqb andb] in K2.
  set (psi := final [2; 2] (mark (1, 1)) _) in *.
  assert (K4 : is (final [2; 2] [GH 0; GH 1] psi) k k k (sopp k)) by (eapply is_eq; [exact (both_h K2) | half ..]).
  pose proof (mark_flips (1, 1) ltac:(simpl; lia) ltac:(simpl; lia) K4) as K5. cbn [neg_if fst snd Nat.eqb andb] in K5. pose proof (both_h K5) as [A [B [C F]]].
  destruct (valid_two Hs) as [->|[->|[->| ->]]]; [rewrite A | rewrite B | rewrite C | rewrite F]; decide_eq; half.
Qed.
End Two.
