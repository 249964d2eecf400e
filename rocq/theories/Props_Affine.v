(** * Props_Affine: what x and cx compute on qubits (C113). *)
From Coq Require Import List Arith ZArith Lia Bool String.
From Verif Require Import Py Scalar Mat Utils Gates Circuit Spec Calls Run Reversible PermSpec Universal Affine Props_Run Props_Universal ExLib.
Import ListNotations.
Local Notation length := List.length.

(** A call of x or cx. *)
Definition x_or_cx {S} (k : call S) : Prop := match k with CX _ _ _ | CCX _ _ => True | _ => False end.

Lemma asks_plain : forall S dims (ks : list (call S)) prog, asks dims ks prog -> (forall k, In k ks -> x_or_cx k) ->
  Forall (plain (S := S)) prog /\ Forall (gate_ok dims) prog.
Proof.
  intros S dims ks prog [D G] Hk. split; [|exact G]. clear G. induction D as [|k g ks prog Dk D IH]; [constructor|].
  constructor; [|apply IH; intros x Hx; apply Hk; right; exact Hx]. pose proof (Hk k (or_introl eq_refl)) as X.
  destruct Dk; try contradiction; exact I.
Qed.

Lemma asks_computes : forall S (L : scalar_laws S) dims (ks : list (call S)) prog, asks dims ks prog -> (forall k, In k ks -> x_or_cx k) ->
  computes dims ks (moves dims prog).
Proof.
  intros S L dims ks prog Ha Hk B levels out ty me HB HL Hw.
  rewrite (C05_reversible_circuits_give_one_outcome S L B dims levels out ty me ks prog HB HL Hw Ha); [reflexivity|].
  apply forallb_forall. intros g Hg. destruct (asks_plain _ _ _ _ Ha Hk) as [P _]. rewrite Forall_forall in P. specialize (P g Hg).
  destruct g; try contradiction; reflexivity.
Qed.

(** Calls compute at most one function. *)
Lemma computes_once : forall S dims (ks : list (call S)) f g, dims <> [] -> (forall d, In d dims -> 2 <= d) ->
  computes dims ks f -> computes dims ks g -> forall s, valid dims s -> f s = g s.
Proof.
  intros S dims ks f g Hne Hd Hf Hg s Hs.
  set (o := {| o_base := map Z.of_nat dims; o_type := OutState; o_method := OutAmplitude |}).
  assert (Es : start dims s = s). { unfold start. rewrite (Lib.valid_length Hs), Nat.sub_diag. apply app_nil_r. }
  assert (HL : line dims s). { split; [exact Hne|]. split; [exact Hd|]. rewrite Es. rewrite (Lib.valid_length Hs). split; [apply le_n | exact Hs]. }
  assert (Hw : wants dims (Some o) OutState OutAmplitude) by (left; reflexivity).
  pose proof (Hf (NumpyBackend S) s (Some o) OutState OutAmplitude (or_introl eq_refl) HL Hw) as E1.
  rewrite (Hg (NumpyBackend S) s (Some o) OutState OutAmplitude (or_introl eq_refl) HL Hw) in E1.
  rewrite Es in E1. injection E1 as E1. apply (f_equal (map Z.to_nat)) in E1. rewrite !map_map in E1.
  rewrite !(map_ext (fun x => Z.to_nat (Z.of_nat x)) (fun x => x) Nat2Z.id), !map_id in E1. symmetry. exact E1.
Qed.

Lemma qubits : forall n d, In d (repeat 2 n) -> 2 <= d.
Proof. intros n d H. apply repeat_spec in H. subst d. apply le_n. Qed.

(** ** C113: on qubits, x and cx compute affine functions only. *)
Theorem C113_x_and_cx_compute_affine_functions :
  forall S (L : scalar_laws S) n ks prog, asks (repeat 2 n) ks prog -> (forall k, In k ks -> x_or_cx k) ->
  exists f, affine n f /\ (forall s, valid (repeat 2 n) s -> valid (repeat 2 n) (f s)) /\ computes (S := S) (repeat 2 n) ks f.
Proof.
  intros S L n ks prog Ha Hk. destruct (asks_plain _ _ _ _ Ha Hk) as [P G]. destruct (plain_moves n P G) as [Hv Haf].
  exists (moves (repeat 2 n) prog). split; [exact Haf|]. split; [exact Hv|]. apply (asks_computes S L); assumption.
Qed.

Theorem C113_nothing_else_is_computed :
  forall S (L : scalar_laws S) n ks prog f, 1 <= n -> asks (repeat 2 n) ks prog -> (forall k, In k ks -> x_or_cx k) ->
  computes (S := S) (repeat 2 n) ks f -> affine n f.
Proof.
  intros S L n ks prog f Hn Ha Hk Hc.
  destruct (C113_x_and_cx_compute_affine_functions S L n ks prog Ha Hk) as [g [Hg [Hv Hcg]]].
  assert (E : forall s, valid (repeat 2 n) s -> f s = g s).
  { apply (computes_once S (repeat 2 n) ks); [destruct n; [lia | discriminate] | apply qubits | exact Hc | exact Hcg]. }
  intros a b c Va Vb Vc. rewrite !E by (auto using xor_ok). apply Hg; assumption.
Qed.

(** Every affine permutation of the configurations is computed by some of them,
    not more than one x for each qubit and one cx for each pair. *)
Theorem C113_every_affine_permutation_is_computed :
  forall S (L : scalar_laws S) n f, permutes (repeat 2 n) f -> affine n f ->
  exists ks : list (call S), (forall k, In k ks -> x_or_cx k) /\ length ks <= n + n * n /\ computes (repeat 2 n) ks f.
Proof.
  intros S L n f Hp Ha. destruct (affine_within S Hp Ha) as [prog [Hl [Hs E]]].
  assert (C : exists ks : list (call S), length ks = length prog /\ (forall k, In k ks -> x_or_cx k) /\ asks (repeat 2 n) ks prog).
  { clear E Hl. induction prog as [|g prog IH]; [exists []; split; [reflexivity|]; split; [intros k [] | split; constructor]|].
    destruct (IH (fun x Hx => Hs x (or_intror Hx))) as [ks [El [Hk [D G]]]]. pose proof (Hs g (or_introl eq_refl)) as R.
    destruct g as [r p|r|r|c t p|cs t p|r u|r k u]; try contradiction; cbn [simple] in R.
    - destruct R as [Hr ->]. exists (CX (Z.of_nat r) None 1 :: ks). split; [cbn [length]; lia|]. split; [intros k [<-|Hx]; [exact I | apply Hk, Hx]|].
      split; constructor; try assumption; [constructor; left; reflexivity|]. cbn [gate_ok]. rewrite repeat_length. split; [exact Hr|].
      rewrite (Affine.two Hr). lia.
    - destruct R as [Hc [Ht [_ ->]]]. exists (CCX [Z.of_nat c; Z.of_nat t] 1 :: ks). split; [cbn [length]; lia|]. split; [intros k [<-|Hx]; [exact I | apply Hk, Hx]|].
      split; constructor; try assumption; [constructor|]. cbn [gate_ok]. rewrite repeat_length. split; assumption. }
  destruct C as [ks [El [Hk Hask]]]. exists ks. split; [exact Hk|]. split; [lia|].
  intros B levels out ty me HB HL Hw. rewrite (asks_computes S L _ ks prog Hask Hk B levels out ty me HB HL Hw), E; [reflexivity | apply HL].
Qed.

(** So the conjunction of two qubits cannot be added to a third without toffoli
    (or h, z and the like). *)
Theorem C113_no_conjunction_from_x_and_cx :
  forall S (L : scalar_laws S) n i j t ks prog, i < n -> j < n -> t < n -> i <> j -> i <> t -> j <> t ->
  asks (repeat 2 n) ks prog -> (forall k, In k ks -> x_or_cx k) ->
  ~ computes (S := S) (repeat 2 n) ks (fun s => put s t ((level s t + level s i * level s j) mod 2)).
Proof.
  intros S L n i j t ks prog Hi Hj Ht Nij Nit Njt Ha Hk Hc.
  pose proof (C113_nothing_else_is_computed S L n ks prog _ ltac:(lia) Ha Hk Hc (zeros n) (unit_at n i) (unit_at n j)
    (zeros_ok n) (unit_ok Hi) (unit_ok Hj)) as X.
  apply (f_equal (fun s => level s t)) in X. revert X.
  pose proof (zeros_ok n) as Vz. pose proof (unit_ok Hi) as Vi. pose proof (unit_ok Hj) as Vj.
  pose proof (xor_ok n Vz (xor_ok n Vi Vj)) as Vx.
  assert (G : forall s, valid (repeat 2 n) s -> valid (repeat 2 n) (put s t ((level s t + level s i * level s j) mod 2)) /\
              level (put s t ((level s t + level s i * level s j) mod 2)) t = (level s t + level s i * level s j) mod 2).
  { intros s Hs. split; [apply Lib.valid_put; [exact Hs | rewrite (Affine.two Ht); apply Nat.mod_upper_bound; discriminate]|].
    rewrite Lib.level_put by (rewrite (ok_length n Hs); exact Ht). rewrite Nat.eqb_refl. reflexivity. }
  rewrite (proj2 (G _ Vx)), (lev3 (proj1 (G _ Vz)) (proj1 (G _ Vi)) (proj1 (G _ Vj)) Ht).
  rewrite (proj2 (G _ Vz)), (proj2 (G _ Vi)), (proj2 (G _ Vj)). rewrite !(lev3 Vz Vi Vj) by assumption.
  rewrite !zeros_level, !unit_level by assumption. rewrite !Nat.eqb_refl.
  rewrite (proj2 (Nat.eqb_neq t i)), (proj2 (Nat.eqb_neq t j)), (proj2 (Nat.eqb_neq i j)), (proj2 (Nat.eqb_neq j i)) by congruence.
  discriminate.
Qed.

(** ** Concrete cases *)
Section Examples.
Let S := Zscalar.

Lemma two_bits : forall a, valid [2; 2] a -> In a [[0; 0]; [0; 1]; [1; 0]; [1; 1]].
Proof. intros a H. apply Lib.in_all_configs in H. exact H. Qed.

(** Two qubits exchanged, the first of them flipped afterwards. *)
Example ex_C113_exchange :
  let f := fun s => [(level s 1 + 1) mod 2; level s 0] in
  let ks := [CCX [0; 1] 1; CCX [1; 0] 1; CCX [0; 1] 1; CX 0 None 1]%Z : list (call S) in
  permutes (repeat 2 2) f /\ affine 2 f /\ (forall k, In k ks -> x_or_cx k) /\
  asks (repeat 2 2) ks [@GCX S 0 1 1; GCX 1 0 1; GCX 0 1 1; GX 0 1] /\
  map (fun s => simulate (NumpyBackend S) (QList [2; 2]%Z) (Some (map Z.of_nat s)) None ks) (all_configs [2; 2])
  = map (fun s => Ok [(shown OutPrint (f s), 1%Z)]) (all_configs [2; 2]).
Proof.
  cbv zeta. split; [split|split; [|split; [|split]]].
  - intros s Hs. apply Lib.in_all_configs. apply two_bits in Hs. cbn in Hs. decompose [or] Hs; try contradiction; subst s; vm_compute; tauto.
  - intros s t Hs Ht. apply two_bits in Hs, Ht. cbn in Hs, Ht. decompose [or] Hs; try contradiction; decompose [or] Ht; try contradiction; subst s t; vm_compute; congruence.
  - intros a b c Ha Hb Hc. apply two_bits in Ha, Hb, Hc. cbn in Ha, Hb, Hc.
    decompose [or] Ha; try contradiction; decompose [or] Hb; try contradiction; decompose [or] Hc; try contradiction; subst a b c; reflexivity.
  - intros k Hk. cbn in Hk. decompose [or] Hk; try contradiction; subst k; exact I.
  - split; [|repeat (constructor; [cbn; lia|]); constructor].
    constructor; [exact (@den_cx S [2; 2] 0 1 1%Z)|]. constructor; [exact (@den_cx S [2; 2] 1 0 1%Z)|]. constructor; [exact (@den_cx S [2; 2] 0 1 1%Z)|].
    constructor; [exact (@den_x S [2; 2] 0 None 1%Z (or_introl eq_refl)) | constructor].
  - vm_compute. reflexivity.
Qed.

(** The conjunction is computed by one toffoli. *)
Example ex_C113_conjunction :
  map (fun s => simulate (NumpyBackend S) (QList [2; 2; 2]%Z) (Some (map Z.of_nat s)) None [CTof [0; 1] 2 1]%Z) (all_configs [2; 2; 2])
  = map (fun s => Ok [(shown OutPrint (put s 2 ((level s 2 + level s 0 * level s 1) mod 2)), 1%Z)]) (all_configs [2; 2; 2]).
Proof. vm_compute. reflexivity. Qed.

(** On qutrits cx is not additive: it acts at the top level only. *)
Example ex_C113_qutrits :
  map (fun s => simulate (NumpyBackend S) (QList [3; 3]%Z) (Some s) None [CCX [0; 1] 1]%Z) [[0; 0]; [1; 0]; [2; 0]]%Z
  = map (fun t => Ok [(LStr t, 1%Z)]) ["|00>"; "|10>"; "|21>"]%string.
Proof. vm_compute. reflexivity. Qed.
End Examples.

Print Assumptions C113_x_and_cx_compute_affine_functions.
Print Assumptions C113_nothing_else_is_computed.
Print Assumptions C113_every_affine_permutation_is_computed.
Print Assumptions C113_no_conjunction_from_x_and_cx.
