(** * StabRun: circuits of h, x, z and cx on qubits. *)
From Coq Require Import Reals Lra.
From Verif Require Import Py Scalar Mat Utils Gates Circuit Spec Calls Run Lib Kern Layers Refine GateMat Reversible Local Merge Parts PermSpec Universal Affine Stab
  Complex ComplexSpec ComplexLib ComplexGates ComplexRun Product Algo.
Set Implicit Arguments.
Local Notation length := List.length.

Section Run.
Variable ord : nat -> list nat.
Hypothesis Hord : orders ord.
Hypothesis H1 : one_last ord 2.
Notation CS := (Cscalar ord).
Notation LC := (Cscalar_laws Hord).
Variable n : nat.
Notation dims := (repeat 2 n).
Notation V := (valid dims).
Notation o := (zeros n).

(** The amplitudes are the integers [z], scaled [h] times. *)
Definition rep (h : nat) (z : config -> Z) (psi : config -> CS) : Prop :=
  forall s, V s -> psi s = ((/ sqrt 2) ^ h * IZR (z s), 0)%R.

Lemma apply_h : forall r (psi : config -> CS) s, V s -> r < n ->
  apply dims (GH r) psi s = Cmul ((/ sqrt 2)%R, 0%R) (Cadd (psi (put s r 0)) (Cmul (sign CS (level s r)) (psi (put s r 1)))).
Proof.
  intros r psi s Hs Hr. rewrite apply_kapply. unfold kapply. cbn [amp]. rewrite (local_apply LC) by (try assumption; rewrite repeat_length; assumption).
  assert (X : level s r < 2) by (destruct (ok_level Hs Hr); lia). rewrite (Affine.two Hr).
  assert (Hroot : nth 0 (sroots 2) s0 = sopp s1 :> CS).
  { unfold Cscalar. cbn [sroots s0 s1 sopp]. rewrite (ord_2 Hord H1). cbn [map nth]. rewrite root_2_1. apply C_ext; simpl; ring. }
  exact (hh_val LC Hroot (fun j => psi (put s r j)) X).
Qed.

Lemma step_rep : forall g h z psi, gate_ok dims g -> clifford g -> rep h z psi ->
  exists z', rep (h + if is_h g then 1 else 0) z' (apply dims g psi) /\ follows n (if is_h g then 2 else 1) z z'.
Proof.
  intros g h z psi Hg Hc Hr. destruct g as [r p|r|r|c t p|cs t p|r u|r k u]; try contradiction; cbn [is_h gate_ok clifford] in *; rewrite ?repeat_length in Hg.
  - exists (fun x => z (move_x dims r (- p) x)). destruct Hg as [Lr Hp]. split.
    + intros s Hs. rewrite (@apply_reversible CS LC dims (GX r p) psi s I (conj (eq_ind_r (fun m => r < m) Lr (repeat_length 2 n)) Hp) Hs).
      cbn [undo move]. rewrite Hr by (apply x_ok; assumption). rewrite Nat.add_0_r. reflexivity.
    + destruct (Z.to_nat (- p mod 2) =? 1) eqn:X.
      * apply (follows_ext _ (@follows_x n z r Lr)). intros x Hx. rewrite x_xor, X by assumption. reflexivity.
      * apply (follows_ext _ (@follows_id n z)). intros x Hx. rewrite x_xor, X by assumption. reflexivity.
  - exists (hstep r z). split; [|apply follows_h; exact Hg]. intros s Hs. rewrite apply_h by assumption.
    assert (Vp : forall b, b < 2 -> V (put s r b)) by (intros b Hb; apply valid_put; [exact Hs | rewrite (Affine.two Hg); exact Hb]).
    rewrite !Hr by (apply Vp; lia). unfold hstep, sb, sign. rewrite plus_IZR, mult_IZR, Nat.add_comm.
    destruct (level s r =? 1); apply C_ext; simpl; ring.
  - exists (fun x => (- sb (level x r) * z x)%Z). split; [|apply follows_z; exact Hg]. intros s Hs.
    rewrite (@apply_z ord Hord) by (try assumption; rewrite repeat_length; assumption). rewrite Hr by exact Hs. rewrite (Affine.two Hg). unfold phase. rewrite (ord_2 Hord H1), Nat.add_0_r.
    rewrite mult_IZR, opp_IZR. destruct (ok_level Hs Hg) as [->| ->]; cbn [nth]; rewrite ?root_2_1, ?root_0; unfold sb; cbn [Nat.eqb]; apply C_ext; simpl; ring.
  - exists (fun x => z (move_cx dims c t (- p) x)). destruct Hg as [Lc Lt]. split.
    + intros s Hs. rewrite (@apply_reversible CS LC dims (GCX c t p) psi s Hc (conj (eq_ind_r (fun m => c < m) Lc (repeat_length 2 n)) (eq_ind_r (fun m => t < m) Lt (repeat_length 2 n))) Hs).
      cbn [undo move]. rewrite Hr by (apply cx_ok; assumption). rewrite Nat.add_0_r. reflexivity.
    + destruct (Z.to_nat (- p mod 2) =? 1) eqn:X.
      * apply (follows_ext _ (@follows_cx n z c t Lc Lt Hc)). intros x Hx. rewrite cx_xor, X by assumption. reflexivity.
      * apply (follows_ext _ (@follows_id n z)). intros x Hx. rewrite cx_xor, X by assumption. reflexivity.
Qed.

Lemma run_rep : forall prog h z psi, Forall (gate_ok dims) prog -> (forall g, In g prog -> clifford g) ->
  rep h z psi -> flat n z -> E n z o o = (2 ^ Z.of_nat h)%Z ->
  let h' := h + length (filter is_h prog) in
  exists z', rep h' z' (final dims prog psi) /\ flat n z' /\ E n z' o o = (2 ^ Z.of_nat h')%Z.
Proof.
  induction prog as [|g prog IH]; intros h z psi Hg Hc Hr Hf Hn; cbv zeta; cbn [filter length final].
  - rewrite Nat.add_0_r. exists z. auto.
  - inversion_clear Hg as [|? ? G1 G2]. destruct (@step_rep g h z psi G1 (Hc g (or_introl eq_refl)) Hr) as [z1 [R1 F1]].
    destruct (IH (h + if is_h g then 1 else 0) z1 (apply dims g psi) G2) as [z' [R' [F' N']]]; try assumption.
    + intros x Hx. apply Hc. right. exact Hx.
    + apply (follows_flat F1 Hf).
    + destruct F1 as [-> _]. rewrite Hn. destruct (is_h g); [|rewrite Nat.add_0_r; lia].
      rewrite Nat.add_1_r, Nat2Z.inj_succ, Z.pow_succ_r by lia. reflexivity.
    + exists z'. destruct (is_h g); cbn [length] in *; replace (h + 1 + length (filter is_h prog)) with (h + Datatypes.S (length (filter is_h prog))) in * by lia;
        rewrite ?Nat.add_0_r in *; auto.
Qed.

Lemma half_pow : forall h, ((/ sqrt 2) ^ h * (/ sqrt 2) ^ h = / 2 ^ h)%R.
Proof.
  intros h. rewrite <- Rpow_mult_distr, <- Rinv_mult, sqrt_sqrt by lra. rewrite pow_inv. reflexivity.
Qed.

Theorem clifford_answer : forall prog s, Forall (gate_ok dims) prog -> (forall g, In g prog -> clifford g) -> V s ->
  exists k l (neg : config -> bool), k <= length (filter is_h prog) /\ NoDup l /\ (forall t, In t l -> V t) /\ length l = 2 ^ k /\
  (forall a b c, In a l -> In b l -> In c l -> In (xor a (xor b c)) l) /\
  answer dims (final dims prog (basis CS s)) = map (fun t => (t, ((if neg t then - / sqrt (2 ^ k) else / sqrt (2 ^ k)), 0)%R)) l.
Proof.
  intros prog s Hg Hc Hs. destruct (flat_basis n Hs) as [F0 N0].
  destruct (@run_rep prog 0 (fun x => if config_eqb s x then 1%Z else 0%Z) (basis CS s) Hg Hc) as [z [R [F N]]]; [| exact F0 | exact N0 |].
  { intros x Hx. unfold basis. destruct (config_eqb s x); apply C_ext; simpl; ring. }
  cbn [Nat.add] in *. set (h := length (filter is_h prog)) in *. destruct (flat_counts h F N) as [k [Hk [Hl Hz]]].
  set (A := filter (fun s => negb (z s =? 0)%Z) (all_configs dims)) in *.
  assert (HA : forall x, In x A <-> V x /\ z x <> 0%Z).
  { intros x. unfold A. rewrite filter_In, in_all_configs, negb_true_iff, Z.eqb_neq. reflexivity. }
  assert (P2 : (0 < sqrt 2)%R) by (apply sqrt_lt_R0; lra).
  exists k, A, (fun t => (z t <? 0)%Z). split; [exact Hk|]. split; [apply NoDup_filter, all_configs_NoDup|]. split; [intros t Ht; apply HA, Ht|]. split; [exact Hl|]. split.
  - intros a b c Ha Hb Hc'. apply HA in Ha as [Va Za], Hb as [Vb Zb], Hc' as [Vc Zc]. apply HA. split; [apply xor_ok; [|apply xor_ok]; assumption|]. apply (@flat_closed n); assumption.
  - unfold answer. replace (filter (fun t => negb (seqb (final dims prog (basis CS s) t) s0)) (all_configs dims)) with A.
    + apply map_ext_in. intros t Ht. apply HA in Ht as [Vt Zt]. f_equal. rewrite R by exact Vt. apply C_ext; cbn [fst snd]; [|reflexivity].
      pose proof (Hz t Vt Zt) as Q. apply (f_equal IZR) in Q. rewrite mult_IZR in Q.
      assert (PW : forall m, IZR (2 ^ Z.of_nat m) = (2 ^ m)%R) by (intros m; symmetry; apply (pow_IZR 2)). rewrite PW in Q.
      set (x := ((/ sqrt 2) ^ h * IZR (z t))%R).
      assert (Ex : (x * x = / 2 ^ k)%R).
      { unfold x. transitivity (((/ sqrt 2) ^ h * (/ sqrt 2) ^ h) * (IZR (z t) * IZR (z t)))%R; [ring|]. rewrite half_pow, Q.
        replace h with (k + (h - k)) at 1 by lia. rewrite pow_add. field. split; apply pow_nonzero; lra. }
      assert (Pk : (0 < 2 ^ k)%R) by (apply pow_lt; lra).
      assert (Ax : (Rabs x = / sqrt (2 ^ k))%R).
      { rewrite <- sqrt_Rsqr_abs. unfold Rsqr. rewrite Ex. apply sqrt_inv. }
      assert (Ph : (0 < (/ sqrt 2) ^ h)%R) by (apply pow_lt, Rinv_0_lt_compat; exact P2).
      destruct (Z.ltb_spec (z t) 0) as [Y|Y].
      * apply IZR_lt in Y. assert (x < 0)%R by (unfold x; nra). rewrite Rabs_left in Ax by assumption. lra.
      * apply IZR_le in Y. assert (0 <= x)%R by (unfold x; nra). rewrite Rabs_right in Ax by (apply Rle_ge; assumption). exact Ax.
    + unfold A. apply filter_ext_in. intros t Ht. apply in_all_configs in Ht. f_equal. rewrite (R t Ht).
      assert (Ph : (0 < (/ sqrt 2) ^ h)%R) by (apply pow_lt, Rinv_0_lt_compat; exact P2).
      destruct (Z.eqb_spec (z t) 0) as [Y|Y]; symmetry.
      * apply (sl_eqb LC). rewrite Y. apply C_ext; simpl; ring.
      * destruct (seqb (s := CS) _ s0) eqn:X; [|reflexivity]. apply (sl_eqb LC) in X. exfalso. apply (f_equal fst) in X. cbn [fst] in X. change (fst (s0 (s := CS))) with 0%R in X.
        apply Rmult_integral in X as [X|X]; [lra|]. apply Y, eq_IZR, X.
Qed.
End Run.
