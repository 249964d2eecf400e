(** * RoundInst: arithmetic that rounds to p binary digits. *)
From Coq Require Import Reals Lra Psatz Permutation.
From Verif Require Import Py Scalar Mat Circuit Spec Complex ComplexSpec BitSpec RoundArith RoundSpec ComplexLib CNorm RoundLib RoundOps.
Set Implicit Arguments.
Local Open Scope R_scope.

Section Arith.
Variable rnd : R -> R.
Variable eps : R.
Variable ord : nat -> list nat.
Hypothesis RO : rounding rnd eps.
Hypothesis Hord : orders ord.
Notation F := (Rounded rnd ord).

Lemma rnd_0 : rnd 0 = 0.
Proof.
  pose proof (ro_err RO 0) as H. rewrite Rabs_R0, Rmult_0_r, Rminus_0_r in H.
  destruct (Req_dec (rnd 0) 0) as [E|E]; [exact E|]. pose proof (Rabs_pos_lt _ E). lra.
Qed.

Lemma pair_le : forall (z : C) a k, 0 <= a -> 0 <= k -> fst z * fst z + snd z * snd z <= k * k * (a * a) -> Cabs z <= k * a.
Proof.
  intros z a k Ha Hk H. apply sq_le; [apply Rmult_le_pos; assumption|]. rewrite Cabs_sq.
  replace ((k * a) ^ 2) with (k * k * (a * a)) by ring. exact H.
Qed.

Lemma abs_sq : forall x y, 0 <= y -> Rabs x <= y -> x * x <= y * y.
Proof.
  intros x y Hy H. pose proof (Rabs_pos x). replace (x * x) with (Rabs x * Rabs x).
  - apply Rmult_le_compat; assumption.
  - rewrite <- Rabs_mult. apply Rabs_pos_eq. nra.
Qed.

Lemma rnd_sq : forall x, (rnd x - x) * (rnd x - x) <= eps * eps * (x * x).
Proof.
  intros x. pose proof (ro_pos RO). pose proof (ro_err RO x) as H1.
  assert (H2 : (rnd x - x) * (rnd x - x) <= (eps * Rabs x) * (eps * Rabs x)) by (apply abs_sq; [apply Rmult_le_pos; [assumption | apply Rabs_pos] | exact H1]).
  assert (E : Rabs x * Rabs x = x * x) by (rewrite <- Rabs_mult; apply Rabs_pos_eq; nra). nra.
Qed.

Lemma rnd_pair : forall z : C, Cdist (rnd (fst z), rnd (snd z)) z <= eps * Cabs z.
Proof.
  intros z. unfold Cdist. apply pair_le; [apply Cabs_pos | apply (ro_pos RO)|]. cbn [Cadd Copp fst snd].
  pose proof (Cabs_sq z) as E. pose proof (rnd_sq (fst z)). pose proof (rnd_sq (snd z)). simpl in E. rewrite Rmult_1_r in E. rewrite E. unfold Rminus in *. lra.
Qed.

(** A sum of two rounded products. *)
Lemma rnd_two : forall a b s, (s = 1 \/ s = -1) ->
  Rabs (rnd (rnd a + s * rnd b) - (a + s * b)) <= eps * (2 + eps) * (Rabs a + Rabs b).
Proof.
  intros a b s Hs. pose proof (ro_pos RO) as He. pose proof (ro_err RO a) as Ha. pose proof (ro_err RO b) as Hb.
  pose proof (ro_err RO (rnd a + s * rnd b)) as Hc. pose proof (Rabs_pos a). pose proof (Rabs_pos b).
  assert (Es : Rabs s = 1) by (destruct Hs as [-> | ->]; [apply Rabs_R1 | rewrite Rabs_left; lra]).
  assert (H1 : Rabs (rnd a + s * rnd b - (a + s * b)) <= eps * (Rabs a + Rabs b)).
  { replace (rnd a + s * rnd b - (a + s * b)) with ((rnd a - a) + s * (rnd b - b)) by ring.
    eapply Rle_trans; [apply Rabs_triang|]. rewrite Rabs_mult, Es. lra. }
  assert (H2 : Rabs (a + s * b) <= Rabs a + Rabs b).
  { eapply Rle_trans; [apply Rabs_triang|]. rewrite Rabs_mult, Es. lra. }
  assert (H3 : Rabs (rnd a + s * rnd b) <= (1 + eps) * (Rabs a + Rabs b)).
  { replace (rnd a + s * rnd b) with ((rnd a + s * rnd b - (a + s * b)) + (a + s * b)) by ring.
    eapply Rle_trans; [apply Rabs_triang|]. lra. }
  replace (rnd (rnd a + s * rnd b) - (a + s * b))
    with ((rnd (rnd a + s * rnd b) - (rnd a + s * rnd b)) + (rnd a + s * rnd b - (a + s * b))) by ring.
  eapply Rle_trans; [apply Rabs_triang|].
  assert (eps * Rabs (rnd a + s * rnd b) <= eps * ((1 + eps) * (Rabs a + Rabs b))) by (apply Rmult_le_compat_l; assumption). lra.
Qed.

Lemma two_le : forall a b c d X Y, 0 <= X -> 0 <= Y -> a * a + b * b = X * X -> c * c + d * d = Y * Y ->
  Rabs (a * c) + Rabs (b * d) <= X * Y.
Proof.
  intros a b c d X Y HX HY E1 E2. rewrite !Rabs_mult.
  pose proof (Rabs_pos a) as Pa. pose proof (Rabs_pos b) as Pb. pose proof (Rabs_pos c) as Pc. pose proof (Rabs_pos d) as Pd.
  assert (Sq : forall z, Rabs z * Rabs z = z * z) by (intros z; rewrite <- Rabs_mult; apply Rabs_pos_eq; nra).
  rewrite <- (Sq a), <- (Sq b) in E1. rewrite <- (Sq c), <- (Sq d) in E2.
  apply sq_le; [apply Rmult_le_pos; assumption|]. set (a' := Rabs a) in *. set (b' := Rabs b) in *. set (c' := Rabs c) in *. set (d' := Rabs d) in *.
  replace ((X * Y) ^ 2) with ((X * X) * (Y * Y)) by ring. rewrite <- E1, <- E2.
  pose proof (pow2_ge_0 (a' * d' - b' * c')). lra.
Qed.

Lemma mul_err : forall x y : C, Cdist (smul (s := F) x y) (Cmul x y) <= 3 * eps * Cabs (Cmul x y).
Proof.
  intros x y. pose proof (ro_pos RO) as He. pose proof (ro_small RO) as Hs. rewrite Cabs_mul.
  pose proof (Cabs_sq x) as Ex. pose proof (Cabs_sq y) as Ey. pose proof (Cabs_pos x) as Px. pose proof (Cabs_pos y) as Py.
  simpl in Ex, Ey. rewrite Rmult_1_r in Ex, Ey. symmetry in Ex, Ey.
  unfold Cdist. apply pair_le; [apply Rmult_le_pos; assumption | lra |]. cbn [Cadd Copp Cmul fst snd smul Rounded].
  set (P := Cabs x * Cabs y) in *. assert (HP : 0 <= P) by (apply Rmult_le_pos; assumption).
  assert (H1 : Rabs (rnd (rnd (fst x * fst y) - rnd (snd x * snd y)) - (fst x * fst y - snd x * snd y)) <= eps * (2 + eps) * P).
  { replace (rnd (fst x * fst y) - rnd (snd x * snd y)) with (rnd (fst x * fst y) + -1 * rnd (snd x * snd y)) by ring.
    replace (fst x * fst y - snd x * snd y) with (fst x * fst y + -1 * (snd x * snd y)) by ring.
    eapply Rle_trans; [apply rnd_two; auto|]. apply Rmult_le_compat_l; [apply Rmult_le_pos; lra|].
    apply two_le; assumption. }
  assert (H2 : Rabs (rnd (rnd (fst x * snd y) + rnd (snd x * fst y)) - (fst x * snd y + snd x * fst y)) <= eps * (2 + eps) * P).
  { replace (rnd (fst x * snd y) + rnd (snd x * fst y)) with (rnd (fst x * snd y) + 1 * rnd (snd x * fst y)) by ring.
    replace (fst x * snd y + snd x * fst y) with (fst x * snd y + 1 * (snd x * fst y)) by ring.
    eapply Rle_trans; [apply rnd_two; auto|]. apply Rmult_le_compat_l; [apply Rmult_le_pos; lra|].
    apply two_le; try assumption. rewrite Rplus_comm. exact Ey. }
  assert (Hk : 0 <= eps * (2 + eps) * P) by (apply Rmult_le_pos; [apply Rmult_le_pos; lra | exact HP]).
  apply abs_sq in H1; [|exact Hk]. apply abs_sq in H2; [|exact Hk].
  assert (HPP : 0 <= eps * eps * (P * P)) by (apply Rmult_le_pos; apply Rmult_le_pos; assumption).
  assert (H9 : 2 * ((2 + eps) * (2 + eps)) <= 9) by nra.
  assert (eps * eps * (P * P) * (2 * ((2 + eps) * (2 + eps))) <= eps * eps * (P * P) * 9) by (apply Rmult_le_compat_l; assumption).
  unfold Rminus in *. lra.
Qed.

Lemma isqrt_err : forall s, 0 < s -> Rabs (rnd (/ rnd s) - / s) <= 3 * eps * / s.
Proof.
  intros s Hs. pose proof (ro_pos RO) as He. pose proof (ro_small RO) as Hm.
  pose proof (ro_err RO s) as H1. rewrite (Rabs_pos_eq s) in H1 by lra.
  assert (Hr : 9 / 10 * s <= rnd s).
  { assert (- (eps * s) <= rnd s - s) by (pose proof (Rle_abs (- (rnd s - s))); rewrite Rabs_Ropp in *; lra). nra. }
  assert (Hr0 : 0 < rnd s) by lra.
  assert (Hi : 0 < / rnd s) by (apply Rinv_0_lt_compat; exact Hr0).
  assert (Hs' : 0 < / s) by (apply Rinv_0_lt_compat; exact Hs).
  assert (H2 : Rabs (/ rnd s - / s) <= 10 / 9 * eps * / s).
  { replace (/ rnd s - / s) with (- (rnd s - s) * / s * / rnd s) by (field; lra).
    rewrite !Rabs_mult, Rabs_Ropp, (Rabs_pos_eq (/ s)), (Rabs_pos_eq (/ rnd s)) by lra.
    assert (Hle : / rnd s <= 10 / 9 * / s).
    { replace (10 / 9 * / s) with (/ (9 / 10 * s)) by (field; lra). apply Rinv_le_contravar; [nra | exact Hr]. }
    assert (Rabs (rnd s - s) * / s <= eps).
    { apply Rmult_le_reg_r with s; [exact Hs|]. rewrite Rmult_assoc, Rinv_l by lra. lra. }
    pose proof (Rabs_pos (rnd s - s)).
    assert (Rabs (rnd s - s) * / s * / rnd s <= eps * (10 / 9 * / s)).
    { apply Rmult_le_compat; [apply Rmult_le_pos; lra | lra | assumption | exact Hle]. }
    lra. }
  pose proof (ro_err RO (/ rnd s)) as H3. rewrite (Rabs_pos_eq (/ rnd s)) in H3 by lra.
  assert (Hle : / rnd s <= 10 / 9 * / s).
  { replace (10 / 9 * / s) with (/ (9 / 10 * s)) by (field; lra). apply Rinv_le_contravar; [nra | exact Hr]. }
  replace (rnd (/ rnd s) - / s) with ((rnd (/ rnd s) - / rnd s) + (/ rnd s - / s)) by ring.
  eapply Rle_trans; [apply Rabs_triang|]. assert (eps * / rnd s <= eps * (10 / 9 * / s)) by (apply Rmult_le_compat_l; assumption).
  assert (0 <= eps * / s) by (apply Rmult_le_pos; lra). lra.
Qed.

Theorem Rounded_rounded : rounded F (fun x => x) ord (3 * eps) 1.
Proof.
  pose proof (ro_pos RO) as He. pose proof rnd_0 as Z. pose proof (ro_one RO) as O.
  constructor; cbn [s0 s1 sadd smul seqb sroots sisqrt Rounded].
  - lra.
  - reflexivity.
  - reflexivity.
  - apply (fun x => Ceqb_eq x C0).
  - intros x y. change (rnd (fst x + fst y), rnd (snd x + snd y)) with (rnd (fst (Cadd x y)), rnd (snd (Cadd x y))).
    eapply Rle_trans; [apply rnd_pair|]. apply Rmult_le_compat_r; [apply Cabs_pos | lra].
  - exact mul_err.
  - intros d. rewrite map_length, (Permutation_length (Hord d)), seq_length. reflexivity.
  - intros d k Hk. assert (Hl : length (ord d) = d) by (rewrite (Permutation_length (Hord d)), seq_length; reflexivity).
    rewrite (nth_indep _ C0 ((fun k => (rnd (fst (root d k)), rnd (snd (root d k)))) 0%nat)) by (rewrite map_length; lia).
    rewrite (nth_indep _ C0 (root d 0)) by (cbn; rewrite map_length; lia).
    rewrite (map_nth (fun k => (rnd (fst (root d k)), rnd (snd (root d k))))).
    change (@sroots (Cscalar ord) d) with (map (root d) (ord d)). rewrite map_nth.
    eapply Rle_trans; [apply rnd_pair|]. rewrite root_abs, err_1. lra.
  - intros d Hd. rewrite err_1. assert (Hs : 0 < sqrt (INR d)) by (apply sqrt_lt_R0, lt_0_INR; exact Hd).
    assert (Hs' : 0 < / sqrt (INR d)) by (apply Rinv_0_lt_compat; exact Hs).
    unfold Cdist. apply pair_le; [lra | lra|]. cbn [Cadd Copp fst snd].
    pose proof (isqrt_err Hs) as H. apply abs_sq in H; [|apply Rmult_le_pos; lra]. unfold Rminus in H. lra.
  - constructor; cbn [s0 s1 sadd smul sconj seqb sclose Rounded C0 C1 fst snd].
    all: try (unfold C0, C1; f_equal; rewrite ?Rplus_0_l, ?Rplus_0_r, ?Rmult_0_l, ?Rmult_0_r, ?Rmult_1_l, ?Z, ?O, ?Rminus_0_r, ?Rplus_0_l, ?Rplus_0_r, ?Z, ?O; reflexivity).
    + apply C_ext; simpl; ring.
    + apply C_ext; simpl; ring.
    + apply Ceqb_eq. reflexivity.
    + apply Ceqb_eq. reflexivity.
    + destruct (Ceqb C0 C1) eqn:E; [|reflexivity]. apply Ceqb_eq in E. injection E as E. lra.
    + destruct (Ceqb C1 C0) eqn:E; [|reflexivity]. apply Ceqb_eq in E. injection E as E. lra.
    + apply Cclose_refl.
    + apply Cclose_refl.
Qed.
End Arith.

(** ** Keeping [p] binary digits *)
Lemma int_part_at : forall z x, IZR z <= x < IZR z + 1 -> Int_part x = z.
Proof.
  intros z x [H1 H2]. unfold Int_part. rewrite <- (tech_up x (z + 1)); [lia | |]; rewrite plus_IZR; lra.
Qed.
Lemma int_part_pos : forall x, 1 <= x -> (1 <= Int_part x)%Z /\ IZR (Int_part x) <= x < IZR (Int_part x) + 1.
Proof.
  intros x Hx. destruct (base_Int_part x) as [I1 I2]. split; [|lra].
  assert (0 < Int_part x)%Z; [|lia]. apply lt_IZR. lra.
Qed.
Lemma two_powerRZ : forall n, (0 <= n)%Z -> powerRZ 2 n = IZR (2 ^ n).
Proof.
  intros n Hn. rewrite <- (Z2Nat.id n) at 1 by exact Hn. rewrite <- pow_powerRZ, pow_IZR, Z2Nat.id by exact Hn. reflexivity.
Qed.

(** The exponent is the one of the leading binary digit. *)
Lemma exponent_bounds : forall x, x <> 0 -> powerRZ 2 (exponent x) <= 2 * Rabs x.
Proof.
  intros x Hx. assert (Hpos : 0 < Rabs x) by (apply Rabs_pos_lt; exact Hx). unfold exponent.
  destruct (Rle_dec 1 (Rabs x)) as [H|H].
  - destruct (int_part_pos H) as [I0 [I1 I2]]. destruct (Z.log2_spec (Int_part (Rabs x))) as [L1 L2]; [lia|].
    rewrite powerRZ_add by lra. rewrite two_powerRZ by apply Z.log2_nonneg. apply IZR_le in L1. simpl. lra.
  - apply Rnot_le_lt in H. assert (H1 : 1 <= / Rabs x) by (rewrite <- Rinv_1; apply Rinv_le_contravar; lra).
    destruct (int_part_pos H1) as [I0 [I1 I2]]. destruct (Z.log2_spec (Int_part (/ Rabs x))) as [L1 L2]; [lia|].
    pose proof (Z.log2_nonneg (Int_part (/ Rabs x))) as Hn. set (n := Z.log2 (Int_part (/ Rabs x))) in *.
    rewrite powerRZ_neg' by lra. rewrite two_powerRZ by exact Hn.
    assert (L3 : / Rabs x < 2 * IZR (2 ^ n)).
    { assert (Int_part (/ Rabs x) + 1 <= 2 * 2 ^ n)%Z by (rewrite Z.pow_succ_r in L2 by exact Hn; lia).
      apply IZR_le in H0. rewrite plus_IZR, mult_IZR in H0. lra. }
    assert (P : 0 < IZR (2 ^ n)) by (apply IZR_lt, Z.pow_pos_nonneg; lia).
    apply Rmult_le_reg_r with (IZR (2 ^ n)); [exact P|]. rewrite Rinv_l by lra.
    apply Rmult_le_reg_l with (/ Rabs x); [apply Rinv_0_lt_compat; exact Hpos|].
    replace (/ Rabs x * (2 * Rabs x * IZR (2 ^ n))) with (2 * IZR (2 ^ n)) by (field; lra). lra.
Qed.

Lemma exponent_above : forall x, Rabs x <= powerRZ 2 (exponent x).
Proof.
  intros x. destruct (Req_dec x 0) as [->|Hx].
  { rewrite Rabs_R0. apply Rlt_le, powerRZ_lt. lra. }
  assert (Hpos : 0 < Rabs x) by (apply Rabs_pos_lt; exact Hx). unfold exponent.
  destruct (Rle_dec 1 (Rabs x)) as [H|H].
  - destruct (int_part_pos H) as [I0 [I1 I2]]. destruct (Z.log2_spec (Int_part (Rabs x))) as [L1 L2]; [lia|].
    pose proof (Z.log2_nonneg (Int_part (Rabs x))) as Hn. rewrite two_powerRZ by lia.
    assert (G : (Int_part (Rabs x) + 1 <= 2 ^ (Z.log2 (Int_part (Rabs x)) + 1))%Z) by (unfold Z.succ in L2; lia).
    apply IZR_le in G. rewrite plus_IZR in G. lra.
  - apply Rnot_le_lt in H. assert (H1 : 1 <= / Rabs x) by (rewrite <- Rinv_1; apply Rinv_le_contravar; lra).
    destruct (int_part_pos H1) as [I0 [I1 I2]]. destruct (Z.log2_spec (Int_part (/ Rabs x))) as [L1 L2]; [lia|].
    pose proof (Z.log2_nonneg (Int_part (/ Rabs x))) as Hn. set (n := Z.log2 (Int_part (/ Rabs x))) in *.
    rewrite powerRZ_neg' by lra. rewrite two_powerRZ by exact Hn. apply IZR_le in L1.
    assert (P : 0 < IZR (2 ^ n)) by (apply IZR_lt, Z.pow_pos_nonneg; lia).
    rewrite <- (Rinv_inv (Rabs x)). apply Rinv_le_contravar; lra.
Qed.

(** The result has [p] binary digits, no other number with its last digit in
    the same place is closer, and the digits begin where the number begins. *)
Lemma nearest_digits : forall p x, exists z e, nearest p x = IZR z * powerRZ 2 e /\ (Z.abs z <= 2 ^ Z.of_nat p)%Z /\
  (forall z', Rabs (nearest p x - x) <= Rabs (IZR z' * powerRZ 2 e - x)) /\ (x <> 0 -> 2 ^ p * powerRZ 2 e <= 2 * Rabs x).
Proof.
  intros p x. assert (H2p : 0 < 2 ^ p) by (apply pow_lt; lra).
  set (k := exponent x). assert (Hk0 : 0 < powerRZ 2 k) by (apply powerRZ_lt; lra).
  exists (Int_part (x / (powerRZ 2 k / 2 ^ p) + / 2)), (k - Z.of_nat p)%Z.
  assert (Eu : powerRZ 2 (k - Z.of_nat p) = powerRZ 2 k / 2 ^ p).
  { unfold Z.sub. rewrite powerRZ_add by lra. rewrite powerRZ_neg' by lra. rewrite <- pow_powerRZ. reflexivity. }
  rewrite Eu. unfold nearest. fold k. set (unit := powerRZ 2 k / 2 ^ p). assert (Hu : 0 < unit) by (apply Rdiv_lt_0_compat; assumption).
  pose proof (base_Int_part (x / unit + / 2)) as [I1 I2]. set (z := Int_part (x / unit + / 2)) in *.
  split; [reflexivity|]. split; [|split].
  - assert (B : Rabs (x / unit) <= 2 ^ p).
    { unfold Rdiv. rewrite Rabs_mult, Rabs_inv, (Rabs_pos_eq unit) by lra. apply Rmult_le_reg_r with unit; [exact Hu|].
      rewrite Rmult_assoc, Rinv_l, Rmult_1_r by lra. unfold unit. replace (2 ^ p * (powerRZ 2 k / 2 ^ p)) with (powerRZ 2 k) by (field; lra). apply exponent_above. }
    rewrite pow_IZR in B. pose proof (Rle_abs (x / unit)) as B1. pose proof (Rle_abs (- (x / unit))) as B2. rewrite Rabs_Ropp in B2.
    assert (z < 2 ^ Z.of_nat p + 1)%Z by (apply lt_IZR; rewrite plus_IZR; lra).
    assert (- 2 ^ Z.of_nat p - 1 < z)%Z by (apply lt_IZR; rewrite minus_IZR, opp_IZR; lra). lia.
  - intros z'. replace (IZR z * unit - x) with ((IZR z - x / unit) * unit) by (field; lra).
    replace (IZR z' * unit - x) with ((IZR z' - x / unit) * unit) by (field; lra). rewrite !Rabs_mult. apply Rmult_le_compat_r; [apply Rabs_pos|].
    destruct (Z.eq_dec z' z) as [->|N]; [lra|]. apply Rle_trans with (/ 2); [apply Rabs_le; lra|].
    assert (C : (z' + 1 <= z \/ z + 1 <= z')%Z) by lia. destruct C as [C|C]; apply IZR_le in C; rewrite plus_IZR in C.
    + rewrite Rabs_left1 by lra. lra.
    + rewrite Rabs_pos_eq by lra. lra.
  - intros Hx. unfold unit. replace (2 ^ p * (powerRZ 2 k / 2 ^ p)) with (powerRZ 2 k) by (field; lra). apply exponent_bounds. exact Hx.
Qed.

Lemma nearest_rounding : forall p, (4 <= p)%nat -> rounding (nearest p) (/ 2 ^ p).
Proof.
  intros p Hp. assert (H2p : 0 < 2 ^ p) by (apply pow_lt; lra).
  assert (H16 : 16 <= 2 ^ p).
  { replace 16 with (2 ^ 4) by ring. apply Rle_pow; [lra | exact Hp]. }
  constructor.
  - apply Rlt_le, Rinv_0_lt_compat; lra.
  - apply Rinv_le_contravar; lra.
  - intros x. destruct (Req_dec x 0) as [->|Hx].
    + unfold nearest. match goal with |- context [Int_part (0 / ?y + _)] => set (unit := y) end.
      replace (0 / unit + / 2) with (/ 2) by (unfold Rdiv; ring). rewrite (@int_part_at 0 (/ 2)) by (simpl; lra).
      rewrite Rmult_0_l, Rminus_0_r, Rabs_R0. lra.
    + unfold nearest. pose proof (exponent_bounds Hx) as Hk. set (k := exponent x) in *. set (unit := powerRZ 2 k / 2 ^ p).
      assert (Hk0 : 0 < powerRZ 2 k) by (apply powerRZ_lt; lra).
      assert (Hu : 0 < unit) by (apply Rdiv_lt_0_compat; assumption).
      pose proof (base_Int_part (x / unit + / 2)) as [I1 I2].
      assert (E : x = x / unit * unit) by (field; lra).
      rewrite E at 2. rewrite <- Rmult_minus_distr_r, Rabs_mult, (Rabs_pos_eq unit) by lra.
      assert (Rabs (IZR (Int_part (x / unit + / 2)) - x / unit) <= / 2) by (apply Rabs_le; lra).
      assert (Rabs (IZR (Int_part (x / unit + / 2)) - x / unit) * unit <= / 2 * unit) by (apply Rmult_le_compat_r; lra).
      assert (unit <= 2 * Rabs x * / 2 ^ p).
      { unfold unit, Rdiv. apply Rmult_le_compat_r; [apply Rlt_le, Rinv_0_lt_compat; exact H2p | exact Hk]. }
      lra.
  - assert (E1 : exponent 1 = 1%Z).
    { unfold exponent. rewrite Rabs_R1. destruct (Rle_dec 1 1) as [_|N]; [|lra]. rewrite (@int_part_at 1 1) by lra. reflexivity. }
    unfold nearest. rewrite E1. replace (powerRZ 2 1) with 2 by (simpl; ring).
    assert (E : 1 / (2 / 2 ^ p) = IZR (2 ^ (Z.of_nat p - 1))).
    { replace (Z.of_nat p - 1)%Z with (Z.of_nat (p - 1)) by lia. rewrite <- pow_IZR.
      replace p with (S (p - 1)) at 1 by lia. cbn [pow]. field. apply pow_nonzero. lra. }
    rewrite E. rewrite (@int_part_at (2 ^ (Z.of_nat p - 1))) by lra. rewrite <- E. field. lra.
Qed.
