(** * GroverAngle: the amplitudes of Grover's search as sines and cosines. *)
From Coq Require Import Reals Lra.
From Verif Require Import Py Scalar Mat Utils Gates Circuit Spec Calls Complex ComplexSpec ComplexLib Lib ComplexGates Product Algo Jozsa Grover Props_Jozsa.
Set Implicit Arguments.
Local Notation length := List.length.
Open Scope R_scope.

Definition angle (k : nat) (th : R) : R := (2 * INR k + 1) * th.
Definition value (n m k : nat) (th : R) (b : bool) : R :=
  (-1) ^ k * (if b then sin (angle k th) / sqrt (INR m) else cos (angle k th) / sqrt (2 ^ n - INR m)).

Section Angle.
Variables (n m : nat) (th : R).
Hypothesis Hth : 0 < th < PI / 2.
Hypothesis Hm : sin th ^ 2 = INR m / 2 ^ n.

Let N := 2 ^ n.
Lemma N_pos : 0 < N. Proof. apply pow_lt. lra. Qed.
Lemma sin_pos : 0 < sin th. Proof. apply sin_gt_0; lra. Qed.
Lemma cos_pos : 0 < cos th. Proof. apply cos_gt_0; lra. Qed.
Lemma sqN_pos : 0 < sqrt N. Proof. apply sqrt_lt_R0, N_pos. Qed.
Lemma sq_m : sqrt (INR m) = sin th * sqrt N.
Proof.
  pose proof N_pos. pose proof sin_pos. replace (INR m) with (sin th * sin th * N) by (unfold N; replace (sin th * sin th) with (sin th ^ 2) by ring; rewrite Hm; field; apply pow_nonzero; lra).
  rewrite sqrt_mult by (nra || lra). rewrite sqrt_square by lra. reflexivity.
Qed.
Lemma sq_rest : sqrt (N - INR m) = cos th * sqrt N.
Proof.
  pose proof N_pos. pose proof cos_pos. pose proof (sin2_cos2 th) as E. unfold Rsqr in E.
  replace (N - INR m) with (cos th * cos th * N).
  - rewrite sqrt_mult by (nra || lra). rewrite sqrt_square by lra. reflexivity.
  - replace (cos th * cos th) with (1 - sin th ^ 2) by (simpl; lra). rewrite Hm. unfold N. field. apply pow_nonzero. lra.
Qed.

Lemma value_0 : forall b, value n m 0 th b = / sqrt N.
Proof.
  intros b. unfold value, angle. simpl INR. replace ((2 * 0 + 1) * th) with th by ring. fold N. rewrite sq_m, sq_rest.
  pose proof sin_pos. pose proof cos_pos. pose proof sqN_pos. destruct b; simpl; field; lra.
Qed.

Definition mean (k : nat) : R := (- INR m * value n m k th true + (N - INR m) * value n m k th false) / N.
Lemma m_val : INR m = sin th * sin th * N.
Proof. replace (sin th * sin th) with (sin th ^ 2) by ring. rewrite Hm. unfold N. field. apply pow_nonzero. lra. Qed.
Lemma mean_val : forall k, mean k = (-1) ^ k * cos (angle k th + th) / sqrt N.
Proof.
  intros k. unfold mean, value. fold N. rewrite sq_m, sq_rest, cos_plus, m_val.
  pose proof sin_pos. pose proof cos_pos. pose proof sqN_pos. pose proof N_pos. pose proof (sin2_cos2 th) as E. unfold Rsqr in E.
  replace (N - sin th * sin th * N) with (cos th * cos th * N) by (replace (cos th * cos th) with (1 - sin th * sin th) by lra; ring).
  field. lra.
Qed.
Lemma angle_S : forall k, angle (S k) th = angle k th + th + th.
Proof. intros k. unfold angle. rewrite S_INR. ring. Qed.
Lemma value_S : forall k b, value n m (S k) th b = (if b then -1 else 1) * value n m k th b - 2 * mean k.
Proof.
  intros k b. rewrite mean_val. unfold value. fold N. rewrite sq_m, sq_rest, angle_S. cbn [pow].
  pose proof sin_pos. pose proof cos_pos. pose proof sqN_pos. destruct b.
  - assert (X : sin (angle k th + th + th) = sin (angle k th) + 2 * (sin th * cos (angle k th + th))).
    { rewrite (sin_plus (angle k th + th)). replace (sin (angle k th)) with (sin (angle k th + th - th)) by (f_equal; ring). rewrite sin_minus. ring. }
    rewrite X. field. lra.
  - assert (X : cos (angle k th + th + th) = 2 * (cos th * cos (angle k th + th)) - cos (angle k th)).
    { rewrite (cos_plus (angle k th + th)). replace (cos (angle k th)) with (cos (angle k th + th - th)) by (f_equal; ring). rewrite cos_minus. ring. }
    rewrite X. field. lra.
Qed.
End Angle.

Lemma two_sum : forall ord (f : config -> bool) (p q : R) (l : list config),
  bsum (S := Cscalar ord) (fun x => if f x then (p, 0) else (q, 0)) l
  = (INR (length (filter f l)) * p + (INR (length l) - INR (length (filter f l))) * q, 0).
Proof.
  intros ord f p q l; induction l as [|x l IH]; [apply C_ext; simpl; ring|].
  cbn [bsum fold_right]. etransitivity; [exact (f_equal (Cadd _) IH)|]. cbn [filter]. destruct (f x); cbn [length]; rewrite ?S_INR; apply C_ext; simpl; ring.
Qed.

Lemma scale_pow : forall ord k, spow (Cscalar ord) (sisqrt 2) k = ((/ sqrt 2) ^ k, 0).
Proof.
  intros ord k; induction k as [|k IH]; [reflexivity|]. cbn [spow]. etransitivity; [exact (f_equal (Cmul _) IH)|].
  apply C_ext; simpl; replace (1 + 1) with 2 by ring; ring.
Qed.
Lemma sqrt_pow : forall k, (/ sqrt 2) ^ k = / sqrt (2 ^ k).
Proof.
  intros k; induction k as [|k IH]; [simpl; rewrite sqrt_1; field|]. cbn [pow]. rewrite IH, sqrt_mult by (try apply pow_le; lra).
  pose proof (sqrt_lt_R0 2 ltac:(lra)). pose proof (sqrt_lt_R0 (2 ^ k) ltac:(apply pow_lt; lra)). field. lra.
Qed.

Lemma turns_value : forall ord, orders ord -> forall n f th k x, 0 < th < PI / 2 -> sin th ^ 2 = INR (satisfying n f) / 2 ^ n ->
  Nat.iter k (turn (Cscalar ord) n f) (fun _ => spow (Cscalar ord) (sisqrt 2) (n + 1)) x = (/ sqrt 2 * value n (satisfying n f) k th (f x), 0).
Proof.
  intros ord Hord n f th k. induction k as [|k IH]; intros x Hth Hm.
  - cbn [Nat.iter nat_rect]. rewrite scale_pow, value_0 by assumption. rewrite Nat.add_1_r. cbn [pow]. rewrite sqrt_pow. reflexivity.
  - cbn [Nat.iter nat_rect]. set (a := nat_rect _ _ _ _) in *. change (nat_rect _ _ _ _) with a in IH. unfold turn at 1. unfold average.
    rewrite (bsum_ext (Cscalar ord) _ (fun y => if f y then (- (/ sqrt 2 * value n (satisfying n f) k th true), 0) else (/ sqrt 2 * value n (satisfying n f) k th false, 0)) _).
    2: { intros y _. rewrite IH by assumption. unfold sgn. destruct (f y); apply C_ext; simpl; ring. }
    rewrite two_sum, IH by assumption. rewrite value_S by assumption. unfold mean. fold (satisfying n f). unfold qubits. rewrite all_configs_length, prod_twos, pow_INR. fold (qubits n).
    rewrite <- (spow_add (Cscalar_laws Hord)), pow_scale. replace (INR 2) with 2 by reflexivity. unfold qubits in *. fold (satisfying n f).
    pose proof (pow_nonzero 2 n ltac:(lra)) as P. pose proof (sqrt_lt_R0 2 ltac:(lra)). unfold sgn. destruct (f x); apply C_ext; simpl; try ring; field; lra.
Qed.

Lemma grover_amplitude : forall ord, orders ord -> forall n f th k x, 0 < th < PI / 2 -> sin th ^ 2 = INR (satisfying n f) / 2 ^ n ->
  smul (smul (sadd s1 s1) (sisqrt 2)) (Nat.iter k (turn (Cscalar ord) n f) (fun _ => spow (Cscalar ord) (sisqrt 2) (n + 1)) x)
  = (value n (satisfying n f) k th (f x), 0) :> Cscalar ord.
Proof.
  intros ord Hord n f th k x Hth Hm. rewrite (@turns_value ord Hord n f th k x Hth Hm).
  pose proof (sqrt_lt_R0 2 ltac:(lra)). pose proof (sqrt_sqrt 2 ltac:(lra)).
  apply C_ext; simpl; replace (1 + 1) with 2 by ring; [|ring].
  replace (2 * / sqrt 2) with (sqrt 2) by (apply Rmult_eq_reg_r with (sqrt 2); [rewrite Rmult_assoc, Rinv_l by lra; lra | lra]).
  field. lra.
Qed.

(** Some number of rounds comes within [th] of a quarter turn. *)
Lemma best_rounds : forall th, 0 < th < PI / 2 -> exists k, INR k <= PI / 4 / th /\ Rabs (angle k th - PI / 2) <= th.
Proof.
  intros th Hth. set (r := PI / 4 / th). assert (Hr : 0 < r) by (unfold r; apply Rdiv_lt_0_compat; lra).
  destruct (archimed r) as [A1 A2]. exists (Z.to_nat (up r - 1)).
  assert (Zp : (1 <= up r)%Z) by (apply (Zlt_le_succ 0); apply lt_IZR; lra).
  assert (E : INR (Z.to_nat (up r - 1)) = IZR (up r) - 1) by (rewrite INR_IZR_INZ, Z2Nat.id by lia; rewrite minus_IZR; reflexivity).
  rewrite E. split; [lra|]. unfold angle. rewrite E.
  assert (T : PI / 2 = 2 * r * th) by (unfold r; field; lra). rewrite T.
  replace ((2 * (IZR (up r) - 1) + 1) * th - 2 * r * th) with ((2 * (IZR (up r) - r) - 1) * th) by ring.
  apply Rabs_le. nra.
Qed.

Lemma near_quarter : forall phi th, 0 < th < PI / 2 -> Rabs (phi - PI / 2) <= th -> cos th ^ 2 <= sin phi ^ 2.
Proof.
  intros phi th Hth H. assert (E : sin phi = cos (Rabs (phi - PI / 2))).
  { unfold Rabs. destruct (Rcase_abs (phi - PI / 2)); rewrite ?cos_neg; replace phi with (PI / 2 + (phi - PI / 2)) at 1 by ring; rewrite <- cos_sin || rewrite sin_plus, sin_PI2, cos_PI2; ring. }
  rewrite E. assert (0 <= Rabs (phi - PI / 2)) by apply Rabs_pos. assert (0 < cos th) by (apply cos_gt_0; lra).
  assert (cos th <= cos (Rabs (phi - PI / 2))) by (apply cos_decr_1; lra). simpl. nra.
Qed.

Lemma sin_below : forall x, 0 < x < PI / 2 -> sin x <= x.
Proof.
  intros x H. pose proof PI_4 as P. pose proof (sin_bound x 0 ltac:(lra) ltac:(lra)) as [_ E].
  unfold sin_approx, sin_term in E. cbn [Nat.mul Nat.add sum_f_R0 pow fact] in E. simpl INR in E.
  assert (0 <= x * x * x) by (repeat apply Rmult_le_pos; lra). assert (x * x * (x * x * x) <= 4 * (x * x * x)) by (apply Rmult_le_compat_r; [assumption | nra]).
  eapply Rle_trans; [exact E|]. field_simplify. simpl. lra.
Qed.
