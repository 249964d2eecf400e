(** * Undo: circuits that take back what other circuits did. *)
From Coq Require Import Reals Lra Permutation.
From Verif Require Import Py Scalar Mat Utils Gates Circuit Spec Calls Complex ComplexSpec ComplexLib Lib Kern GateMat Layers Refine Run Reversible
  Outcome Local Unitary ComplexGates ComplexRun Parts Product Props_Run.
Local Notation length := List.length.

Section Undo.
Variable ord : nat -> list nat.
Hypothesis Hord : orders ord.
Let CS := Cscalar ord.
Let LC : scalar_laws CS := Cscalar_laws Hord.

(** ** h *)
Lemma had_twice : forall d, d = 2 \/ d = 3 -> one_last ord d -> forall i k, i < d -> k < d ->
  bsum (fun j => smul (s := CS) (had CS d i j) (had CS d j k)) (seq 0 d) = (if Nat.eqb ((i + k) mod d) 0 then s1 else s0).
Proof.
  intros d Hd H i k Hi Hk.
  set (e := fun i j => if Nat.eqb i 0 || Nat.eqb j 0 then C1 else nth ((i + (d - 1) - j) mod (d - 1)) (map (root d) (ord d)) C0).
  assert (W : bsum (S := CS) (fun j => Cmul (e i j) (e j k)) (seq 0 d) = (if Nat.eqb ((i + k) mod d) 0 then (INR d, 0%R) else C0)).
  { pose proof (sqrt_sqrt 3 ltac:(lra)) as Es. subst e. destruct Hd as [->| ->].
    - rewrite (ord_2 Hord H). cbn [map]. rewrite root_2_1, root_0.
      destruct i as [|[|i]]; try lia; destruct k as [|[|k]]; try lia; apply C_ext; simpl; lra.
    - destruct (ord_3 Hord H) as [E|E]; rewrite E; cbn [map]; rewrite root_3_1, root_3_2, root_0;
        (destruct i as [|[|[|i]]]; try lia; destruct k as [|[|[|k]]]; try lia; apply C_ext; simpl; lra). }
  assert (Hp : (0 < INR d)%R) by (apply lt_0_INR; lia).
  transitivity (Cmul (/ INR d, 0)%R (bsum (S := CS) (fun j => Cmul (e i j) (e j k)) (seq 0 d))).
  - etransitivity; [|exact (bsum_mul_l LC (fun j => Cmul (e i j) (e j k)) (/ INR d, 0)%R (seq 0 d))]. apply bsum_ext. intros j Hj.
    change (smul (s := CS) ?a ?b) with (Cmul a b). rewrite <- (scale_sq ord) by lia.
    change (had CS d i j) with (Cmul (sisqrt (s := CS) d) (e i j)). change (had CS d j k) with (Cmul (sisqrt (s := CS) d) (e j k)).
    generalize (e i j), (e j k). intros u v. apply C_ext; simpl; ring.
  - rewrite W. destruct (_ =? 0); apply C_ext; simpl; field; lra.
Qed.

Lemma apply_had : forall dims r (psi : config -> CS) s, valid dims s -> r < length dims ->
  apply dims (GH r) psi s = bsum (fun j => smul (s := CS) (had CS (nth r dims 0) (level s r) j) (psi (put s r j))) (seq 0 (nth r dims 0)).
Proof. intros dims r psi s Hs Hr. rewrite apply_kapply. unfold kapply. cbn [amp]. apply (local_apply LC); assumption. Qed.

(** Two h calls negate the level. *)
Definition minus (d x : nat) : nat := (d - x) mod d.

Lemma h_twice : forall dims r (psi : config -> CS) s, valid dims s -> r < length dims ->
  nth r dims 0 = 2 \/ nth r dims 0 = 3 -> one_last ord (nth r dims 0) ->
  apply dims (GH r) (apply dims (GH r) psi) s = psi (put s r (minus (nth r dims 0) (level s r))).
Proof.
  intros dims r psi s Hs Hr Hd H1. pose proof (valid_level Hs Hr) as Hl. pose proof (valid_length Hs) as Ln.
  rewrite apply_had by assumption. set (d := nth r dims 0) in *.
  transitivity (bsum (S := CS) (fun j => bsum (fun k => smul (s := CS) (smul (s := CS) (had CS d (level s r) j) (had CS d j k)) (psi (put s r k))) (seq 0 d)) (seq 0 d)).
  { apply bsum_ext. intros j Hj. apply in_seq in Hj.
    rewrite apply_had by (try assumption; apply valid_put; try assumption; fold d; lia). fold d.
    rewrite <- (bsum_mul_l LC). apply bsum_ext. intros k _. rewrite level_put, Nat.eqb_refl, put_put by lia. apply C_ext; simpl; ring. }
  rewrite (bsum_swap LC).
  transitivity (bsum (S := CS) (fun k => smul (s := CS) (if Nat.eqb ((level s r + k) mod d) 0 then s1 else s0) (psi (put s r k))) (seq 0 d)).
  { apply bsum_ext. intros k Hk. apply in_seq in Hk. rewrite (bsum_mul_r LC).
    change (sadd (s := CS)) with (sadd (s := CS)). f_equal. apply had_twice; auto; lia. }
  assert (M : minus d (level s r) < d) by (unfold minus; apply Nat.mod_upper_bound; lia).
  rewrite (@bsum_single CS LC _ _ _ (minus d (level s r))); [|apply seq_NoDup|apply in_seq; lia|].
  - replace ((level s r + minus d (level s r)) mod d) with 0; [apply C_ext; simpl; ring|].
    unfold minus. rewrite Nat.add_mod_idemp_r by lia. replace (level s r + (d - level s r)) with d by lia. rewrite Nat.mod_same; lia.
  - intros k Hk Hn. apply in_seq in Hk. destruct (Nat.eqb_spec ((level s r + k) mod d) 0) as [E|E]; [|apply C_ext; simpl; ring].
    exfalso. apply Hn. unfold minus. apply Nat.mod_divides in E as [c E]; [|lia].
    destruct (level s r) as [|l] eqn:El.
    + assert (k = 0) by (destruct c as [|[|c]]; nia). subst k. rewrite Nat.sub_0_r, Nat.mod_same; lia.
    + assert (c = 1) by (destruct c as [|[|c]]; nia). subst c. rewrite Nat.mod_small; lia.
Qed.

Lemma minus_minus : forall d x, x < d -> minus d (minus d x) = x.
Proof.
  intros d x H. unfold minus. destruct x as [|x].
  - rewrite Nat.sub_0_r, Nat.mod_same, Nat.sub_0_r, Nat.mod_same; lia.
  - rewrite (Nat.mod_small (d - Datatypes.S x)) by lia. rewrite Nat.mod_small; lia.
Qed.

Lemma h_four : forall dims r (psi : config -> CS) s, valid dims s -> r < length dims ->
  nth r dims 0 = 2 \/ nth r dims 0 = 3 -> one_last ord (nth r dims 0) ->
  final dims (repeat (GH r) 4) psi s = psi s.
Proof.
  intros dims r psi s Hs Hr Hd H1. pose proof (valid_level Hs Hr) as Hl. pose proof (valid_length Hs) as Ln. cbn [repeat final].
  assert (M : minus (nth r dims 0) (level s r) < nth r dims 0) by (unfold minus; apply Nat.mod_upper_bound; lia).
  rewrite h_twice by assumption. rewrite h_twice by (try assumption; apply valid_put; assumption).
  rewrite level_put, Nat.eqb_refl, put_put, minus_minus, put_level by lia. reflexivity.
Qed.

(** ** z *)
Lemma z_many : forall dims r n (psi : config -> CS) s, valid dims s -> r < length dims ->
  final dims (repeat (GZ r) n) psi s = Cmul (Cpow (phase ord (nth r dims 0) (level s r)) n) (psi s).
Proof.
  intros dims r n. induction n as [|n IH]; intros psi s Hs Hr; cbn [repeat final].
  - apply C_ext; simpl; ring.
  - rewrite IH by assumption. rewrite (apply_z ord Hord) by assumption. cbn [Cpow]. apply C_ext; simpl; ring.
Qed.

Lemma z_full : forall dims r (psi : config -> CS) s, valid dims s -> r < length dims ->
  final dims (repeat (GZ r) (nth r dims 0)) psi s = psi s.
Proof.
  intros dims r psi s Hs Hr. rewrite z_many by assumption. pose proof (valid_level Hs Hr) as Hl.
  unfold phase. rewrite root_pow by lia. apply C_ext; simpl; ring.
Qed.

(** ** x *)
Lemma x_back : forall dims r p (psi : config -> CS) s, valid dims s -> gate_ok dims (GX (S := CS) r p) ->
  apply dims (GX r ((- p) mod Z.of_nat (nth r dims 0))) (apply dims (GX r p) psi) s = psi s.
Proof.
  intros dims r p psi s Hs Hg. destruct Hg as [Hr Hp]. pose proof (valid_level Hs Hr) as Hl. pose proof (valid_length Hs) as Ln.
  set (d := nth r dims 0) in *. set (q := ((- p) mod Z.of_nat d)%Z).
  assert (Hq : (0 <= q < Z.of_nat d)%Z) by (apply Z.mod_pos_bound; lia).
  assert (V : valid dims (move dims (undo (GX (S := CS) r q)) s)).
  { apply (@move_x_valid dims r (- q)%Z); assumption. }
  rewrite (apply_reversible LC) by (try exact I; try exact Hs; (split; [assumption|fold d; lia])).
  rewrite (apply_reversible LC) by (try exact I; try exact V; split; assumption).
  f_equal. cbn [undo move]. unfold move_x. fold d. rewrite level_put, Nat.eqb_refl, put_put by lia.
  rewrite GateMat.shift_shift by exact Hl. rewrite <- (put_level s r) at 3. f_equal. unfold shift.
  assert (E : ((Z.of_nat (level s r) + (- q + - p)) mod Z.of_nat d = Z.of_nat (level s r))%Z).
  { unfold q. rewrite (Z.mod_eq (- p) (Z.of_nat d)) by lia.
    replace (Z.of_nat (level s r) + (- (- p - Z.of_nat d * (- p / Z.of_nat d)) + - p))%Z
      with (Z.of_nat (level s r) + (- p / Z.of_nat d) * Z.of_nat d)%Z by ring.
    rewrite Z_mod_plus_full. apply Z.mod_small. lia. }
  rewrite E. apply Nat2Z.id.
Qed.

(** ** Programs *)
Definition back (dims : list nat) (g : gate CS) : list (gate CS) :=
  match g with
  | GX r p => [GX r ((- p) mod Z.of_nat (nth r dims 0))]
  | GH r => repeat (GH r) 3
  | GZ r => repeat (GZ r) (nth r dims 0 - 1)
  | g => [undo g]
  end.

Definition backs (dims : list nat) (prog : list (gate CS)) : list (gate CS) := flat_map (back dims) (rev prog).

Definition plain (g : gate CS) : Prop := match g with GU _ _ | GSpan _ _ _ => False | _ => True end.

Hypothesis H2 : one_last ord 2.
Hypothesis H3 : one_last ord 3.

Lemma back_undoes : forall dims g (psi : config -> CS) s, valid dims s -> gate_ok dims g -> exact dims g -> plain g ->
  final dims (back dims g) (apply dims g psi) s = psi s.
Proof.
  intros dims g psi s Hs Hg He Hp. destruct g as [r p|r|r|c t p|cs t p|r u|r k u]; try contradiction; cbn [back].
  - cbn [final]. apply x_back; assumption.
  - change (final dims (repeat (GH r) 4) psi s = psi s). apply h_four; try assumption. simpl in He. destruct He as [-> | ->]; assumption.
  - change (final dims (repeat (GZ r) (Datatypes.S (nth r dims 0 - 1))) psi s = psi s).
    pose proof (valid_level Hs Hg). replace (Datatypes.S (nth r dims 0 - 1)) with (nth r dims 0) by lia. apply z_full; assumption.
  - cbn [final]. apply (apply_undo LC); assumption.
  - cbn [final]. apply (apply_undo LC); [exact I|assumption|assumption].
Qed.

Lemma back_good : forall dims g, (forall d, In d dims -> 2 <= d) -> gate_ok dims g -> exact dims g -> plain g ->
  Forall (fun h => gate_ok dims h /\ exact dims h /\ plain h) (back dims g).
Proof.
  intros dims g Hd Hg He Hp. destruct g as [r p|r|r|c t p|cs t p|r u|r k u]; try contradiction; cbn [back undo].
  - constructor; [|constructor]. destruct Hg as [Hr _]. pose proof (Hd _ (nth_In dims 0 Hr)).
    pose proof (Z.mod_pos_bound (- p) (Z.of_nat (nth r dims 0)) ltac:(lia)). split; [split; [exact Hr | lia]|]. split; exact I.
  - apply Forall_forall. intros h Hh. apply repeat_spec in Hh. subst h. repeat split; assumption.
  - apply Forall_forall. intros h Hh. apply repeat_spec in Hh. subst h. repeat split; assumption.
  - constructor; [|constructor]. split; [exact Hg|]. split; [exact He | exact I].
  - constructor; [|constructor]. split; [exact Hg|]. split; exact I.
Qed.

Lemma back_short : forall dims g m, 3 <= m -> (forall d, In d dims -> d <= m) -> gate_ok dims g -> length (back dims g) <= m.
Proof.
  intros dims g m Hm Hd Hg. destruct g; cbn [back undo Datatypes.length repeat]; rewrite ?repeat_length; try lia.
  pose proof (Hd _ (nth_In dims 0 Hg)). lia.
Qed.

Lemma backs_undo : forall dims prog (psi : config -> CS) s, valid dims s ->
  Forall (fun g => gate_ok dims g /\ exact dims g /\ plain g) prog ->
  final dims (prog ++ backs dims prog) psi s = psi s.
Proof.
  intros dims prog. induction prog as [|g prog IH]; intros psi s Hs HF; [reflexivity|].
  inversion HF as [|? ? [A1 [A2 A3]] B]; subst. unfold backs. cbn [rev]. rewrite flat_map_app. cbn [flat_map]. rewrite app_nil_r.
  rewrite app_assoc, (@ComplexRun.final_app ord). cbn [app final].
  rewrite (@final_ext CS dims (back dims g) _ (apply dims g psi)); [apply back_undoes; assumption| |exact Hs].
  intros t Ht. apply IH; assumption.
Qed.

Lemma backs_good : forall dims prog, (forall d, In d dims -> 2 <= d) ->
  Forall (fun g => gate_ok dims g /\ exact dims g /\ plain g) prog ->
  Forall (fun g => gate_ok dims g /\ exact dims g /\ plain g) (backs dims prog).
Proof.
  intros dims prog Hd HF. unfold backs. rewrite Forall_forall in *. intros h Hh. apply in_flat_map in Hh as [g [Hg Hh]].
  apply in_rev in Hg. destruct (HF g Hg) as [A1 [A2 A3]].
  pose proof (back_good dims g Hd A1 A2 A3) as X. rewrite Forall_forall in X. apply X. exact Hh.
Qed.

Lemma backs_short : forall dims prog m, 3 <= m -> (forall d, In d dims -> d <= m) -> Forall (gate_ok dims) prog ->
  length (backs dims prog) <= m * length prog.
Proof.
  intros dims prog m Hm Hd HF. unfold backs. rewrite <- (rev_length prog). apply Forall_rev in HF.
  induction HF as [|g l A B IH]; [simpl; lia|]. cbn [flat_map Datatypes.length]. rewrite app_length.
  pose proof (back_short dims g m Hm Hd A). lia.
Qed.

(** ** Calls *)
Lemma has_calls : forall dims prog, Forall plain prog -> exists ks, Forall2 (denotes dims) ks prog.
Proof.
  intros dims prog H. induction H as [|g prog A B [ks IH]]; [exists []; constructor|].
  assert (K : exists k, denotes dims k g).
  { destruct g as [r p|r|r|c t p|cs t p|r u|r k u]; try contradiction; eexists.
    - apply den_x. left. reflexivity.
    - apply den_h. left. reflexivity.
    - apply den_z. left. reflexivity.
    - apply den_cx.
    - apply den_tof. }
  destruct K as [k K]. exists (k :: ks). constructor; assumption.
Qed.

End Undo.
