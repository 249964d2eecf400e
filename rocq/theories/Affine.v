(** * Affine: what x and cx compute on qubits. *)
From Verif Require Import Py Scalar Mat Utils Gates Circuit Spec Calls Run Lib Kern Layers Refine GateMat Reversible Merge Moved PermSpec Universal.
Set Implicit Arguments.
Local Notation length := List.length.

Section Affine.
Variable S : scalar.
Notation gate := (gate S).
Variable n : nat.
Notation dims := (repeat 2 n).
Notation ok := (valid dims).

Lemma two : forall r, r < n -> nth r dims 0 = 2.
Proof. intros r H. apply nth_repeat_lt. exact H. Qed.

Lemma ok_length : forall s, ok s -> length s = n.
Proof. intros s H. rewrite (valid_length H). apply repeat_length. Qed.

Lemma ok_level : forall s r, ok s -> r < n -> level s r = 0 \/ level s r = 1.
Proof.
  intros s r H Hr. pose proof (valid_level (r := r) H) as X. rewrite repeat_length in X. specialize (X Hr). rewrite two in X by exact Hr. lia.
Qed.

Lemma ok_levels : forall s, length s = n -> (forall r, r < n -> level s r < 2) -> ok s.
Proof.
  intros s Hl H. apply valid_levels; rewrite repeat_length; [exact Hl|]. intros r Hr. rewrite two by exact Hr. apply H, Hr.
Qed.

Lemma ok_ext : forall s t, ok s -> ok t -> (forall r, r < n -> level s r = level t r) -> s = t.
Proof.
  intros s t Hs Ht H. apply (nth_ext s t 0 0); [rewrite (ok_length Hs), (ok_length Ht); reflexivity|].
  intros r Hr. rewrite (ok_length Hs) in Hr. apply H, Hr.
Qed.

Lemma xor_level : forall s t r, ok s -> ok t -> r < n -> level (xor s t) r = (level s r + level t r) mod 2.
Proof.
  intros s t r Hs Ht Hr. unfold level, xor. apply ok_length in Hs, Ht. rewrite <- Hs in Ht, Hr. clear Hs. revert t r Ht Hr.
  induction s as [|x s IH]; intros [|y t] [|r] Ht Hr; cbn [length] in *; try lia; cbn [combine map nth]; [reflexivity|]. apply IH; lia.
Qed.

Lemma xor_ok : forall s t, ok s -> ok t -> ok (xor s t).
Proof.
  intros s t Hs Ht. apply ok_levels.
  - unfold xor. rewrite map_length, combine_length, (ok_length Hs), (ok_length Ht). apply Nat.min_id.
  - intros r Hr. rewrite xor_level by assumption. apply Nat.mod_upper_bound. discriminate.
Qed.

Definition zeros : config := repeat 0 n.
Definition unit_at (i : nat) : config := put zeros i 1.

Lemma zeros_level : forall r, level zeros r = 0.
Proof. intros r. unfold level, zeros. apply nth_repeat. Qed.
Lemma zeros_ok : ok zeros.
Proof. apply ok_levels; [apply repeat_length|]. intros r _. rewrite zeros_level. lia. Qed.
Lemma unit_level : forall i r, i < n -> level (unit_at i) r = if r =? i then 1 else 0.
Proof. intros i r Hi. unfold unit_at. rewrite level_put by (unfold zeros; rewrite repeat_length; exact Hi). rewrite zeros_level. reflexivity. Qed.
Lemma unit_ok : forall i, i < n -> ok (unit_at i).
Proof. intros i Hi. apply valid_put; [apply zeros_ok|]. rewrite two by exact Hi. lia. Qed.

(** ** The two gates *)
Lemma shift2 : forall x p, shift 2 x p = (x + Z.to_nat (p mod 2)) mod 2.
Proof.
  intros x p. unfold shift. apply Nat2Z.inj. rewrite Nat2Z.inj_mod, Nat2Z.inj_add.
  change (Z.of_nat 2) with 2%Z. pose proof (Z.mod_pos_bound p 2 ltac:(lia)). rewrite !Z2Nat.id by (try apply Z.mod_pos_bound; lia).
  rewrite Z.add_mod_idemp_r by lia. reflexivity.
Qed.

Lemma x_level : forall r p s i, ok s -> r < n -> i < n ->
  level (move_x dims r p s) i = if i =? r then (level s i + Z.to_nat (p mod 2)) mod 2 else level s i.
Proof.
  intros r p s i Hs Hr Hi. unfold move_x. rewrite level_put by (rewrite (ok_length Hs); exact Hr).
  destruct (Nat.eqb_spec i r) as [->|]; [|reflexivity]. rewrite two by exact Hr. apply shift2.
Qed.

Lemma x_ok : forall r p s, ok s -> r < n -> ok (move_x dims r p s).
Proof. intros r p s Hs Hr. apply move_x_valid; [exact Hs | rewrite repeat_length; exact Hr]. Qed.

Lemma cx_level : forall c t p s i, ok s -> c < n -> t < n -> i < n ->
  level (move_cx dims c t p s) i = if i =? t then (level s i + level s c * Z.to_nat (p mod 2)) mod 2 else level s i.
Proof.
  intros c t p s i Hs Hc Ht Hi. unfold move_cx, top. rewrite two by exact Hc.
  destruct (ok_level Hs Hc) as [E|E]; rewrite E.
  - change (0 + 1 =? 2) with false. cbv iota. destruct (Nat.eqb_spec i t) as [->|]; [|reflexivity].
    destruct (ok_level Hs Ht) as [->| ->]; reflexivity.
  - change (1 + 1 =? 2) with true. cbv iota. rewrite x_level by assumption. rewrite Nat.mul_1_l. reflexivity.
Qed.

Lemma cx_ok : forall c t p s, ok s -> t < n -> ok (move_cx dims c t p s).
Proof. intros c t p s Hs Ht. unfold move_cx. destruct (top dims s c); [apply x_ok; assumption | exact Hs]. Qed.

Lemma lev3 : forall a b c i, ok a -> ok b -> ok c -> i < n ->
  level (xor a (xor b c)) i = (level a i + (level b i + level c i) mod 2) mod 2.
Proof. intros a b c i Ha Hb Hc Hi. rewrite !xor_level by auto using xor_ok. reflexivity. Qed.

Lemma pbit : forall p, Z.to_nat (p mod 2) = 0 \/ Z.to_nat (p mod 2) = 1.
Proof. intros p. pose proof (Z.mod_pos_bound p 2 ltac:(lia)). lia. Qed.

Lemma x_affine : forall r p a b c, ok a -> ok b -> ok c -> r < n ->
  move_x dims r p (xor a (xor b c)) = xor (move_x dims r p a) (xor (move_x dims r p b) (move_x dims r p c)).
Proof.
  intros r p a b c Ha Hb Hc Hr. apply ok_ext; [auto 6 using xor_ok, x_ok | auto 6 using xor_ok, x_ok|]. intros i Hi.
  rewrite lev3 by auto using x_ok. rewrite !x_level by auto using xor_ok. rewrite lev3 by auto.
  destruct (i =? r); [|reflexivity].
  destruct (ok_level Ha Hi) as [->| ->], (ok_level Hb Hi) as [->| ->], (ok_level Hc Hi) as [->| ->], (pbit p) as [->| ->]; reflexivity.
Qed.

Lemma cx_affine : forall u t p a b c, ok a -> ok b -> ok c -> u < n -> t < n ->
  move_cx dims u t p (xor a (xor b c)) = xor (move_cx dims u t p a) (xor (move_cx dims u t p b) (move_cx dims u t p c)).
Proof.
  intros u t p a b c Ha Hb Hc Hu Ht. apply ok_ext; [auto 6 using xor_ok, cx_ok | auto 6 using xor_ok, cx_ok|]. intros i Hi.
  rewrite lev3 by auto using cx_ok. rewrite !cx_level by auto using xor_ok. rewrite !lev3 by auto.
  destruct (i =? t); [|reflexivity].
  destruct (ok_level Ha Hi) as [->| ->], (ok_level Hb Hi) as [->| ->], (ok_level Hc Hi) as [->| ->],
    (ok_level Ha Hu) as [->| ->], (ok_level Hb Hu) as [->| ->], (ok_level Hc Hu) as [->| ->], (pbit p) as [->| ->]; reflexivity.
Qed.

(** ** Programs of x and cx *)
Definition plain (g : gate) : Prop := match g with GX _ _ | GCX _ _ _ => True | _ => False end.

Lemma plain_ok : forall g s, plain g -> gate_ok dims g -> ok s -> ok (move dims g s).
Proof.
  intros g s Hp Hg Hs. destruct g; try contradiction; cbn [gate_ok move] in *; rewrite repeat_length in Hg; [apply x_ok | apply cx_ok]; tauto.
Qed.

Lemma plain_moves : forall prog, Forall plain prog -> Forall (gate_ok dims) prog ->
  (forall s, ok s -> ok (moves dims prog s)) /\ affine n (moves dims prog).
Proof.
  induction prog as [|g prog IH]; intros Hp Hg; [split; [intros s Hs; exact Hs | intros a b c _ _ _; reflexivity]|].
  inversion_clear Hp as [|? ? P1 P2]. inversion_clear Hg as [|? ? G1 G2]. destruct (IH P2 G2) as [Hv Ha]. split.
  - intros s Hs. cbn [moves]. apply Hv, plain_ok; assumption.
  - intros a b c Va Vb Vc. cbn [moves]. rewrite <- Ha by (apply plain_ok; assumption). f_equal.
    destruct g; try contradiction; cbn [gate_ok move] in *; rewrite repeat_length in G1; [apply x_affine | apply cx_affine]; tauto.
Qed.

Definition simple (g : gate) : Prop :=
  match g with GX r p => r < n /\ p = 1%Z | GCX c t p => c < n /\ t < n /\ c <> t /\ p = 1%Z | _ => False end.

Definition within (m : nat) (f : config -> config) : Prop :=
  exists prog : list gate, length prog <= m /\ (forall g, In g prog -> simple g) /\ forall s, ok s -> moves dims prog s = f s.

Lemma within_le : forall m m' f, within m f -> m <= m' -> within m' f.
Proof. intros m m' f [p [Hl H]] Hm. exists p. split; [lia | exact H]. Qed.

Definition flip (r : nat) (s : config) : config := move_x dims r 1 s.
Definition cflip (c t : nat) (s : config) : config := move_cx dims c t 1 s.

Lemma flip_level : forall r s i, ok s -> r < n -> i < n -> level (flip r s) i = if i =? r then (level s i + 1) mod 2 else level s i.
Proof. intros r s i Hs Hr Hi. unfold flip. rewrite x_level by assumption. reflexivity. Qed.
Lemma cflip_level : forall c t s i, ok s -> c < n -> t < n -> i < n ->
  level (cflip c t s) i = if i =? t then (level s i + level s c) mod 2 else level s i.
Proof. intros c t s i Hs Hc Ht Hi. unfold cflip. rewrite cx_level by assumption. change (Z.to_nat (1 mod 2)) with 1. rewrite Nat.mul_1_r. reflexivity. Qed.

Lemma flip_ok : forall r s, ok s -> r < n -> ok (flip r s).
Proof. intros r s. apply x_ok. Qed.
Lemma cflip_ok : forall c t s, ok s -> t < n -> ok (cflip c t s).
Proof. intros c t s. apply cx_ok. Qed.

Lemma flip_flip : forall r s, ok s -> r < n -> flip r (flip r s) = s.
Proof.
  intros r s Hs Hr. apply ok_ext; [auto using flip_ok | exact Hs|]. intros i Hi. rewrite !flip_level by auto using flip_ok.
  destruct (i =? r); [|reflexivity]. destruct (ok_level Hs Hi) as [->| ->]; reflexivity.
Qed.
Lemma cflip_cflip : forall c t s, ok s -> c < n -> t < n -> c <> t -> cflip c t (cflip c t s) = s.
Proof.
  intros c t s Hs Hc Ht Hn. apply ok_ext; [auto using cflip_ok | exact Hs|]. intros i Hi. rewrite !cflip_level by auto using cflip_ok.
  apply Nat.eqb_neq in Hn. rewrite Hn. destruct (i =? t); [|reflexivity].
  destruct (ok_level Hs Hi) as [->| ->], (ok_level Hs Hc) as [->| ->]; reflexivity.
Qed.

Definition P (f : config -> config) : Prop := permutes dims f /\ affine n f.

Lemma P_ok : forall f s, P f -> ok s -> ok (f s).
Proof. intros f s [[H _] _]. apply H. Qed.

Lemma P_flip : forall r f, P f -> r < n -> P (fun s => flip r (f s)).
Proof.
  intros r f Hf Hr. destruct Hf as [[Hv Hi] Ha]. split; [split|].
  - intros s Hs. apply flip_ok; auto.
  - intros s t Hs Ht E. apply Hi; [exact Hs | exact Ht|]. rewrite <- (flip_flip (Hv s Hs) Hr), <- (flip_flip (Hv t Ht) Hr), E. reflexivity.
  - intros a b c Va Vb Vc. rewrite Ha by assumption. apply x_affine; auto.
Qed.
Lemma P_cflip : forall c t f, P f -> c < n -> t < n -> c <> t -> P (fun s => cflip c t (f s)).
Proof.
  intros u t f Hf Hu Ht Hn. destruct Hf as [[Hv Hi] Ha]. split; [split|].
  - intros s Hs. apply cflip_ok; auto.
  - intros s s' Hs Hs' E. apply Hi; [exact Hs | exact Hs'|]. rewrite <- (cflip_cflip (Hv s Hs) Hu Ht Hn), <- (cflip_cflip (Hv s' Hs') Hu Ht Hn), E. reflexivity.
  - intros a b c Va Vb Vc. rewrite Ha by assumption. apply cx_affine; auto.
Qed.

Lemma within_flip : forall m r f, P f -> r < n -> within m (fun s => flip r (f s)) -> within (1 + m) f.
Proof.
  intros m r f Hf Hr [p [Hl [Hp E]]]. exists (p ++ [GX r 1]). split; [rewrite app_length; cbn [length]; lia|]. split.
  - intros g Hg. apply in_app_or in Hg as [Hg|[<-|[]]]; [apply Hp, Hg | split; [exact Hr | reflexivity]].
  - intros s Hs. rewrite moves_app, E by exact Hs. apply flip_flip; [apply P_ok; assumption | exact Hr].
Qed.
Lemma within_cflip : forall m c t f, P f -> c < n -> t < n -> c <> t -> within m (fun s => cflip c t (f s)) -> within (1 + m) f.
Proof.
  intros m c t f Hf Hc Ht Hn [p [Hl [Hp E]]]. exists (p ++ [GCX c t 1]). split; [rewrite app_length; cbn [length]; lia|]. split.
  - intros g Hg. apply in_app_or in Hg as [Hg|[<-|[]]]; [apply Hp, Hg | cbn; auto].
  - intros s Hs. rewrite moves_app, E by exact Hs. apply cflip_cflip; try assumption. apply P_ok; assumption.
Qed.

(** ** Elimination *)
Definition F (k : nat) (f : config -> config) : Prop :=
  P f /\ f zeros = zeros /\ forall i, i < k -> f (unit_at i) = unit_at i.

Lemma fixed : forall k f, F k f -> k <= n -> forall j, j <= k -> forall s, ok s -> (forall r, j <= r < n -> level s r = 0) -> f s = s.
Proof.
  intros k f [Hf [H0 H1]] Hk. induction j as [|j IH]; intros Hj s Hs Hz.
  - replace s with zeros; [exact H0|]. apply ok_ext; [apply zeros_ok | exact Hs|]. intros r Hr. rewrite zeros_level. symmetry. apply Hz. lia.
  - assert (Lj : j < n) by lia. destruct (ok_level Hs Lj) as [E|E].
    + apply IH; [lia | exact Hs|]. intros r Hr. destruct (Nat.eq_dec r j) as [->|]; [exact E | apply Hz; lia].
    + set (s' := put s j 0). assert (V' : ok s') by (apply valid_put; [exact Hs | rewrite two by exact Lj; lia]).
      assert (L' : forall r, level s' r = if r =? j then 0 else level s r) by (intros r; apply level_put; rewrite (ok_length Hs); exact Lj).
      assert (Es : s = xor s' (xor (unit_at j) zeros)).
      { apply ok_ext; [exact Hs | auto using xor_ok, unit_ok, zeros_ok|]. intros r Hr.
        rewrite lev3 by auto using unit_ok, zeros_ok. rewrite L', unit_level, zeros_level by exact Lj.
        destruct (Nat.eqb_spec r j) as [->|]; [rewrite E; reflexivity|]. destruct (ok_level Hs Hr) as [->| ->]; reflexivity. }
      rewrite Es. destruct Hf as [_ Ha]. rewrite Ha by auto using unit_ok, zeros_ok. rewrite H0, H1 by lia. rewrite IH; [reflexivity | lia | exact V'|].
      intros r Hr. rewrite L'. destruct (Nat.eqb_spec r j); [reflexivity | apply Hz; lia].
Qed.

Lemma F_cflip : forall k c t f, F k f -> k <= c -> c < n -> t < n -> c <> t -> F k (fun s => cflip c t (f s)).
Proof.
  intros k c t f [Hf [H0 H1]] Hk Hc Ht Hn. split; [apply P_cflip; assumption|].
  assert (G : forall s, ok s -> level s c = 0 -> cflip c t s = s).
  { intros s Hs E. apply ok_ext; [apply cflip_ok; assumption | exact Hs|]. intros i Hi. rewrite cflip_level by assumption. rewrite E, Nat.add_0_r.
    destruct (i =? t); [|reflexivity]. destruct (ok_level Hs Hi) as [->| ->]; reflexivity. }
  split.
  - rewrite H0. apply G; [apply zeros_ok | apply zeros_level].
  - intros i Hi. rewrite H1 by exact Hi. apply G; [apply unit_ok; lia|]. rewrite unit_level by lia.
    destruct (Nat.eqb_spec c i); [lia | reflexivity].
Qed.

(** Clearing the levels of the image of a unit, register [j] and up. *)
Lemma clear : forall k m, k < n -> (forall g, F (1 + k) g -> within m g) ->
  forall i j f, j + i = n -> F k f -> level (f (unit_at k)) k = 1 ->
  (forall r, r < j -> r <> k -> level (f (unit_at k)) r = 0) -> within ((if j <=? k then i - 1 else i) + m) f.
Proof.
  intros k m Hk IH i. induction i as [|i IHi]; intros j f Hj Hf Hv Hz.
  - assert (W : within m f). 2:{ apply (within_le W). lia. }
    apply IH. destruct Hf as [Hp [H0 H1]]. split; [exact Hp|]. split; [exact H0|]. intros x Hx.
    destruct (Nat.eq_dec x k) as [->|]; [|apply H1; lia]. apply ok_ext; [apply P_ok; [exact Hp | apply unit_ok, Hk] | apply unit_ok, Hk|].
    intros r Hr. rewrite unit_level by exact Hk. destruct (Nat.eqb_spec r k) as [->|]; [exact Hv | apply Hz; lia].
  - assert (Lj : j < n) by lia. pose proof (P_ok (proj1 Hf) (unit_ok Hk)) as Vu.
    destruct (Nat.eq_dec j k) as [Ejk|Njk].
    { apply within_le with (m := (if 1 + j <=? k then i - 1 else i) + m).
      - apply IHi; [lia | exact Hf | exact Hv|]. intros r Hr Hn. apply Hz; lia.
      - subst k. destruct (Nat.leb_spec j j); [|lia]. destruct (Nat.leb_spec (1 + j) j); lia. }
    destruct (ok_level Vu Lj) as [E|E].
    + apply within_le with (m := (if 1 + j <=? k then i - 1 else i) + m).
      * apply IHi; [lia | exact Hf | exact Hv|]. intros r Hr Hn. destruct (Nat.eq_dec r j) as [->|]; [exact E | apply Hz; lia].
      * destruct (Nat.leb_spec j k), (Nat.leb_spec (1 + j) k); lia.
    + apply within_le with (m := 1 + ((if 1 + j <=? k then i - 1 else i) + m)).
      * apply within_cflip with (c := k) (t := j); try assumption; [exact (proj1 Hf) | lia|].
        apply IHi; [lia | apply F_cflip; try assumption; lia | |].
        -- rewrite cflip_level by assumption. destruct (Nat.eqb_spec k j); [lia | exact Hv].
        -- intros r Hr Hn. rewrite cflip_level by (try assumption; lia). destruct (Nat.eqb_spec r j) as [->|]; [|apply Hz; lia].
           rewrite E, Hv. reflexivity.
      * destruct (Nat.leb_spec j k), (Nat.leb_spec (1 + j) k); lia.
Qed.

Lemma eliminate : forall i k f, k + i = n -> F k f -> within (i * n) f.
Proof.
  induction i as [|i IH]; intros k f Hk Hf.
  - exists []. split; [apply le_n|]. split; [intros g []|]. intros s Hs. symmetry. apply (@fixed k f Hf ltac:(lia) k (le_n k) s Hs). lia.
  - assert (Lk : k < n) by lia. pose proof (P_ok (proj1 Hf) (unit_ok Lk)) as Vu.
    assert (C : forall g, F (1 + k) g -> within (i * n) g) by (intros g Hg; apply (IH (1 + k)); [lia | exact Hg]).
    assert (C2 : forall g, F k g -> level (g (unit_at k)) k = 1 -> within ((n - 1) + i * n) g).
    { intros g Hg Hv. apply (@clear k _ Lk C n 0 g eq_refl Hg Hv). intros r Hr. lia. }
    destruct (ok_level Vu Lk) as [E|E]; [|apply (within_le (C2 f Hf E)); cbn; lia].
    destruct (existsb (fun j => level (f (unit_at k)) j =? 1) (seq k (i + 1))) eqn:Ex.
    + apply existsb_exists in Ex as [j [Hj Ej]]. apply in_seq in Hj. apply Nat.eqb_eq in Ej.
      assert (j <> k) by congruence. apply within_le with (m := 1 + ((n - 1) + i * n)); [|cbn; lia].
      apply within_cflip with (c := j) (t := k); [exact (proj1 Hf) | lia | lia | assumption|].
      apply C2; [apply F_cflip; try assumption; lia|]. rewrite cflip_level by (try assumption; lia). rewrite Nat.eqb_refl, E, Ej. reflexivity.
    + exfalso. assert (Fx : f (f (unit_at k)) = f (unit_at k)).
      { apply (@fixed k f Hf ltac:(lia) k (le_n k) _ Vu). intros r Hr. destruct (ok_level Vu (r := r) ltac:(lia)) as [X|X]; [exact X|].
        assert (Y : existsb (fun j => level (f (unit_at k)) j =? 1) (seq k (i + 1)) = true); [|congruence].
        apply existsb_exists. exists r. split; [apply in_seq; lia | apply Nat.eqb_eq, X]. }
      destruct Hf as [[[_ Hi] _] _]. apply Hi in Fx; [|exact Vu | apply unit_ok, Lk]. rewrite Fx, unit_level, Nat.eqb_refl in E by exact Lk. discriminate.
Qed.

(** The image of the configuration of zeros first. *)
Lemma centre : forall i j f, j + i = n -> P f -> (forall r, r < j -> level (f zeros) r = 0) -> within (i + n * n) f.
Proof.
  induction i as [|i IH]; intros j f Hj Hf Hz.
  - apply (@eliminate n 0 f eq_refl). split; [exact Hf|]. split; [|intros i Hi; lia].
    apply ok_ext; [apply P_ok; [exact Hf | apply zeros_ok] | apply zeros_ok|]. intros r Hr. rewrite zeros_level. apply Hz. lia.
  - assert (Lj : j < n) by lia. pose proof (P_ok Hf zeros_ok) as Vz. destruct (ok_level Vz Lj) as [E|E].
    + apply within_le with (m := i + n * n); [|lia]. apply (IH (1 + j)); [lia | exact Hf|]. intros r Hr.
      destruct (Nat.eq_dec r j) as [->|]; [exact E | apply Hz; lia].
    + apply within_flip with (r := j); [exact Hf | exact Lj|]. apply (IH (1 + j)); [lia | apply P_flip; assumption|]. intros r Hr.
      rewrite flip_level by (try assumption; lia). destruct (Nat.eqb_spec r j) as [->|]; [rewrite E; reflexivity | apply Hz; lia].
Qed.

Lemma affine_within : forall f, permutes dims f -> affine n f -> within (n + n * n) f.
Proof. intros f Hp Ha. apply (@centre n 0 f eq_refl); [split; assumption|]. intros r Hr. lia. Qed.
End Affine.
