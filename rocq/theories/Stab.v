(** * Stab: sums of signs over configurations of qubits. *)
From Coq Require Import ZArith Lia.
From Verif Require Import Py Scalar Mat Utils Gates Circuit Spec Calls Run Lib Kern Layers Refine GateMat Reversible Local Merge Moved PermSpec Universal Affine.
Set Implicit Arguments.
Local Notation length := List.length.

(** The sign of a configuration [x] under the mask [v]. *)
Fixpoint sg (v x : config) : Z :=
  match v, x with
  | a :: v', b :: x' => Z.mul (if (a =? 1) && (b =? 1) then (-1)%Z else 1%Z) (sg v' x')
  | _, _ => 1%Z
  end.

Definition zs {A} (f : A -> Z) (l : list A) : Z := @bsum Zscalar A f l.

Lemma zs_ext : forall A (f g : A -> Z) l, (forall x, In x l -> f x = g x) -> zs f l = zs g l.
Proof. exact (@bsum_ext Zscalar). Qed.
Lemma zs_add : forall A (f g : A -> Z) l, zs (fun x => f x + g x)%Z l = (zs f l + zs g l)%Z.
Proof. intros. apply (@bsum_add Zscalar Zscalar_laws). Qed.
Lemma zs_mul : forall A (f : A -> Z) c l, zs (fun x => c * f x)%Z l = (c * zs f l)%Z.
Proof. intros. apply (@bsum_mul_l Zscalar Zscalar_laws). Qed.
Lemma zs_swap : forall A B (f : A -> B -> Z) l m, zs (fun x => zs (fun y => f x y) m) l = zs (fun y => zs (fun x => f x y) l) m.
Proof. intros. apply (@bsum_swap Zscalar Zscalar_laws). Qed.
Lemma zs_single : forall A (f : A -> Z) l a, NoDup l -> In a l -> (forall x, In x l -> x <> a -> f x = 0%Z) -> zs f l = f a.
Proof. intros A f l a. apply (@bsum_single Zscalar Zscalar_laws). Qed.
Lemma zs_const : forall A c (l : list A), zs (fun _ => c) l = (Z.of_nat (length l) * c)%Z.
Proof. intros A c l. induction l as [|x l IH]; [reflexivity|]. change (zs (fun _ => c) (x :: l)) with (c + zs (fun _ => c) l)%Z. rewrite IH. cbn [length]. lia. Qed.
Lemma zs_filter : forall A (f : A -> Z) (p : A -> bool) l, (forall x, In x l -> p x = false -> f x = 0%Z) -> zs f l = zs f (filter p l).
Proof.
  intros A f p l. induction l as [|x l IH]; intros H; [reflexivity|]. change (zs f (x :: l)) with (f x + zs f l)%Z. cbn [filter].
  rewrite IH by (intros; apply H; [right|]; assumption). destruct (p x) eqn:E; [reflexivity|]. rewrite (H x (or_introl eq_refl) E). reflexivity.
Qed.
Lemma zs_zero : forall A (f : A -> Z) l, (forall x, In x l -> 0 <= f x)%Z -> zs f l = 0%Z -> forall x, In x l -> f x = 0%Z.
Proof.
  intros A f l. assert (P : forall l, (forall x, In x l -> 0 <= f x)%Z -> (0 <= zs f l)%Z).
  { clear. induction l as [|x l IH]; intros H; [reflexivity|]. change (zs f (x :: l)) with (f x + zs f l)%Z.
    pose proof (H x (or_introl eq_refl)). specialize (IH (fun y Hy => H y (or_intror Hy))). lia. }
  induction l as [|x l IH]; intros H E y Hy; [destruct Hy|]. change (zs f (x :: l)) with (f x + zs f l)%Z in E.
  pose proof (H x (or_introl eq_refl)). pose proof (P l (fun y Hy => H y (or_intror Hy))).
  destruct Hy as [<-|Hy]; [lia|]. apply IH; [intros z Hz; apply H; right; exact Hz | lia | exact Hy].
Qed.

Section Stab.
Variable n : nat.
Notation dims := (repeat 2 n).
Notation V := (valid dims).
Notation all := (all_configs dims).
Notation e := (unit_at n).
Notation o := (zeros n).

Lemma zs_re : forall (f : config -> Z) h, (forall x, V x -> V (h x) /\ h (h x) = x) -> zs f all = zs (fun x => f (h x)) all.
Proof.
  intros f h H. apply (@bsum_image Zscalar Zscalar_laws config config f h all all).
  - apply all_configs_NoDup.
  - assert (G : forall l, NoDup l -> (forall x, In x l -> V x) -> NoDup (map h l)).
    { induction l as [|x l IH]; intros Hn Hl; [constructor|]. inversion_clear Hn as [|? ? Nx Hn']. cbn [map]. constructor.
      - intros C. apply in_map_iff in C as [y [E Hy]]. apply Nx. rewrite <- (proj2 (H x (Hl x (or_introl eq_refl)))), <- E, (proj2 (H y (Hl y (or_intror Hy)))). exact Hy.
      - apply IH; [exact Hn' | intros y Hy; apply Hl; right; exact Hy]. }
    apply G; [apply all_configs_NoDup | intros x Hx; apply in_all_configs, Hx].
  - intros x Hx. apply in_all_configs. apply H. apply in_all_configs, Hx.
  - intros y Hy Hn. exfalso. apply in_all_configs in Hy. apply Hn. apply in_map_iff. exists (h y). split; [apply H, Hy | apply in_all_configs, H, Hy].
Qed.

(** ** Addition of configurations *)
Ltac bits := intros; apply (@ok_ext n); auto using xor_ok, unit_ok, zeros_ok; intros i Hi; rewrite ?(@xor_level n) by auto using xor_ok, unit_ok, zeros_ok; rewrite ?zeros_level;
  repeat match goal with H : V ?x |- context [level ?x i] => destruct (ok_level H Hi) as [->| ->] end; try reflexivity.

Lemma xor_comm : forall a b, V a -> V b -> xor a b = xor b a.
Proof. bits. Qed.
Lemma xor_assoc : forall a b c, V a -> V b -> V c -> xor a (xor b c) = xor (xor a b) c.
Proof. bits. Qed.
Lemma xor_back : forall a b, V a -> V b -> xor (xor a b) b = a.
Proof. bits. Qed.
Lemma xor_o : forall a, V a -> xor a o = a.
Proof. bits. Qed.
Lemma xor_self : forall a, V a -> xor a a = o.
Proof. bits. Qed.
Lemma xor_swap : forall a b c, V a -> V b -> V c -> xor (xor a b) c = xor (xor a c) b.
Proof. bits. Qed.
Lemma xor_eq_o : forall a b, V a -> V b -> xor a b = o -> a = b.
Proof. intros a b Ha Hb E. rewrite <- (xor_back Ha Hb), E. rewrite xor_comm, xor_o; auto using zeros_ok. Qed.

Definition sb (b : nat) : Z := if b =? 1 then (-1)%Z else 1%Z.
Lemma sg_unit : forall r v, V v -> r < n -> sg v (e r) = sb (level v r).
Proof.
  unfold unit_at, zeros. intros r v Hv. revert r. remember (repeat 2 n) as ds eqn:E. revert E. generalize n as m. induction Hv as [|b d v ds Hb Hv IH]; intros m E r Hr.
  - destruct m; [lia | discriminate].
  - destruct m as [|m]; [discriminate|]. injection E as -> E. cbn [repeat]. destruct r as [|r]; cbn [put sg level nth].
    + assert (Z1 : forall w k, sg w (repeat 0 k) = 1%Z).
      { clear. induction w as [|a w IH]; intros [|k]; try reflexivity. cbn [repeat sg]. rewrite andb_false_r, IH. reflexivity. }
      rewrite Z1, Nat.eqb_refl, andb_true_r, Z.mul_1_r. reflexivity.
    + rewrite andb_false_r, (IH m E r ltac:(lia)). destruct (sb (level v r)) eqn:X; unfold level in X; rewrite X; reflexivity.
Qed.
Lemma sg_comm : forall v x, sg v x = sg x v.
Proof. induction v as [|a v IH]; intros [|b x]; try reflexivity. cbn [sg]. rewrite IH, andb_comm. reflexivity. Qed.
Lemma sg_xor : forall v x y, V v -> V x -> V y -> sg v (xor x y) = (sg v x * sg v y)%Z.
Proof.
  generalize n as m. intros m v x y Hv. revert x y. remember (repeat 2 m) as ds eqn:E. revert m E. induction Hv as [|a d v ds Ha Hv IH]; intros m E x y Hx Hy; [reflexivity|].
  inversion Hx as [|b d' x' ds' Hb Hx' E1 E2]; subst x d' ds'. inversion Hy as [|c d' y' ds' Hc Hy' E1 E2]; subst y d' ds'.
  destruct m as [|m]; [discriminate|]. injection E as -> E. unfold xor. cbn [combine map sg]. fold (xor x' y'). rewrite (IH m E x' y' Hx' Hy').
  destruct a as [|[|a]]; [| |lia]; destruct b as [|[|b]]; try lia; destruct c as [|[|c]]; try lia; cbn [Nat.eqb andb Nat.add]; cbn [Nat.modulo Nat.divmod fst Nat.sub snd Nat.eqb]; ring.
Qed.
Lemma sg_xor_l : forall v w x, V v -> V w -> V x -> sg (xor v w) x = (sg v x * sg w x)%Z.
Proof. intros. rewrite (sg_comm (xor v w)), sg_xor by assumption. rewrite (sg_comm x v), (sg_comm x w). reflexivity. Qed.
Lemma sg_unit_l : forall r x, V x -> r < n -> sg (e r) x = sb (level x r).
Proof. intros. rewrite sg_comm. apply sg_unit; assumption. Qed.
Lemma sg_o : forall v, sg v o = 1%Z.
Proof. unfold zeros. generalize n as k. intros k v. revert k. induction v as [|a w IH]; intros [|k]; try reflexivity. cbn [repeat sg]. rewrite andb_false_r, IH. reflexivity. Qed.
Lemma sg_o_l : forall x, sg o x = 1%Z.
Proof. intros. rewrite sg_comm. apply sg_o. Qed.
Lemma sg_pm : forall v x, sg v x = 1%Z \/ sg v x = (-1)%Z.
Proof. induction v as [|a v IH]; intros [|b x]; auto. cbn [sg]. destruct (IH x) as [->| ->], ((a =? 1) && (b =? 1)); auto. Qed.

Lemma put_xor : forall x r b, V x -> r < n -> b < 2 -> put x r b = if level x r =? b then x else xor x (e r).
Proof.
  intros x r b Hx Hr Hb. apply (@ok_ext n).
  - apply valid_put; [exact Hx | rewrite (Affine.two Hr); exact Hb].
  - destruct (level x r =? b); auto using xor_ok, unit_ok.
  - intros i Hi. rewrite level_put by (rewrite (ok_length n Hx); exact Hr). destruct (Nat.eqb_spec (level x r) b) as [E|E].
    + destruct (Nat.eqb_spec i r) as [->|]; [symmetry; exact E | reflexivity].
    + rewrite (@xor_level n), unit_level by auto using unit_ok. destruct (Nat.eqb_spec i r) as [->|].
      * destruct (ok_level Hx Hr) as [X|X]; rewrite X in *; destruct b as [|[|b]]; try lia; reflexivity.
      * destruct (ok_level Hx Hi) as [->| ->]; reflexivity.
Qed.
Lemma x_xor : forall x r p, V x -> r < n -> move_x dims r p x = if Z.to_nat (p mod 2) =? 1 then xor x (e r) else x.
Proof.
  intros x r p Hx Hr. apply (@ok_ext n); [apply x_ok; assumption | destruct (_ =? 1); auto using xor_ok, unit_ok|].
  intros i Hi. rewrite x_level by assumption. destruct (pbit p) as [->| ->]; cbn [Nat.eqb].
  - destruct (ok_level Hx Hi) as [->| ->]; destruct (i =? r); reflexivity.
  - rewrite (@xor_level n), unit_level by auto using unit_ok. destruct (ok_level Hx Hi) as [->| ->]; destruct (i =? r); reflexivity.
Qed.
Lemma cx_xor : forall x c t p, V x -> c < n -> t < n ->
  move_cx dims c t p x = if (Z.to_nat (p mod 2) =? 1) && (level x c =? 1) then xor x (e t) else x.
Proof.
  intros x c t p Hx Hc Ht. unfold move_cx, top. rewrite (Affine.two Hc). destruct (ok_level Hx Hc) as [->| ->]; cbn [Nat.eqb Nat.add].
  - rewrite andb_false_r. reflexivity.
  - rewrite andb_true_r. apply x_xor; assumption.
Qed.

(** ** Correlations of a state with integer amplitudes *)
Definition E (z : config -> Z) (u v : config) : Z := zs (fun x => sg v x * z x * z (xor x u))%Z all.

Definition flat (z : config -> Z) : Prop :=
  forall u v, V u -> V v -> E z u v = 0%Z \/ E z u v = E z o o \/ E z u v = (- E z o o)%Z.

Lemma E_ext : forall z z' u v, V u -> (forall x, V x -> z x = z' x) -> E z u v = E z' u v.
Proof. intros z z' u v Hu H. apply zs_ext. intros x Hx. apply in_all_configs in Hx. rewrite !H by auto using xor_ok. reflexivity. Qed.

(** The second state arises from the first by a step that permutes the
    correlations up to signs and multiplies them by [m]. *)
Definition follows (m : Z) (z z' : config -> Z) : Prop :=
  E z' o o = (m * E z o o)%Z /\
  forall u v, V u -> V v -> exists u' v' s, V u' /\ V v' /\ (s = 1 \/ s = -1)%Z /\ E z' u v = (s * m * E z u' v')%Z.

Lemma follows_flat : forall m z z', follows m z z' -> flat z -> flat z'.
Proof.
  intros m z z' [H0 H] Hf u v Hu Hv. destruct (H u v Hu Hv) as [u' [v' [s [Hu' [Hv' [Hs ->]]]]]]. rewrite H0.
  destruct (Hf u' v' Hu' Hv') as [->|[->| ->]], Hs as [->| ->]; lia.
Qed.
Lemma follows_id : forall z, follows 1 z z.
Proof. intros z. split; [lia|]. intros u v Hu Hv. exists u, v, 1%Z. repeat split; auto. lia. Qed.
Lemma follows_ext : forall m z z' z'', follows m z z' -> (forall x, V x -> z' x = z'' x) -> follows m z z''.
Proof.
  intros m z z' z'' [H0 H] Hx. split; [rewrite <- (E_ext z' z'' o (zeros_ok n) Hx); exact H0|].
  intros u v Hu Hv. rewrite <- (E_ext z' z'' v Hu Hx). apply H; assumption.
Qed.

Lemma follows_x : forall z r, r < n -> follows 1 z (fun x => z (xor x (e r))).
Proof.
  intros z r Hr. pose proof (unit_ok Hr) as Ve.
  assert (G : forall u v, V u -> V v -> E (fun x => z (xor x (e r))) u v = (sg v (e r) * E z u v)%Z).
  { intros u v Hu Hv. unfold E. rewrite (@zs_re _ (fun x => xor x (e r))) by (intros x Hx; split; [apply xor_ok; assumption | apply xor_back; assumption]).
    rewrite <- zs_mul. apply zs_ext. intros x Hx. apply in_all_configs in Hx. rewrite xor_back, sg_xor by assumption.
    rewrite (xor_swap Hx Ve Hu), xor_back by auto using xor_ok. ring. }
  split; [rewrite G by apply zeros_ok; rewrite sg_o_l; lia|].
  intros u v Hu Hv. exists u, v, (sg v (e r)). split; [exact Hu|]. split; [exact Hv|]. split; [apply sg_pm|]. rewrite G by assumption. lia.
Qed.

Lemma follows_z : forall z r, r < n -> follows 1 z (fun x => (- sb (level x r) * z x)%Z).
Proof.
  intros z r Hr. pose proof (unit_ok Hr) as Ve.
  assert (G : forall u v, V u -> V v -> E (fun x => (- sb (level x r) * z x)%Z) u v = (sb (level u r) * E z u v)%Z).
  { intros u v Hu Hv. unfold E. rewrite <- zs_mul. apply zs_ext. intros x Hx. apply in_all_configs in Hx.
    rewrite (@xor_level n) by assumption. destruct (ok_level Hx Hr) as [->| ->], (ok_level Hu Hr) as [->| ->]; change (sb ((0 + 0) mod 2)) with 1%Z; change (sb ((0 + 1) mod 2)) with (-1)%Z; change (sb ((1 + 0) mod 2)) with (-1)%Z; change (sb ((1 + 1) mod 2)) with 1%Z; change (sb 1) with (-1)%Z; change (sb 0) with 1%Z; ring. }
  split; [rewrite G by apply zeros_ok; rewrite zeros_level; change (sb 0) with 1%Z; lia|].
  intros u v Hu Hv. exists u, v, (sb (level u r)). split; [exact Hu|]. split; [exact Hv|]. split; [unfold sb; destruct (level u r =? 1); auto|]. rewrite G by assumption. lia.
Qed.

Definition cxor (c t : nat) (x : config) : config := if level x c =? 1 then xor x (e t) else x.
Lemma cxor_ok : forall c t x, V x -> t < n -> V (cxor c t x).
Proof. intros c t x Hx Ht. unfold cxor. destruct (_ =? 1); auto using xor_ok, unit_ok. Qed.
Lemma cxor_cflip : forall c t x, V x -> c < n -> t < n -> cxor c t x = cflip n c t x.
Proof. intros c t x Hx Hc Ht. unfold cflip. rewrite cx_xor by assumption. reflexivity. Qed.
Lemma cxor_cxor : forall c t x, V x -> c < n -> t < n -> c <> t -> cxor c t (cxor c t x) = x.
Proof. intros c t x Hx Hc Ht Hn. rewrite (cxor_cflip (cxor_ok c Hx Ht) Hc Ht), (cxor_cflip Hx Hc Ht). apply cflip_cflip; assumption. Qed.
Lemma cxor_xor : forall c t x u, V x -> V u -> c < n -> t < n -> cxor c t (xor x u) = xor (cxor c t x) (cxor c t u).
Proof.
  intros c t x u Hx Hu Hc Ht. apply (@ok_ext n); auto using xor_ok, cxor_ok. intros i Hi. rewrite !(@xor_level n) by auto using cxor_ok.
  rewrite !cxor_cflip, !cflip_level by auto using xor_ok. rewrite !(@xor_level n) by assumption.
  destruct (ok_level Hx Hi) as [->| ->], (ok_level Hu Hi) as [->| ->], (ok_level Hx Hc) as [->| ->], (ok_level Hu Hc) as [->| ->], (i =? t); reflexivity.
Qed.
Lemma sg_cxor : forall c t v x, V v -> V x -> c < n -> t < n -> sg v (cxor c t x) = sg (cxor t c v) x.
Proof.
  intros c t v x Hv Hx Hc Ht. unfold cxor.
  destruct (ok_level Hx Hc) as [X|X], (ok_level Hv Ht) as [Y|Y]; rewrite X, Y; cbn [Nat.eqb]; rewrite ?sg_xor, ?sg_xor_l by auto using unit_ok;
    rewrite ?sg_unit, ?sg_unit_l by assumption; rewrite ?X, ?Y; reflexivity || (change (sb 0) with 1%Z; ring).
Qed.

Lemma follows_cx : forall z c t, c < n -> t < n -> c <> t -> follows 1 z (fun x => z (cxor c t x)).
Proof.
  intros z c t Hc Ht Hn.
  assert (G : forall u v, V u -> V v -> E (fun x => z (cxor c t x)) u v = E z (cxor c t u) (cxor t c v)).
  { intros u v Hu Hv. unfold E. rewrite (@zs_re _ (cxor c t)) by (intros x Hx; split; [apply cxor_ok; assumption | apply cxor_cxor; assumption]).
    apply zs_ext. intros x Hx. apply in_all_configs in Hx. rewrite cxor_cxor by assumption. rewrite <- (sg_cxor Hv Hx Hc Ht).
    rewrite cxor_xor by auto using cxor_ok. rewrite cxor_cxor by assumption. reflexivity. }
  assert (C0 : forall a b, cxor a b o = o) by (intros a b; unfold cxor; rewrite zeros_level; reflexivity).
  split; [rewrite G, !C0 by apply zeros_ok; lia|].
  intros u v Hu Hv. exists (cxor c t u), (cxor t c v), 1%Z. split; [auto using cxor_ok|]. split; [auto using cxor_ok|]. split; [left; reflexivity|]. rewrite G by assumption. lia.
Qed.

Definition hstep (r : nat) (z : config -> Z) (x : config) : Z := (z (put x r 0) + sb (level x r) * z (put x r 1))%Z.

Lemma zs_twice : forall (f : config -> Z) r, r < n -> (2 * zs f all = zs (fun x => f x + f (xor x (e r)))%Z all)%Z.
Proof.
  intros f r Hr. rewrite zs_add. rewrite <- (@zs_re f (fun x => xor x (e r))); [lia|].
  intros x Hx. split; [auto using xor_ok, unit_ok | apply xor_back; auto using unit_ok].
Qed.

Lemma hstep_val : forall r z x, V x -> r < n ->
  hstep r z x = if level x r =? 1 then (z (xor x (e r)) - z x)%Z else (z x + z (xor x (e r)))%Z.
Proof.
  intros r z x Hx Hr. unfold hstep. rewrite !put_xor by (auto; lia). destruct (ok_level Hx Hr) as [->| ->]; cbn [Nat.eqb]; unfold sb; cbn [Nat.eqb]; ring.
Qed.

Lemma follows_h : forall z r, r < n -> follows 2 z (hstep r z).
Proof.
  intros z r Hr. pose proof (unit_ok Hr) as Ve.
  assert (G : forall u v, V u -> V v ->
    (E (hstep r z) u v = if (level u r =? level v r)%nat then 2 * sb (level u r) * E z u v else 2 * E z (xor u (e r)) (xor v (e r)))%Z).
  { intros u v Hu Hv. apply (Z.mul_reg_l _ _ 2%Z ltac:(discriminate)).
    assert (M : (2 * E (hstep r z) u v = zs (fun x => if (level u r =? level v r)%nat
      then 2 * sb (level u r) * (sg v x * z x * z (xor x u) + sg v (xor x (e r)) * z (xor x (e r)) * z (xor (xor x (e r)) u))
      else 2 * (sg (xor v (e r)) x * z x * z (xor x (xor u (e r))) + sg (xor v (e r)) (xor x (e r)) * z (xor x (e r)) * z (xor (xor x (e r)) (xor u (e r))))) all)%Z).
    { unfold E. rewrite (zs_twice _ Hr). apply zs_ext. intros x Hx. apply in_all_configs in Hx.
      rewrite !hstep_val by auto using xor_ok.
      rewrite (xor_assoc Hx Hu Ve), (xor_assoc (xor_ok n Hx Ve) Hu Ve), (xor_swap Hx Ve Hu), !xor_back by auto using xor_ok.
      rewrite !sg_xor_l, !sg_xor by auto using xor_ok. rewrite !sg_unit, !sg_unit_l by auto using unit_ok.
      rewrite !(@xor_level n) by auto using xor_ok. rewrite !unit_level by exact Hr. rewrite !Nat.eqb_refl. unfold sb.
      destruct (ok_level Hx Hr) as [->| ->], (ok_level Hu Hr) as [->| ->], (ok_level Hv Hr) as [->| ->]; cbn [Nat.eqb Nat.add Nat.modulo Nat.divmod fst Nat.sub snd]; ring. }
    rewrite M. destruct (level u r =? level v r).
    - rewrite zs_mul. unfold E. rewrite <- (zs_twice (fun x => sg v x * z x * z (xor x u))%Z Hr). ring.
    - rewrite zs_mul. unfold E. rewrite <- (zs_twice (fun x => sg (xor v (e r)) x * z x * z (xor x (xor u (e r))))%Z Hr). ring. }
  split.
  - rewrite G by apply zeros_ok. rewrite Nat.eqb_refl, zeros_level. unfold sb. cbn [Nat.eqb]. lia.
  - intros u v Hu Hv. rewrite G by assumption. destruct (level u r =? level v r).
    + exists u, v, (sb (level u r)). split; [exact Hu|]. split; [exact Hv|]. split; [unfold sb; destruct (level u r =? 1); auto | ring].
    + exists (xor u (e r)), (xor v (e r)), 1%Z. split; [auto using xor_ok|]. split; [auto using xor_ok|]. split; [auto | ring].
Qed.

(** A basis state *)
Lemma flat_basis : forall s, V s -> let z := fun x => if config_eqb s x then 1%Z else 0%Z in flat z /\ E z o o = 1%Z.
Proof.
  intros s Hs z.
  assert (Zs : forall x, z x = if config_eqb s x then 1%Z else 0%Z) by reflexivity.
  assert (Z1 : z s = 1%Z) by (rewrite Zs, config_eqb_refl; reflexivity).
  assert (Z0 : forall x, x <> s -> z x = 0%Z) by (intros x Hx; rewrite Zs, (proj2 (config_eqb_neq s x)) by congruence; reflexivity).
  assert (G : forall u v, V u -> E z u v = (sg v s * z (xor s u))%Z).
  { intros u v Hu. unfold E. rewrite (@zs_single _ _ _ s (all_configs_NoDup dims)); [rewrite Z1; ring | apply in_all_configs, Hs|].
    intros x _ Hx. rewrite (Z0 x Hx). ring. }
  assert (N : E z o o = 1%Z) by (rewrite G, sg_o_l, xor_o, Z1 by auto using zeros_ok; reflexivity).
  split; [|exact N]. intros u v Hu Hv. rewrite N, G by exact Hu. rewrite Zs. destruct (config_eqb s (xor s u)); destruct (sg_pm v s) as [->| ->]; auto.
Qed.

(** ** What flatness says *)
Lemma sum_sg : forall w, V w -> zs (fun v => sg v w) all = if config_eqb w o then Z.of_nat (length all) else 0%Z.
Proof.
  intros w Hw. destruct (config_eqb w o) eqn:X.
  - apply config_eqb_eq in X. subst w. rewrite (@zs_ext _ _ (fun _ => 1%Z)) by (intros; apply sg_o). rewrite zs_const. lia.
  - apply config_eqb_neq in X. destruct (existsb (fun r => level w r =? 1) (seq 0 n)) eqn:Y.
    + apply existsb_exists in Y as [r [Hr Er]]. apply in_seq in Hr. apply Nat.eqb_eq in Er. assert (Lr : r < n) by lia.
      assert (Q : zs (fun v => sg v w) all = (-1 * zs (fun v => sg v w) all)%Z); [|lia].
      rewrite (@zs_re (fun v => sg v w) (fun v => xor v (e r))) at 1 by (intros v Hv; split; [auto using xor_ok, unit_ok | apply xor_back; auto using unit_ok]).
      rewrite <- zs_mul. apply zs_ext. intros v Hv. apply in_all_configs in Hv. rewrite sg_xor_l, sg_unit_l by auto using unit_ok. rewrite Er. unfold sb. cbn [Nat.eqb]. ring.
    + exfalso. apply X. apply (@ok_ext n); [exact Hw | apply zeros_ok|]. intros i Hi. rewrite zeros_level. destruct (ok_level Hw Hi) as [A|A]; [exact A|].
      assert (B : existsb (fun r => level w r =? 1) (seq 0 n) = true); [|congruence]. apply existsb_exists. exists i. split; [apply in_seq; lia | apply Nat.eqb_eq, A].
Qed.

Lemma invert : forall z x, V x -> (Z.of_nat (length all) * (z x * z x) = zs (fun v => sg v x * E z o v) all)%Z.
Proof.
  intros z x Hx. transitivity (zs (fun v => zs (fun y => sg v x * (sg v y * z y * z (xor y o))) all) all)%Z.
  - rewrite zs_swap. rewrite (@zs_single _ _ _ x (all_configs_NoDup dims)).
    + rewrite (@zs_ext _ _ (fun _ => z x * z x)%Z); [rewrite zs_const; reflexivity|]. intros v _. rewrite xor_o by exact Hx. destruct (sg_pm v x) as [->| ->]; ring.
    + apply in_all_configs, Hx.
    + intros y Hy Hn. apply in_all_configs in Hy. rewrite (@zs_ext _ _ (fun v => (z y * z y) * sg v (xor x y))%Z).
      * rewrite zs_mul, sum_sg by auto using xor_ok. rewrite (proj2 (config_eqb_neq _ _)); [ring|]. intros C. apply Hn. symmetry. apply xor_eq_o; assumption.
      * intros v Hv. apply in_all_configs in Hv. rewrite xor_o, sg_xor by assumption. ring.
  - apply zs_ext. intros v _. unfold E. apply zs_mul.
Qed.

Lemma norm : forall z, E z o o = zs (fun x => z x * z x)%Z all.
Proof. intros z. apply zs_ext. intros x Hx. apply in_all_configs in Hx. rewrite sg_o_l, xor_o by exact Hx. ring. Qed.

(** A mask with a correlation has the same sign on the whole support. *)
Lemma same_sign : forall z v, flat z -> V v -> E z o v <> 0%Z -> exists s, forall x, V x -> z x <> 0%Z -> sg v x = s.
Proof.
  intros z v Hf Hv Hn.
  assert (G : forall s, (s = 1 \/ s = -1)%Z -> E z o v = (s * E z o o)%Z -> forall x, V x -> z x <> 0%Z -> sg v x = s).
  { intros s Hs He x Hx Hz. assert (Q : ((1 - s * sg v x) * (z x * z x) = 0)%Z).
    - apply (@zs_zero _ (fun x => (1 - s * sg v x) * (z x * z x))%Z all).
      + intros y _. pose proof (Z.square_nonneg (z y)). destruct Hs as [->| ->], (sg_pm v y) as [->| ->]; lia.
      + rewrite (@zs_ext _ _ (fun y => z y * z y + (- s) * (sg v y * z y * z (xor y o)))%Z).
        * rewrite zs_add, zs_mul, <- norm. fold (E z o v). rewrite He. destruct Hs as [->| ->]; ring.
        * intros y Hy. apply in_all_configs in Hy. rewrite xor_o by exact Hy. ring.
      + apply in_all_configs, Hx.
    - apply Z.mul_eq_0 in Q as [Q|Q]; [destruct Hs as [->| ->], (sg_pm v x) as [X|X]; rewrite X in *; lia|]. apply Z.mul_eq_0 in Q. tauto. }
  destruct (Hf o v (zeros_ok n) Hv) as [X|[X|X]]; [contradiction | exists 1%Z; apply G; [auto | lia] | exists (-1)%Z; apply G; [auto | lia]].
Qed.

Lemma all_pos : (0 < Z.of_nat (length all))%Z.
Proof. destruct all as [|a l] eqn:X; [|cbn [length]; lia]. pose proof (proj2 (in_all_configs dims o) (zeros_ok n)) as H. rewrite X in H. destruct H. Qed.

Lemma flat_equal : forall z x y, flat z -> V x -> V y -> (forall v, V v -> E z o v <> 0%Z -> sg v x = sg v y) -> (z x * z x = z y * z y)%Z.
Proof.
  intros z x y Hf Hx Hy H. pose proof all_pos. apply (Z.mul_reg_l _ _ (Z.of_nat (length all))); [lia|]. rewrite !invert by assumption.
  apply zs_ext. intros v Hv. apply in_all_configs in Hv. destruct (Z.eq_dec (E z o v) 0) as [X|X]; [rewrite X; ring | rewrite (H v Hv X); reflexivity].
Qed.

Lemma flat_uniform : forall z x y, flat z -> V x -> V y -> z x <> 0%Z -> z y <> 0%Z -> (z x * z x = z y * z y)%Z.
Proof.
  intros z x y Hf Hx Hy Zx Zy. apply flat_equal; try assumption. intros v Hv Hn. destruct (same_sign Hf Hv Hn) as [s Hs].
  rewrite (Hs x Hx Zx), (Hs y Hy Zy). reflexivity.
Qed.

Lemma flat_closed : forall z a b c, flat z -> V a -> V b -> V c -> z a <> 0%Z -> z b <> 0%Z -> z c <> 0%Z -> z (xor a (xor b c)) <> 0%Z.
Proof.
  intros z a b c Hf Va Vb Vc Za Zb Zc C.
  assert (Q : (z (xor a (xor b c)) * z (xor a (xor b c)) = z a * z a)%Z).
  { apply flat_equal; auto using xor_ok. intros v Hv Hn. destruct (same_sign Hf Hv Hn) as [s Hs].
    rewrite !sg_xor by auto using xor_ok. rewrite (Hs a Va Za), (Hs b Vb Zb), (Hs c Vc Zc). pose proof (sg_pm v a) as P. rewrite (Hs a Va Za) in P.
    destruct P as [->| ->]; reflexivity. }
  rewrite C in Q. symmetry in Q. apply Z.mul_eq_0 in Q. tauto.
Qed.

Lemma pow2_factor : forall h (a b : Z), (0 <= a)%Z -> (0 <= b)%Z -> (a * b = 2 ^ Z.of_nat h)%Z -> exists k, k <= h /\ a = (2 ^ Z.of_nat k)%Z /\ b = (2 ^ Z.of_nat (h - k))%Z.
Proof.
  induction h as [|h IH]; intros a b Ha Hb H.
  - exists 0. change (2 ^ Z.of_nat 0)%Z with 1%Z in *. assert (A : a = 1%Z) by (apply Z.eq_mul_1_nonneg in H; tauto). rewrite A in *. cbn [Nat.sub]. change (2 ^ Z.of_nat 0)%Z with 1%Z. repeat split; lia.
  - rewrite Nat2Z.inj_succ, Z.pow_succ_r in H by lia. destruct (Z.Even_or_Odd b) as [[b' ->]|[b' Hb']].
    + destruct (IH a b') as [k [Hk [Ea Eb]]]; [exact Ha | lia | lia|]. exists k. split; [lia|]. split; [exact Ea|].
      replace (Datatypes.S h - k) with (Datatypes.S (h - k)) by lia. rewrite Nat2Z.inj_succ, Z.pow_succ_r by lia. lia.
    + destruct (Z.Even_or_Odd a) as [[a' ->]|[a' Ha']].
      * destruct (IH a' b) as [k [Hk [Ea Eb]]]; [lia | exact Hb | lia|]. exists (Datatypes.S k). split; [lia|].
        rewrite Nat2Z.inj_succ, Z.pow_succ_r by lia. split; [lia|]. exact Eb.
      * exfalso. subst a b. lia.
Qed.

(** A flat state of squared norm 2^h has 2^k entries of square 2^(h-k). *)
Lemma flat_counts : forall z h, flat z -> E z o o = (2 ^ Z.of_nat h)%Z ->
  exists k, k <= h /\ length (filter (fun s => negb (z s =? 0)%Z) all) = 2 ^ k /\
  forall x, V x -> z x <> 0%Z -> (z x * z x = 2 ^ Z.of_nat (h - k))%Z.
Proof.
  intros z h Hf Hn. set (A := filter (fun s => negb (z s =? 0)%Z) all).
  assert (HA : forall x, In x A <-> V x /\ z x <> 0%Z).
  { intros x. unfold A. rewrite filter_In, in_all_configs, negb_true_iff, Z.eqb_neq. reflexivity. }
  assert (Sm : E z o o = zs (fun x => z x * z x)%Z A).
  { rewrite norm. apply zs_filter. intros x _ Hx. apply negb_false_iff, Z.eqb_eq in Hx. rewrite Hx. reflexivity. }
  destruct A as [|a l] eqn:X.
  - exfalso. assert (E z o o = 0%Z) by (rewrite Sm; reflexivity). pose proof (Z.pow_pos_nonneg 2 (Z.of_nat h)). lia.
  - destruct (proj1 (HA a) (or_introl eq_refl)) as [Va Za].
    assert (Q : (Z.of_nat (length (a :: l)) * (z a * z a) = 2 ^ Z.of_nat h)%Z).
    { rewrite <- Hn, Sm, <- zs_const. apply zs_ext. intros x Hx. apply HA in Hx as [Vx Zx]. apply flat_uniform; assumption. }
    destruct (@pow2_factor h (Z.of_nat (length (a :: l))) (z a * z a)%Z) as [k [Hk [E1 E2]]]; [lia | apply Z.square_nonneg | exact Q|].
    exists k. split; [exact Hk|]. split.
    + apply Nat2Z.inj. rewrite E1, Nat2Z.inj_pow. reflexivity.
    + intros x Vx Zx. rewrite <- E2. apply flat_uniform; assumption.
Qed.
End Stab.
