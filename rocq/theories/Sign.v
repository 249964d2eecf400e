(** * Sign: an odd number of swaps is out of reach on lines of odd dimensions. *)
From Coq Require Import Permutation.
From Verif Require Import Py Scalar Mat Utils Gates Circuit Spec Calls Run Lib Kern Layers Refine GateMat Reversible Merge Moved PermSpec Universal.
Set Implicit Arguments.
Local Notation length := List.length.

Definition xors (l : list bool) : bool := fold_right xorb false l.

Lemma xors_cons : forall b l, xors (b :: l) = xorb b (xors l).
Proof. reflexivity. Qed.

Lemma xors_perm : forall l l', Permutation l l' -> xors l = xors l'.
Proof.
  intros l l' H. unfold xors in *. induction H; cbn [fold_right]; [reflexivity | congruence | | congruence]. destruct x, y, (fold_right xorb false l); reflexivity.
Qed.

Lemma xors_map : forall A (u v : A -> bool) l, xors (map (fun x => xorb (u x) (v x)) l) = xorb (xors (map u l)) (xors (map v l)).
Proof.
  intros A u v l. induction l as [|x l IH]; [reflexivity|]. cbn [map]. rewrite !xors_cons.
  rewrite IH. destruct (u x), (v x), (xors (map u l)), (xors (map v l)); reflexivity.
Qed.

Lemma xors_false : forall A (u : A -> bool) l, (forall x, In x l -> u x = false) -> xors (map u l) = false.
Proof.
  intros A u l H. induction l as [|x l IH]; [reflexivity|]. cbn [map]. rewrite xors_cons, (H x (or_introl eq_refl)), xorb_false_l. apply IH. intros y Hy. apply H. right. exact Hy.
Qed.

Lemma xors_one : forall A (u : A -> bool) l x, NoDup l -> In x l -> (forall y, In y l -> u y = true <-> y = x) -> xors (map u l) = true.
Proof.
  intros A u l x Hn Hx H. induction l as [|y l IH]; [contradiction|]. inversion_clear Hn as [|? ? Ny Hl]. cbn [map]. rewrite xors_cons. destruct Hx as [->|Hx].
  - rewrite (proj2 (H x (or_introl eq_refl)) eq_refl). rewrite xors_false; [reflexivity|]. intros z Hz. destruct (u z) eqn:E; [|reflexivity].
    apply H in E; [|right; exact Hz]. subst z. contradiction.
  - rewrite IH; [|exact Hl | exact Hx | intros z Hz; apply H; right; exact Hz].
    destruct (u y) eqn:E; [|reflexivity]. apply H in E; [|left; reflexivity]. subst y. contradiction.
Qed.

Lemma NoDup_map_on : forall A B (f : A -> B) l, NoDup l -> (forall x y, In x l -> In y l -> f x = f y -> x = y) -> NoDup (map f l).
Proof.
  intros A B f l Hn. induction Hn as [|x l Hx Hn IH]; intros H; [constructor|]. cbn [map]. constructor.
  - rewrite in_map_iff. intros [y [E Hy]]. apply Hx. rewrite (H x y (or_introl eq_refl) (or_intror Hy) (eq_sym E)). exact Hy.
  - apply IH. intros y z Hy Hz. apply H; right; assumption.
Qed.

Section Sign.
Variable dims : list nat.
Hypothesis Hd : forall d, In d dims -> 2 <= d.
Let n := length dims.
Notation rk := (lin dims).
Notation ok := (valid dims).

Lemma pair_dec : forall p q : config * config, {p = q} + {p <> q}.
Proof. decide equality; apply list_eq_dec, Nat.eq_dec. Qed.

Definition pairs : list (config * config) :=
  nodup pair_dec (filter (fun p => rk (fst p) <? rk (snd p)) (list_prod (all_configs dims) (all_configs dims))).

Lemma in_pairs : forall s t, In (s, t) pairs <-> ok s /\ ok t /\ rk s < rk t.
Proof.
  intros s t. unfold pairs. rewrite nodup_In, filter_In, in_prod_iff, !in_all_configs. cbn [fst snd]. rewrite Nat.ltb_lt. tauto.
Qed.

(** The number of inversions of [f], modulo 2. *)
Definition flips (f : config -> config) (p : config * config) : bool :=
  negb (Bool.eqb (rk (f (fst p)) <? rk (f (snd p))) (rk (fst p) <? rk (snd p))).
Definition odd_ (f : config -> config) : bool := xors (map (flips f) pairs).

Lemma odd_ext : forall f g, (forall s, ok s -> f s = g s) -> odd_ f = odd_ g.
Proof.
  intros f g H. unfold odd_. f_equal. apply map_ext_in. intros [s t] Hp. apply in_pairs in Hp as [Hs [Ht _]]. unfold flips. cbn [fst snd]. rewrite !H by assumption. reflexivity.
Qed.

Lemma odd_id : odd_ (fun s => s) = false.
Proof. apply xors_false. intros p _. unfold flips. rewrite Bool.eqb_reflx. reflexivity. Qed.

Definition order (p : config * config) : config * config := if rk (fst p) <? rk (snd p) then p else (snd p, fst p).

Lemma reindex : forall f g, permutes dims f -> permutes dims g ->
  xors (map (fun p => flips g (f (fst p), f (snd p))) pairs) = odd_ g.
Proof.
  intros f g [Vf If] [Vg Ig]. unfold odd_.
  assert (Np : NoDup pairs) by apply NoDup_nodup.
  assert (Ap : forall s t, ok s -> ok t -> rk s <> rk t -> rk (f s) <> rk (f t)).
  { intros s t Hs Ht N E. apply N. f_equal. apply If; try assumption. apply (lin_inj (Vf s Hs) (Vf t Ht) E). }
  transitivity (xors (map (flips g) (map (fun p => order (f (fst p), f (snd p))) pairs))).
  - rewrite map_map. f_equal. apply map_ext_in. intros [s t] Hp. apply in_pairs in Hp as [Hs [Ht Hlt]]. cbn [fst snd].
    unfold order. cbn [fst snd]. destruct (rk (f s) <? rk (f t)) eqn:E; [reflexivity|]. unfold flips. cbn [fst snd].
    assert (N1 : rk (f s) <> rk (f t)) by (apply Ap; try assumption; lia).
    assert (N2 : rk (g (f s)) <> rk (g (f t))).
    { intros X. apply N1. f_equal. apply Ig; [apply Vf, Hs | apply Vf, Ht|]. apply (lin_inj (Vg _ (Vf s Hs)) (Vg _ (Vf t Ht)) X). }
    destruct (Nat.ltb_spec (rk (g (f s))) (rk (g (f t)))), (Nat.ltb_spec (rk (g (f t))) (rk (g (f s)))), (Nat.ltb_spec (rk (f s)) (rk (f t))), (Nat.ltb_spec (rk (f t)) (rk (f s))); try reflexivity; lia.
  - apply xors_perm, Permutation_map, NoDup_Permutation_bis.
    + apply NoDup_map_on; [exact Np|]. intros [s t] [s' t'] H1 H2 E. apply in_pairs in H1 as [A1 [A2 A3]]. apply in_pairs in H2 as [B1 [B2 B3]].
      unfold order in E. cbn [fst snd] in E.
      destruct (rk (f s) <? rk (f t)), (rk (f s') <? rk (f t')); injection E as E1 E2; apply If in E1; try assumption; apply If in E2; try assumption; subst; try reflexivity; lia.
    + rewrite map_length. apply le_n.
    + intros [u w] H. apply in_map_iff in H as [[s t] [E Hp]]. apply in_pairs in Hp as [Hs [Ht Hlt]]. cbn [fst snd] in E. unfold order in E. cbn [fst snd] in E.
      assert (N1 : rk (f s) <> rk (f t)) by (apply Ap; try assumption; lia).
      apply in_pairs. destruct (Nat.ltb_spec (rk (f s)) (rk (f t))); injection E as <- <-; repeat split; try (apply Vf; assumption); lia.
Qed.

Lemma odd_comp : forall f g, permutes dims f -> permutes dims g -> odd_ (fun s => g (f s)) = xorb (odd_ g) (odd_ f).
Proof.
  intros f g Hf Hg. rewrite <- (reindex Hf Hg). unfold odd_. rewrite <- xors_map. f_equal. apply map_ext. intros [s t]. unfold flips. cbn [fst snd].
  destruct (_ <? _), (_ <? _), (_ <? _); reflexivity.
Qed.

Lemma permutes_comp : forall f g, permutes dims f -> permutes dims g -> permutes dims (fun s => g (f s)).
Proof.
  intros f g [Vf If] [Vg Ig]. split; [intros s Hs; apply Vg, Vf, Hs|]. intros s t Hs Ht E. apply If; try assumption. apply Ig; try (apply Vf; assumption). exact E.
Qed.

Lemma permutes_swap : forall a b, ok a -> ok b -> permutes dims (swap a b).
Proof.
  intros a b Ha Hb. split; [intros s Hs; apply swap_valid; assumption|]. intros s t _ _ E. rewrite <- (swap_swap a b s), <- (swap_swap a b t), E. reflexivity.
Qed.

(** All swaps have the same sign ... *)
Lemma odd_conj : forall h h' a b, permutes dims h -> permutes dims h' -> (forall s, ok s -> h (h' s) = s /\ h' (h s) = s) -> ok a -> ok b ->
  odd_ (swap (h a) (h b)) = odd_ (swap a b).
Proof.
  intros h h' a b Hh Hh' I Ha Hb.
  assert (E : forall s, ok s -> swap (h a) (h b) s = h (swap a b (h' s))).
  { intros s Hs. destruct Hh' as [V' _]. destruct (I s Hs) as [E1 _]. unfold swap.
    ceq (h' s) a; [rewrite <- E1; rewrite Heqb0, config_eqb_refl; reflexivity|].
    ceq s (h a); [exfalso; apply Heqb0; rewrite Heqb1; apply I, Ha|].
    ceq (h' s) b; [rewrite <- E1; rewrite Heqb2, config_eqb_refl; reflexivity|].
    ceq s (h b); [exfalso; apply Heqb2; rewrite Heqb3; apply I, Hb | symmetry; exact E1]. }
  rewrite (odd_ext _ _ E). rewrite (odd_comp (f := fun s => swap a b (h' s)) (g := h)); [|apply permutes_comp; [exact Hh' | apply permutes_swap; assumption] | exact Hh].
  rewrite (odd_comp Hh' (permutes_swap Ha Hb)).
  assert (X : xorb (odd_ h) (odd_ h') = false).
  { rewrite <- (odd_comp Hh' Hh), <- odd_id. apply odd_ext. intros s Hs. apply I, Hs. }
  destruct (odd_ h), (odd_ h'), (odd_ (swap a b)); try discriminate X; reflexivity.
Qed.

Lemma odd_any : forall a b c d, ok a -> ok b -> ok c -> ok d -> a <> b -> c <> d -> odd_ (swap a b) = odd_ (swap c d).
Proof.
  intros a b c d Ha Hb Hc Hd' Nab Ncd. set (u := swap c a d).
  assert (Vu : ok u) by (apply swap_valid; assumption).
  assert (Nu : u <> a). { intros E. apply Ncd. rewrite <- (swap_swap c a c), <- (swap_swap c a d). fold u. rewrite E, swap_l. reflexivity. }
  assert (Ea : swap u b (swap c a c) = a) by (rewrite swap_l; apply swap_other; congruence).
  assert (Eb : swap u b (swap c a d) = b) by (fold u; apply swap_l).
  transitivity (odd_ (swap (swap u b (swap c a c)) (swap u b (swap c a d)))); [rewrite Ea, Eb; reflexivity|].
  apply (odd_conj (h := fun s => swap u b (swap c a s)) (h' := fun s => swap c a (swap u b s))); try assumption.
  - apply (permutes_comp (permutes_swap Hc Ha) (permutes_swap Vu Hb)).
  - apply (permutes_comp (permutes_swap Vu Hb) (permutes_swap Hc Ha)).
  - intros s _. rewrite !swap_swap. auto.
Qed.

(** ... which is that of the swap of the first two configurations. *)
Lemma odd_first : forall c d, ok c -> ok d -> rk c = 0 -> rk d = 1 -> odd_ (swap c d) = true.
Proof.
  intros c d Hc Hd' Ec Ed. assert (G : forall s, ok s -> rk (swap c d s) = if rk s =? 0 then 1 else if rk s =? 1 then 0 else rk s).
  { intros s Hs. unfold swap. ceq s c; [subst s; rewrite Ec; exact Ed|]. ceq s d; [subst s; rewrite Ed; exact Ec|].
    destruct (Nat.eqb_spec (rk s) 0) as [E|E]; [exfalso; apply Heqb; apply (lin_inj Hs Hc); congruence|].
    destruct (Nat.eqb_spec (rk s) 1) as [E'|E']; [exfalso; apply Heqb0; apply (lin_inj Hs Hd'); congruence | reflexivity]. }
  apply xors_one with (x := (c, d)).
  - apply NoDup_nodup.
  - apply in_pairs. rewrite Ec, Ed. repeat split; [exact Hc | exact Hd' | lia].
  - intros [s t] Hp. apply in_pairs in Hp as [Hs [Ht Hlt]]. unfold flips. cbn [fst snd]. rewrite !G by assumption. split.
    + intros E. assert (X : rk s = 0 /\ rk t = 1).
      { destruct (Nat.eqb_spec (rk s) 0), (Nat.eqb_spec (rk s) 1), (Nat.eqb_spec (rk t) 0), (Nat.eqb_spec (rk t) 1); try lia;
          repeat match type of E with context [?a <? ?b] => destruct (Nat.ltb_spec a b) end; try discriminate E; lia. }
      destruct X as [X1 X2]. f_equal; [apply (lin_inj Hs Hc) | apply (lin_inj Ht Hd')]; congruence.
    + intros E. injection E as -> ->. rewrite Ec, Ed. reflexivity.
Qed.

Hypothesis Hne : dims <> [].

Lemma first_two : exists c d, ok c /\ ok d /\ rk c = 0 /\ rk d = 1.
Proof.
  assert (H2 : 2 <= prodn dims).
  { clear n. destruct dims as [|d ds]; [contradiction|]. pose proof (Hd d (or_introl eq_refl)).
    assert (X : 1 <= prodn ds). { assert (Hp : forall e, In e ds -> 2 <= e) by (intros e He; apply Hd; right; exact He). clear -Hp. induction ds as [|e ds IH]; [unfold prodn; cbn; lia|].
      pose proof (Hp e (or_introl eq_refl)). specialize (IH (fun x Hx => Hp x (or_intror Hx))). rewrite prodn_cons. nia. }
    rewrite prodn_cons. nia. }
  pose proof (lin_all_configs dims) as E.
  assert (G : forall k, k < prodn dims -> exists s, ok s /\ rk s = k).
  { intros k Hk. assert (Hi : In k (map rk (all_configs dims))) by (rewrite E; apply in_seq; lia).
    apply in_map_iff in Hi as [s [Es Hs]]. exists s. split; [apply in_all_configs, Hs | exact Es]. }
  destruct (G 0 ltac:(lia)) as [c [Hc Ec]]. destruct (G 1 ltac:(lia)) as [d [Hd' Ed]]. exists c, d. auto.
Qed.

Lemma odd_swap : forall a b, ok a -> ok b -> a <> b -> odd_ (swap a b) = true.
Proof.
  intros a b Ha Hb N. destruct first_two as [c [d [Hc [Hd' [Ec Ed]]]]]. rewrite (odd_any (c := c) (d := d)); try assumption; [apply odd_first; assumption|].
  intros E. subst d. lia.
Qed.

Lemma permutes_all_swaps : forall l, real_swaps dims l -> permutes dims (swaps l).
Proof. intros l Hl. split; [intros s Hs; apply swaps_valid; assumption | intros s t _ _; apply swaps_inj]. Qed.

Lemma odd_swaps : forall l, real_swaps dims l -> odd_ (swaps l) = Nat.odd (length l).
Proof.
  induction l as [|[a b] l IH]; intros Hl; [exact odd_id|].
  destruct (Hl a b (or_introl eq_refl)) as [Ha [Hb N]].
  assert (Hl' : real_swaps dims l) by (intros x y H; apply Hl; right; exact H).
  change (swaps ((a, b) :: l)) with (fun s => swaps l (swap a b s)). rewrite (odd_comp (permutes_swap Ha Hb) (permutes_all_swaps Hl')), (IH Hl'), (odd_swap Ha Hb N).
  cbn [length]. rewrite Nat.odd_succ, <- Nat.negb_odd. destruct (Nat.odd (length l)); reflexivity.
Qed.

(** ** Gates on registers of odd dimension *)
Variable S : scalar.
Notation gate := (gate S).

Lemma odd_guarded : forall (guard : config -> bool) t p, t < n -> Nat.odd (nth t dims 0) = true ->
  (forall q s, ok s -> guard (move_x dims t q s) = guard s) ->
  odd_ (fun s => if guard s then move_x dims t p s else s) = false.
Proof.
  intros guard t p Ht Ho Hg. set (f := fun q s => if guard s then move_x dims t q s else s).
  assert (Hf : forall q, permutes dims (f q)).
  { intros q. split; [intros s Hs; unfold f; destruct (guard s); [apply move_x_valid; assumption | exact Hs]|].
    intros s s' Hs Hs' E. assert (I : forall u, ok u -> f (- q)%Z (f q u) = u).
    { intros u Hu. unfold f. destruct (guard u) eqn:G; [rewrite Hg, G by exact Hu; apply move_x_inv; assumption | rewrite G; reflexivity]. }
    rewrite <- (I s Hs), <- (I s' Hs'), E. reflexivity. }
  apply Nat.odd_spec in Ho as [m Hm].
  change (fun s => if guard s then move_x dims t p s else s) with (f p).
  set (q := (p * Z.of_nat (m + 1))%Z).
  assert (E : forall s, ok s -> f p s = f q (f q s)).
  { intros s Hs. unfold f. destruct (guard s) eqn:G; [|rewrite G; reflexivity]. rewrite Hg, G by exact Hs. pose proof (valid_level Hs Ht) as Hl.
    unfold move_x. rewrite level_put by (rewrite (valid_length Hs); exact Ht). rewrite Nat.eqb_refl, put_put, shift_shift by exact Hl.
    f_equal. unfold shift. f_equal. unfold q. rewrite Hm.
    replace (Z.of_nat (level s t) + (p * Z.of_nat (m + 1) + p * Z.of_nat (m + 1)))%Z with (Z.of_nat (level s t) + p + p * Z.of_nat (2 * m + 1))%Z by lia.
    symmetry. apply Z_mod_plus_full. }
  rewrite (odd_ext _ _ E), (odd_comp (Hf q) (Hf q)). apply xorb_nilpotent.
Qed.

Lemma odd_move : forall g : gate, (forall r, r < n -> Nat.odd (nth r dims 0) = true) -> reversible g -> gate_ok dims g -> odd_ (move dims g) = false.
Proof.
  intros g Ho Hr Hg. destruct g as [r p|r|r|c t p|cs t p|r u|r k u]; try contradiction; cbn [reversible gate_ok] in *.
  - destruct Hg as [Hg _]. apply (odd_guarded (fun _ => true) p Hg (Ho r Hg)). reflexivity.
  - destruct Hg as [Hc Ht]. apply (odd_guarded (fun s => top dims s c) p Ht (Ho t Ht)). intros q s Hs. apply top_move_x; assumption.
  - destruct Hg as [Hc [Ht [Hn _]]]. apply (odd_guarded (fun s => forallb (top dims s) cs) p Ht (Ho t Ht)). intros q s Hs.
    apply forallb_ext_in. intros c Hin. apply top_move_x; try assumption. intros ->. contradiction.
Qed.

Lemma permutes_move : forall g : gate, reversible g -> gate_ok dims g -> permutes dims (move dims g).
Proof.
  intros g Hr Hg. split; [intros s Hs; apply move_valid; assumption|]. intros s t Hs Ht E.
  rewrite <- (move_undo g Hr Hg Hs), <- (move_undo g Hr Hg Ht), E. reflexivity.
Qed.

Lemma odd_moves : forall prog : list gate, (forall r, r < n -> Nat.odd (nth r dims 0) = true) -> Forall (gate_ok dims) prog -> (forall g, In g prog -> reversible g) ->
  permutes dims (moves dims prog) /\ odd_ (moves dims prog) = false.
Proof.
  intros prog Ho. induction prog as [|g prog IH]; intros Hg Hr; [split; [split; auto | exact odd_id]|]. inversion_clear Hg as [|? ? Hg1 Hg2].
  destruct (IH Hg2 (fun x Hx => Hr x (or_intror Hx))) as [P O]. pose proof (Hr g (or_introl eq_refl)) as R.
  change (moves dims (g :: prog)) with (fun s => moves dims prog (move dims g s)).
  split; [apply permutes_comp; [apply permutes_move; assumption | exact P]|]. rewrite (odd_comp (permutes_move _ R Hg1) P), O, (odd_move _ Ho R Hg1). reflexivity.
Qed.

Lemma odd_dims_even_swaps : forall (prog : list gate) l, (forall r, r < n -> Nat.odd (nth r dims 0) = true) ->
  Forall (gate_ok dims) prog -> (forall g, In g prog -> reversible g) -> real_swaps dims l ->
  (forall s, ok s -> moves dims prog s = swaps l s) -> Nat.Even (length l).
Proof.
  intros prog l Ho Hg Hr Hl E. destruct (odd_moves Ho Hg Hr) as [_ O]. rewrite (odd_ext _ _ E), (odd_swaps Hl) in O.
  apply Nat.even_spec. rewrite <- Nat.negb_odd, O. reflexivity.
Qed.
End Sign.
