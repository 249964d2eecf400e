(** * Universal: which permutations of the configurations can be programmed. *)
From Coq Require Import Permutation.
From Verif Require Import Py Scalar Mat Utils Gates Circuit Spec Calls Run Lib Kern Layers Refine GateMat Reversible Merge Moved PermSpec.
Set Implicit Arguments.
Local Notation length := List.length.

(** ** Swaps *)
Ltac ceq s a := destruct (config_eqb s a) eqn:?; [match goal with H : config_eqb s a = true |- _ => apply config_eqb_eq in H end | match goal with H : config_eqb s a = false |- _ => apply config_eqb_neq in H end].

Lemma swap_sym : forall a b s, swap a b s = swap b a s.
Proof. intros a b s. unfold swap. ceq s a; ceq s b; congruence. Qed.

Lemma swap_l : forall a b, swap a b a = b.
Proof. intros a b. unfold swap. rewrite config_eqb_refl. reflexivity. Qed.
Lemma swap_r : forall a b, swap a b b = a.
Proof. intros a b. rewrite swap_sym. apply swap_l. Qed.
Lemma swap_other : forall a b s, s <> a -> s <> b -> swap a b s = s.
Proof. intros a b s Ha Hb. unfold swap. ceq s a; [contradiction|]. ceq s b; [contradiction | reflexivity]. Qed.

Lemma swap_swap : forall a b s, swap a b (swap a b s) = s.
Proof.
  intros a b s. destruct (list_eq_dec Nat.eq_dec s a) as [->|Ha]; [rewrite swap_l; apply swap_r|].
  destruct (list_eq_dec Nat.eq_dec s b) as [->|Hb]; [rewrite swap_r; apply swap_l|]. rewrite !swap_other by (rewrite ?swap_other; assumption). reflexivity.
Qed.

Lemma swap_valid : forall dims a b s, valid dims a -> valid dims b -> valid dims s -> valid dims (swap a b s).
Proof. intros dims a b s Ha Hb Hs. unfold swap. destruct (config_eqb s a); [exact Hb|]. destruct (config_eqb s b); assumption. Qed.

Lemma swaps_app : forall l1 l2 s, swaps (l1 ++ l2) s = swaps l2 (swaps l1 s).
Proof. induction l1 as [|[a b] l1 IH]; intros l2 s; [reflexivity|]. cbn [app swaps]. apply IH. Qed.

Lemma swaps_rev : forall l s, swaps (rev l) (swaps l s) = s.
Proof.
  induction l as [|[a b] l IH]; intros s; [reflexivity|]. cbn [rev swaps]. rewrite swaps_app. rewrite IH. cbn [swaps]. apply swap_swap.
Qed.

Lemma swaps_rev' : forall l s, swaps l (swaps (rev l) s) = s.
Proof. intros l s. rewrite <- (rev_involutive l) at 1. apply swaps_rev. Qed.

Lemma swaps_inj : forall l s t, swaps l s = swaps l t -> s = t.
Proof. intros l s t E. rewrite <- (swaps_rev l s), <- (swaps_rev l t), E. reflexivity. Qed.

Lemma swaps_valid : forall dims l s, real_swaps dims l -> valid dims s -> valid dims (swaps l s).
Proof.
  intros dims l. induction l as [|[a b] l IH]; intros s Hl Hs; [exact Hs|]. cbn [swaps].
  destruct (Hl a b (or_introl eq_refl)) as [Ha [Hb _]]. apply IH; [intros x y H; apply Hl; right; exact H|]. apply swap_valid; assumption.
Qed.

Lemma real_app : forall dims l1 l2, real_swaps dims l1 -> real_swaps dims l2 -> real_swaps dims (l1 ++ l2).
Proof. intros dims l1 l2 H1 H2 a b H. apply in_app_or in H as [H|H]; [apply H1 | apply H2]; exact H. Qed.
Lemma real_rev : forall dims l, real_swaps dims l -> real_swaps dims (rev l).
Proof. intros dims l H a b Hi. apply H, in_rev, Hi. Qed.
Lemma real_one : forall dims a b, valid dims a -> valid dims b -> a <> b -> real_swaps dims [(a, b)].
Proof. intros dims a b Ha Hb Hn x y [E|[]]. injection E as <- <-. auto. Qed.

(** Every permutation is a product of swaps. *)
Lemma permutes_swaps : forall dims f, permutes dims f -> exists l, real_swaps dims l /\ forall s, valid dims s -> swaps l s = f s.
Proof.
  intros dims f [Hv Hi].
  assert (G : forall cs, NoDup cs -> (forall s, In s cs -> valid dims s) -> exists l, real_swaps dims l /\ forall s, In s cs -> swaps l s = f s).
  { induction cs as [|c cs IH]; intros Hn Hc; [exists []; split; [intros a b [] | intros s []]|]. inversion_clear Hn as [|? ? Nc Hn'].
    destruct (IH Hn' (fun s H => Hc s (or_intror H))) as [l [Hl El]]. pose proof (Hc c (or_introl eq_refl)) as Vc.
    destruct (list_eq_dec Nat.eq_dec (swaps l c) (f c)) as [E|E].
    - exists l. split; [exact Hl|]. intros s [<-|Hs]; [exact E | apply El, Hs].
    - exists (l ++ [(swaps l c, f c)]). split; [apply real_app; [exact Hl | apply real_one; [apply swaps_valid; assumption | apply Hv, Vc | exact E]]|].
      intros s Hs. rewrite swaps_app. cbn [swaps]. destruct Hs as [<-|Hs]; [apply swap_l|]. rewrite swap_other; [apply El, Hs | |].
      + intros X. apply swaps_inj in X. subst s. contradiction.
      + rewrite (El s Hs). intros X. apply Hi in X; [|apply Hc; right; exact Hs | exact Vc]. subst s. contradiction. }
  destruct (G (all_configs dims) (all_configs_NoDup dims)) as [l [Hl El]]; [intros s Hs; apply in_all_configs, Hs|].
  exists l. split; [exact Hl|]. intros s Hs. apply El, in_all_configs, Hs.
Qed.

Section Universal.
Variable S : scalar.
Notation gate := (gate S).
Variable dims : list nat.
Hypothesis Hd : forall d, In d dims -> 2 <= d.
Let n := length dims.

Lemma dim2 : forall r, r < n -> 2 <= nth r dims 0.
Proof. intros r Hr. apply Hd, nth_In, Hr. Qed.

(** Gates that can be undone by a gate the library accepts as well. *)
Definition fine (g : gate) : Prop := reversible g /\ gate_ok dims g /\ gate_ok dims (undo g).

(** Some program does [f]. *)
Definition can (f : config -> config) : Prop :=
  exists prog : list gate, (forall g, In g prog -> fine g) /\ forall s, valid dims s -> moves dims prog s = f s.

Lemma moves_app : forall (p1 p2 : list gate) s, moves dims (p1 ++ p2) s = moves dims p2 (moves dims p1 s).
Proof. induction p1 as [|g p1 IH]; intros p2 s; [reflexivity|]. cbn [app moves]. apply IH. Qed.

Lemma fine_valid : forall prog s, (forall g, In g prog -> fine g) -> valid dims s -> valid dims (moves (S := S) dims prog s).
Proof. intros prog s H Hs. apply moves_valid; [apply Forall_forall; intros g Hg; apply H, Hg | exact Hs]. Qed.

Lemma can_ext : forall f g, can f -> (forall s, valid dims s -> f s = g s) -> can g.
Proof. intros f g [p [Hp E]] H. exists p. split; [exact Hp|]. intros s Hs. rewrite E by exact Hs. apply H, Hs. Qed.

Arguments can_ext {f g}.

Lemma can_id : can (fun s => s).
Proof. exists []. split; [intros g [] | reflexivity]. Qed.

Lemma can_comp : forall f g, can f -> can g -> can (fun s => g (f s)).
Proof.
  intros f g [p [Hp Ep]] [q [Hq Eq]]. exists (p ++ q). split; [intros x Hx; apply in_app_or in Hx as [Hx|Hx]; auto|].
  intros s Hs. rewrite moves_app, Eq by (apply fine_valid; assumption). rewrite Ep by exact Hs. reflexivity.
Qed.

Arguments can_comp {f g}.

Lemma fine_undo : forall g, fine g -> fine (undo g).
Proof.
  intros g [R [A B]]. split; [destruct g; try contradiction; exact R|]. split; [exact B|]. rewrite undo_undo. exact A.
Qed.

(** What can be programmed can be undone. *)
Lemma can_inv : forall f f', can f -> (forall s, valid dims s -> valid dims (f' s) /\ f (f' s) = s) -> can f'.
Proof.
  intros f f' [p [Hp E]] Hf. exists (rev (map (@undo S) p)). split.
  - intros g Hg. apply in_rev, in_map_iff in Hg as [x [<- Hx]]. apply fine_undo, Hp, Hx.
  - intros s Hs. destruct (Hf s Hs) as [Hv Ef]. rewrite <- Ef at 1. rewrite <- E by exact Hv.
    revert Hp Hv. clear. generalize (f' s) as t. induction p as [|g p IH]; intros t Hp Hv; [reflexivity|].
    cbn [map rev moves]. rewrite moves_app. rewrite IH; [|intros x Hx; apply Hp; right; exact Hx | apply move_valid; [apply Hp; left; reflexivity | exact Hv]].
    cbn [moves]. destruct (Hp g (or_introl eq_refl)) as [R [A _]]. apply move_undo; assumption.
Qed.

Arguments can_inv {f f'}.

(** ** Several increments at once *)
Lemma xs_level : forall (k : nat -> Z) js s i, NoDup js -> (forall j, In j js -> j < n) -> valid dims s -> i < n ->
  level (moves dims (map (fun j => GX (S := S) j (k j)) js) s) i
  = if in_dec Nat.eq_dec i js then shift (nth i dims 0) (level s i) (k i) else level s i.
Proof.
  intros k js. induction js as [|j js IH]; intros s i Hn Hj Hs Hi; [reflexivity|]. inversion_clear Hn as [|? ? Nj Hn'].
  cbn [map moves move]. pose proof (Hj j (or_introl eq_refl)) as Lj.
  rewrite IH; [|exact Hn' | intros x Hx; apply Hj; right; exact Hx | apply move_x_valid; assumption | exact Hi].
  unfold move_x. rewrite level_put by (rewrite (valid_length Hs); exact Lj).
  destruct (in_dec Nat.eq_dec i js) as [H1|H1]; destruct (Nat.eqb_spec i j) as [E|E]; destruct (in_dec Nat.eq_dec i (j :: js)) as [H2|H2]; try (subst; contradiction); try reflexivity;
    try (exfalso; apply H2; right; assumption); try (exfalso; apply H2; left; congruence); subst; try reflexivity.
  exfalso. destruct H2; congruence.
Qed.

Lemma xs_fine : forall (k : nat -> Z) js, (forall j, In j js -> j < n /\ (- Z.of_nat (nth j dims O) < k j < Z.of_nat (nth j dims O))%Z) ->
  forall g, In g (map (fun j => GX (S := S) j (k j)) js) -> fine g.
Proof.
  intros k js H g Hg. apply in_map_iff in Hg as [j [<- Hj]]. destruct (H j Hj) as [A B].
  split; [exact I|]. cbn [gate_ok undo]. fold n. split; split; try exact A; lia.
Qed.

(** ** Turning one line of configurations *)

(** The configurations that differ from [a] on register [r] at most. *)
Definition on_line (a : config) (r : nat) (s : config) : bool := config_eqb (put s r (level a r)) a.
Definition turn (a : config) (r : nat) (p : Z) (s : config) : config := if on_line a r s then move_x dims r p s else s.

Lemma on_line_levels : forall a r s, valid dims a -> valid dims s -> r < n ->
  (on_line a r s = true <-> forall i, i < n -> i <> r -> level s i = level a i).
Proof.
  intros a r s Ha Hs Hr. unfold on_line. rewrite config_eqb_eq. pose proof (valid_length Hs) as Ls. pose proof (valid_length Ha) as La. fold n in Ls, La. split.
  - intros E i Hi Hn. rewrite <- E. rewrite level_put by (unfold config in *; lia). destruct (Nat.eqb_spec i r); [contradiction | reflexivity].
  - intros E. apply level_ext; [rewrite put_length; unfold config in *; lia|]. rewrite put_length. intros i Hi. rewrite Ls in Hi.
    rewrite level_put by (unfold config in *; lia). destruct (Nat.eqb_spec i r) as [->|Hn]; [reflexivity | apply E; assumption].
Qed.

Definition others (r : nat) : list nat := filter (fun j => negb (j =? r)) (seq 0 n).

Lemma in_others : forall r j, In j (others r) <-> j < n /\ j <> r.
Proof.
  intros r j. unfold others. rewrite filter_In, in_seq. destruct (Nat.eqb_spec j r); cbn; intuition (try congruence; try lia).
Qed.

Definition controlled (cs : list nat) (r : nat) (p : Z) : gate := match cs with [c] => GCX c r p | _ => GTof cs r p end.

Lemma controlled_move : forall cs r p s, move dims (controlled cs r p) s = if forallb (top dims s) cs then move_x dims r p s else s.
Proof. intros [|c [|c' cs]] r p s; try reflexivity. cbn. unfold move_cx. rewrite andb_true_r. reflexivity. Qed.

Lemma controlled_fine : forall r p, r < n -> fine (controlled (others r) r p).
Proof.
  intros r p Hr. pose proof (in_others r) as Ho. remember (others r) as cs eqn:Ec.
  assert (Hn : NoDup cs) by (subst cs; apply NoDup_filter, seq_NoDup).
  assert (G : forall q, length cs <> 1 -> gate_ok dims (GTof (S := S) cs r q)).
  { intros q Hl. cbn [gate_ok]. fold n. split; [intros c Hc; apply Ho, Hc|]. split; [exact Hr|]. split; [intros X; apply Ho in X; lia|].
    intros [lo [H1 [H2 H3]]]. destruct cs as [|c1 [|c2 cs]]; [|apply Hl; reflexivity|].
    - cbn in H1, H2. lia.
    - inversion_clear Hn as [|? ? N1 _]. pose proof (proj1 (Ho c1) (or_introl eq_refl)) as O1. pose proof (proj1 (Ho c2) (or_intror (or_introl eq_refl))) as O2.
      pose proof (H3 r ltac:(left; reflexivity)). pose proof (H3 c1 ltac:(right; left; reflexivity)). pose proof (H3 c2 ltac:(right; right; left; reflexivity)).
      assert (c1 <> c2) by (intros ->; apply N1; left; reflexivity). lia. }
  unfold fine, controlled. destruct cs as [|c1 [|c2 cs]].
  - split; [exact I|]. split; apply G; discriminate.
  - destruct (proj1 (Ho c1) (or_introl eq_refl)) as [A B]. split; [exact B|]. cbn [gate_ok undo]. fold n. auto.
  - split; [exact I|]. split; apply G; discriminate.
Qed.

Lemma shift_top : forall d x a, x < d -> a < d -> (shift d x (Z.of_nat (d - 1 - a)) + 1 =? d) = (x =? a).
Proof.
  intros d x a Hx Ha. unfold shift. destruct (Nat.leb_spec x a) as [H|H].
  - rewrite Z.mod_small by lia. destruct (Nat.eqb_spec (Z.to_nat (Z.of_nat x + Z.of_nat (d - 1 - a)) + 1) d), (Nat.eqb_spec x a); try reflexivity; lia.
  - replace (Z.of_nat x + Z.of_nat (d - 1 - a))%Z with (Z.of_nat (x - a - 1) + 1 * Z.of_nat d)%Z by lia. rewrite Z_mod_plus_full, Z.mod_small by lia.
    destruct (Nat.eqb_spec (Z.to_nat (Z.of_nat (x - a - 1)) + 1) d), (Nat.eqb_spec x a); try reflexivity; lia.
Qed.

Lemma can_turn : forall a r p, valid dims a -> r < n -> can (turn a r p).
Proof.
  intros a r p Ha Hr. set (k := fun j => Z.of_nat (nth j dims 0 - 1 - level a j)).
  assert (Hk : forall j, In j (others r) -> j < n /\ (- Z.of_nat (nth j dims O) < k j < Z.of_nat (nth j dims O))%Z).
  { intros j Hj. apply in_others in Hj as [Hj _]. pose proof (dim2 Hj). unfold k. lia. }
  assert (Ln : forall j, In j (others r) -> j < n) by (intros j Hj; apply in_others in Hj; tauto).
  assert (No : NoDup (others r)) by (apply NoDup_filter, seq_NoDup).
  exists (map (fun j => GX j (k j)) (others r) ++ controlled (others r) r p :: map (fun j => GX j ((fun j => - k j)%Z j)) (others r)). split.
  - intros g Hg. apply in_app_or in Hg as [Hg|[<-|Hg]]; [exact (xs_fine _ _ Hk _ Hg) | apply controlled_fine, Hr|].
    refine (xs_fine (fun j => - k j)%Z _ _ _ Hg). intros j Hj. destruct (Hk j Hj). split; [assumption | cbn beta; lia].
  - intros s Hs. rewrite moves_app. cbn [moves]. rewrite controlled_move. set (t := moves dims (map _ (others r)) s).
    assert (Vt : valid dims t) by (apply fine_valid; [exact (xs_fine _ _ Hk) | exact Hs]).
    assert (Lt : forall i, i < n -> level t i = if in_dec Nat.eq_dec i (others r) then shift (nth i dims 0) (level s i) (k i) else level s i)
      by (intros i Hi; apply (xs_level k No Ln Hs Hi)).
    assert (Et : forallb (top dims t) (others r) = on_line a r s).
    { apply Bool.eq_iff_eq_true. rewrite (on_line_levels Ha Hs Hr), forallb_forall. split.
      - intros H i Hi Hn. assert (Ho : In i (others r)) by (apply in_others; auto). specialize (H i Ho). unfold top in H. rewrite (Lt i Hi) in H.
        destruct (in_dec _ _ _) as [_|X]; [|contradiction]. unfold k in H. rewrite shift_top in H by (apply valid_level; assumption). apply Nat.eqb_eq, H.
      - intros H i Ho. destruct (proj1 (in_others r i) Ho) as [Hi Hn]. unfold top. rewrite (Lt i Hi).
        destruct (in_dec _ _ _) as [_|X]; [|contradiction]. unfold k. rewrite shift_top by (apply valid_level; assumption). apply Nat.eqb_eq, H; assumption. }
    rewrite Et. unfold turn.
    assert (G : forall u v, valid dims u -> valid dims v -> (forall i, i < n -> i <> r -> level u i = level t i) -> (forall i, i < n -> i <> r -> level v i = level s i) -> level u r = level v r ->
      moves dims (map (fun j => GX (S := S) j ((fun j => - k j)%Z j)) (others r)) u = v).
    { intros u v Vu Vv Hu Hv Er. assert (Vm : valid dims (moves dims (map (fun j => GX (S := S) j ((fun j => - k j)%Z j)) (others r)) u)).
      { apply fine_valid; [|exact Vu]. apply xs_fine. intros j Hj. destruct (Hk j Hj). split; [assumption | cbn beta; lia]. }
      apply level_ext; [rewrite (valid_length Vm), (valid_length Vv); reflexivity|]. intros i Hi. rewrite (valid_length Vm) in Hi. fold n in Hi.
      rewrite (xs_level (fun j => - k j)%Z No Ln Vu Hi). destruct (in_dec _ _ _) as [X|X].
      - apply in_others in X as [_ Hn]. rewrite (Hu i Hi Hn), (Lt i Hi), (Hv i Hi Hn). destruct (in_dec _ _ _) as [_|Y]; [|exfalso; apply Y, in_others; auto].
        rewrite shift_shift by (apply valid_level; assumption). rewrite Z.add_opp_diag_r. apply shift_0, valid_level; assumption.
      - destruct (Nat.eq_dec i r) as [->|Hn]; [exact Er | exfalso; apply X, in_others; auto]. }
    assert (Lr : level t r = level s r). { rewrite (Lt r Hr). destruct (in_dec _ _ _) as [X|X]; [apply in_others in X; lia | reflexivity]. }
    pose proof (valid_length Hs) as Ls. pose proof (valid_length Vt) as Ltl. fold n in Ls, Ltl.
    destruct (on_line a r s).
    + apply G; try (apply move_x_valid; assumption); unfold move_x; try rewrite Lr;
        [intros i Hi Hn; rewrite level_put by (unfold config in *; lia); destruct (Nat.eqb_spec i r); [contradiction | reflexivity] ..|].
      rewrite !level_put by (unfold config in *; lia). rewrite Nat.eqb_refl. reflexivity.
    + apply G; auto.
Qed.

Lemma turn_valid : forall a r p s, r < n -> valid dims s -> valid dims (turn a r p s).
Proof. intros a r p s Hr Hs. unfold turn. destruct (on_line a r s); [apply move_x_valid; assumption | exact Hs]. Qed.

Lemma on_line_move : forall a r p s, on_line a r (move_x dims r p s) = on_line a r s.
Proof. intros a r p s. unfold on_line, move_x. rewrite put_put. reflexivity. Qed.

Lemma turn_back : forall a r p s, r < n -> valid dims s -> turn a r (- p) (turn a r p s) = s.
Proof.
  intros a r p s Hr Hs. unfold turn. destruct (on_line a r s) eqn:E.
  - rewrite on_line_move, E. apply move_x_inv; assumption.
  - rewrite E. reflexivity.
Qed.

Lemma turn_there : forall a r p s, r < n -> valid dims s -> turn a r p (turn a r (- p) s) = s.
Proof. intros a r p s Hr Hs. rewrite <- (Z.opp_involutive p) at 1. apply turn_back; assumption. Qed.

(** ** Turning every line of a register by an amount that depends on the line *)
Lemma can_turns : forall r (f : config -> Z), r < n -> (forall s x, f (put s r x) = f s) -> can (fun s => move_x dims r (f s) s).
Proof.
  intros r f Hr Hf.
  set (F := fun l s => if existsb (fun a => on_line a r s) l then move_x dims r (f s) s else s).
  assert (G : forall l, NoDup l -> (forall a, In a l -> valid dims a /\ level a r = 0) -> can (F l)).
  { induction l as [|a l IH]; intros Hn Hl; [exact can_id|]. inversion_clear Hn as [|? ? Na Nl].
    destruct (Hl a (or_introl eq_refl)) as [Va La].
    apply (can_ext (can_comp (can_turn (f a) Va Hr) (IH Nl (fun b Hb => Hl b (or_intror Hb))))).
    intros s Hs. unfold F, turn. cbn [existsb]. destruct (on_line a r s) eqn:E; [|reflexivity]. cbn [orb].
    assert (Ea : put s r 0 = a) by (unfold on_line in E; rewrite La in E; apply config_eqb_eq, E).
    rewrite <- (Hf s 0), Ea. destruct (existsb _ l) eqn:X; [|reflexivity]. exfalso. apply existsb_exists in X as [b [Hb X]].
    rewrite on_line_move in X. destruct (Hl b (or_intror Hb)) as [_ Lb]. unfold on_line in X. rewrite Lb in X. apply config_eqb_eq in X.
    apply Na. rewrite <- Ea, X. exact Hb. }
  apply (can_ext (G (filter (fun a => level a r =? 0) (all_configs dims)) (NoDup_filter _ (all_configs_NoDup dims)) (fun a Ha => ltac:(apply filter_In in Ha as [A B]; split; [apply in_all_configs, A | apply Nat.eqb_eq, B])))).
  intros s Hs. unfold F. destruct (existsb _ _) eqn:X; [reflexivity|]. exfalso. apply not_true_iff_false in X. apply X, existsb_exists.
  pose proof (dim2 Hr). assert (L0 : level (put s r 0) r = 0) by (rewrite level_put by (rewrite (valid_length Hs); exact Hr); rewrite Nat.eqb_refl; reflexivity).
  exists (put s r 0). split.
  - apply filter_In. split; [apply in_all_configs, valid_put; [exact Hs | lia] | apply Nat.eqb_eq, L0].
  - unfold on_line. rewrite L0. apply config_eqb_refl.
Qed.

(** ** Two lines through one configuration give a cycle of three *)
Lemma crossing : forall (f1 f1' f2 f2' : config -> config) (P1 P2 : config -> bool) y,
  valid dims y -> P1 y = true -> P2 y = true ->
  (forall s, valid dims s -> P1 s = true -> P2 s = true -> s = y) ->
  (forall s, valid dims s -> valid dims (f1 s) /\ valid dims (f1' s) /\ f1 (f1' s) = s /\ f1' (f1 s) = s) ->
  (forall s, valid dims s -> valid dims (f2 s) /\ valid dims (f2' s) /\ f2 (f2' s) = s /\ f2' (f2 s) = s) ->
  (forall s, P1 s = false -> f1 s = s /\ f1' s = s) -> (forall s, P2 s = false -> f2 s = s /\ f2' s = s) ->
  (forall s, valid dims s -> P1 (f1 s) = P1 s /\ P1 (f1' s) = P1 s) -> (forall s, valid dims s -> P2 (f2 s) = P2 s /\ P2 (f2' s) = P2 s) ->
  f1 y <> y -> f2 y <> y ->
  forall s, valid dims s -> f2 (f1 (f2' (f1' s))) = swaps [(y, f2 y); (f1 y, y)] s.
Proof.
  intros f1 f1' f2 f2' P1 P2 y Vy Y1 Y2 HY F1 F2 O1 O2 K1 K2 N1 N2 s Hs. cbn [swaps].
  assert (N1' : f1' y <> y). { intros E. apply N1. rewrite <- E at 1. apply F1, Vy. }
  assert (N2' : f2' y <> y). { intros E. apply N2. rewrite <- E at 1. apply F2, Vy. }
  assert (A1 : forall u, valid dims u -> P1 u = true -> u <> y -> P2 u = false).
  { intros u Vu U1 Nu. destruct (P2 u) eqn:E; [exfalso; apply Nu, HY; assumption | reflexivity]. }
  assert (A2 : forall u, valid dims u -> P2 u = true -> u <> y -> P1 u = false).
  { intros u Vu U1 Nu. destruct (P1 u) eqn:E; [exfalso; apply Nu, HY; assumption | reflexivity]. }
  assert (X2 : P2 (f1 y) = false) by (apply A1; [apply F1, Vy | rewrite (proj1 (K1 y Vy)); exact Y1 | exact N1]).
  assert (Z1 : P1 (f2 y) = false) by (apply A2; [apply F2, Vy | rewrite (proj1 (K2 y Vy)); exact Y2 | exact N2]).
  assert (Nxz : f1 y <> f2 y). { intros E. rewrite <- E in Z1. rewrite (proj1 (K1 y Vy)) in Z1. congruence. }
  destruct (list_eq_dec Nat.eq_dec s y) as [->|Ny].
  { rewrite swap_l, swap_other by congruence. assert (U : P2 (f1' y) = false) by (apply A1; [apply F1, Vy | rewrite (proj2 (K1 y Vy)); exact Y1 | exact N1']).
    rewrite (proj2 (O2 _ U)). rewrite (proj1 (proj2 (proj2 (F1 y Vy)))). reflexivity. }
  destruct (list_eq_dec Nat.eq_dec s (f2 y)) as [->|Nz].
  { rewrite swap_r, swap_r. rewrite (proj2 (O1 _ Z1)), (proj2 (proj2 (proj2 (F2 y Vy)))). apply (O2 _ X2). }
  rewrite (swap_other Ny Nz). destruct (list_eq_dec Nat.eq_dec s (f1 y)) as [->|Nx].
  { rewrite swap_l, (proj2 (proj2 (proj2 (F1 y Vy)))). assert (W : P1 (f2' y) = false) by (apply A2; [apply F2, Vy | rewrite (proj2 (K2 y Vy)); exact Y2 | exact N2']).
    rewrite (proj1 (O1 _ W)). apply F2, Vy. }
  rewrite (swap_other Nx Ny). destruct (P1 s) eqn:S1.
  - assert (U : P2 (f1' s) = false).
    { apply A1; [apply F1, Hs | rewrite (proj2 (K1 s Hs)); exact S1|]. intros E. apply Nx. rewrite <- E. symmetry. apply F1, Hs. }
    rewrite (proj2 (O2 _ U)), (proj1 (proj2 (proj2 (F1 s Hs)))). apply O2. apply A1; assumption.
  - rewrite (proj2 (O1 _ S1)). destruct (P2 s) eqn:S2.
    + assert (U : P1 (f2' s) = false).
      { apply A2; [apply F2, Hs | rewrite (proj2 (K2 s Hs)); exact S2|]. intros E. apply Nz. rewrite <- E. symmetry. apply F2, Hs. }
      rewrite (proj1 (O1 _ U)). apply F2, Hs.
    + rewrite (proj2 (O2 _ S2)), (proj1 (O1 _ S1)). apply O2, S2.
Qed.

(** ** Pairs whose two swaps can be programmed together *)
Definition both (p q : config * config) : Prop := can (swaps [p; q]).

Lemma both_refl : forall p, both p p.
Proof. intros [a b]. apply (can_ext can_id). intros s _. cbn [swaps]. symmetry. apply swap_swap. Qed.

Lemma both_flip_l : forall a b q, both (a, b) q -> both (b, a) q.
Proof. intros a b [c d] H. apply (can_ext H). intros s _. cbn [swaps]. rewrite (swap_sym a b). reflexivity. Qed.
Lemma both_flip_r : forall a b q, both q (a, b) -> both q (b, a).
Proof. intros a b [c d] H. apply (can_ext H). intros s _. cbn [swaps]. rewrite (swap_sym a b). reflexivity. Qed.

Lemma both_trans : forall p q r, both p q -> both q r -> both p r.
Proof.
  intros [a b] [c d] [e f] H1 H2. apply (can_ext (can_comp H1 H2)). intros s _. cbn [swaps]. rewrite swap_swap. reflexivity.
Qed.

Definition proper (p : config * config) : Prop := real_swaps dims [p].

Lemma both_sym : forall p q, proper p -> proper q -> both p q -> both q p.
Proof.
  intros [a b] [c d] Hp Hq H. destruct (Hp a b (or_introl eq_refl)) as [A [B _]]. destruct (Hq c d (or_introl eq_refl)) as [C [D _]].
  apply (can_inv H). intros s Hs. cbn [swaps]. split; [apply swap_valid; [| |apply swap_valid]; assumption|]. rewrite !swap_swap. reflexivity.
Qed.

(** Two configurations that differ on one register. *)
Definition adjacent (a b : config) : Prop := exists r v, r < n /\ v < nth r dims 0 /\ v <> level a r /\ b = put a r v.

Lemma adjacent_proper : forall a b, valid dims a -> adjacent a b -> valid dims b /\ a <> b.
Proof.
  intros a b Ha [r [v [Hr [Hv [Hn ->]]]]]. split; [apply valid_put; assumption|]. intros E. apply Hn.
  rewrite E at 1. rewrite level_put by (rewrite (valid_length Ha); exact Hr). rewrite Nat.eqb_refl. reflexivity.
Qed.

Lemma move_to : forall a r v, valid dims a -> r < n -> v < nth r dims 0 -> move_x dims r (Z.of_nat v - Z.of_nat (level a r)) a = put a r v.
Proof. intros a r v Ha Hr Hv. unfold move_x, shift. f_equal. replace (_ + _)%Z with (Z.of_nat v) by lia. rewrite Z.mod_small by lia. apply Nat2Z.id. Qed.

Lemma corner : forall y r1 v1 r2 v2, valid dims y -> r1 < n -> r2 < n -> r1 <> r2 -> v1 < nth r1 dims 0 -> v2 < nth r2 dims 0 ->
  v1 <> level y r1 -> v2 <> level y r2 -> both (y, put y r1 v1) (y, put y r2 v2).
Proof.
  intros y r1 v1 r2 v2 Hy H1 H2 Hn V1 V2 N1 N2. set (p1 := (Z.of_nat v1 - Z.of_nat (level y r1))%Z). set (p2 := (Z.of_nat v2 - Z.of_nat (level y r2))%Z).
  assert (On : forall r, on_line y r y = true) by (intros r; unfold on_line; rewrite put_level; apply config_eqb_refl).
  assert (E1 : turn y r1 p1 y = put y r1 v1) by (unfold turn; rewrite On; apply move_to; assumption).
  assert (E2 : turn y r2 p2 y = put y r2 v2) by (unfold turn; rewrite On; apply move_to; assumption).
  assert (Adj : forall r v, r < n -> v < nth r dims 0 -> v <> level y r -> put y r v <> y).
  { intros r v Hr Hv N E. destruct (adjacent_proper (a := y) (b := put y r v) Hy) as [_ X]; [exists r, v; auto | congruence]. }
  assert (G : can (fun s => turn y r2 p2 (turn y r1 p1 (turn y r2 (- p2) (turn y r1 (- p1) s))))).
  { apply (can_comp (f := fun s => turn y r1 p1 (turn y r2 (- p2) (turn y r1 (- p1) s)))); [|apply can_turn; assumption].
    apply (can_comp (f := fun s => turn y r2 (- p2) (turn y r1 (- p1) s))); [|apply can_turn; assumption].
    apply (can_comp (f := turn y r1 (- p1))); apply can_turn; assumption. }
  assert (Keep : forall r p s, on_line y r (turn y r p s) = on_line y r s).
  { intros r p s. unfold turn. destruct (on_line y r s) eqn:E; [rewrite on_line_move|]; exact E. }
  assert (C : both (y, put y r2 v2) (put y r1 v1, y)).
  { apply (can_ext G). intros s Hs. rewrite <- E1, <- E2.
    apply (crossing (turn y r1 p1) (turn y r1 (- p1)) (turn y r2 p2) (turn y r2 (- p2)) (on_line y r1) (on_line y r2)); auto.
    - intros t Ht T1 T2. apply level_ext; [rewrite (valid_length Ht), (valid_length Hy); reflexivity|]. intros i Hi. rewrite (valid_length Ht) in Hi.
      rewrite (on_line_levels Hy Ht H1) in T1. rewrite (on_line_levels Hy Ht H2) in T2.
      destruct (Nat.eq_dec i r1) as [->|X]; [apply T2; assumption | apply T1; assumption].
    - intros t Ht. repeat split; [apply turn_valid; assumption ..| apply turn_there; assumption | apply turn_back; assumption].
    - intros t Ht. repeat split; [apply turn_valid; assumption ..| apply turn_there; assumption | apply turn_back; assumption].
    - intros t E. unfold turn. rewrite E. auto.
    - intros t E. unfold turn. rewrite E. auto.
    - rewrite E1. apply Adj; assumption.
    - rewrite E2. apply Adj; assumption. }
  apply both_sym; [| |apply both_flip_r; exact C]; apply real_one; try exact Hy; try (apply valid_put; assumption); intros E; symmetry in E; revert E; apply Adj; assumption.
Qed.

Hypothesis Hn2 : 2 <= n.

Lemma other_level : forall r x, r < n -> exists v, v < nth r dims 0 /\ v <> x.
Proof. intros r x Hr. pose proof (dim2 Hr). destruct (Nat.eq_dec x 0) as [->|H']; [exists 1 | exists 0]; lia. Qed.

Lemma same_corner : forall y x z, valid dims y -> adjacent y x -> adjacent y z -> both (y, x) (y, z).
Proof.
  intros y x z Hy [r1 [v1 [H1 [V1 [N1 ->]]]]] [r2 [v2 [H2 [V2 [N2 ->]]]]].
  destruct (Nat.eq_dec r1 r2) as [<-|Hr]; [|apply corner; assumption].
  assert (Hq : exists q, q < n /\ q <> r1) by (destruct (Nat.eq_dec r1 0) as [->|H']; [exists 1 | exists 0]; lia).
  destruct Hq as [q [Hq Nq]]. destruct (other_level (level y q) Hq) as [w [Vw Nw]].
  apply both_trans with (q := (y, put y q w)); apply corner; auto.
Qed.

Lemma adjacent_sym : forall a b, valid dims a -> adjacent a b -> adjacent b a.
Proof.
  intros a b Ha [r [v [Hr [Hv [Hn ->]]]]]. exists r, (level a r). split; [exact Hr|]. split; [apply valid_level; assumption|].
  rewrite level_put by (rewrite (valid_length Ha); exact Hr). rewrite Nat.eqb_refl, put_put, put_level. auto.
Qed.

Lemma agree_eq : forall a c, valid dims a -> valid dims c -> (forall i, 0 <= i -> i < n -> level a i = level c i) -> a = c.
Proof.
  intros a c Ha Hc H. apply level_ext; [rewrite (valid_length Ha), (valid_length Hc); reflexivity|]. intros i Hi. rewrite (valid_length Ha) in Hi.
  apply H; [lia | exact Hi].
Qed.

Lemma step_to : forall k a c, k < n -> valid dims a -> valid dims c -> (forall i, Datatypes.S k <= i -> i < n -> level a i = level c i) ->
  let a' := put a k (level c k) in valid dims a' /\ (forall i, k <= i -> i < n -> level a' i = level c i) /\ (a' = a \/ adjacent a a').
Proof.
  intros k a c Hk Ha Hc H a'. split; [apply valid_put; [exact Ha | apply valid_level; assumption]|]. split.
  - intros i H1 H2. unfold a'. rewrite level_put by (rewrite (valid_length Ha); exact Hk). destruct (Nat.eqb_spec i k) as [->|N]; [reflexivity | apply H; lia].
  - destruct (Nat.eq_dec (level c k) (level a k)) as [E|E]; [left; unfold a'; rewrite E; apply put_level | right].
    exists k, (level c k). repeat split; [exact Hk | apply valid_level; assumption | exact E].
Qed.

Lemma edges : forall k a b c d, k <= n -> valid dims a -> valid dims c -> (forall i, k <= i -> i < n -> level a i = level c i) ->
  adjacent a b -> adjacent c d -> both (a, b) (c, d).
Proof.
  induction k as [|k IH]; intros a b c d Hk Ha Hc Hac Hab Hcd.
  - assert (E : a = c) by (apply agree_eq; assumption). subst c. apply same_corner; assumption.
  - destruct (step_to (k := k) (a := a) (c := c)) as [V [A C]]; try assumption. destruct C as [E|C].
    + rewrite E in A. apply IH; try assumption. lia.
    + apply both_trans with (q := (a, put a k (level c k))); [apply same_corner; assumption|]. apply both_flip_l.
      apply IH; try assumption; [lia | apply adjacent_sym; assumption].
Qed.

Lemma edge_edge : forall a b c d, valid dims a -> valid dims c -> adjacent a b -> adjacent c d -> both (a, b) (c, d).
Proof. intros a b c d Ha Hc Hab Hcd. apply (edges (k := n)); try assumption; [lia | intros i H1 H2; lia]. Qed.

Lemma triangle : forall a b c, a <> b -> b <> c -> a <> c -> both (a, c) (c, b) -> both (a, b) (a, c).
Proof.
  intros a b c Hab Hbc Hac H. apply (can_ext H). intros s _. cbn [swaps].
  destruct (list_eq_dec Nat.eq_dec s a) as [->|Na]; [rewrite !swap_l, swap_other by congruence; reflexivity|].
  destruct (list_eq_dec Nat.eq_dec s b) as [->|Nb]; [rewrite swap_r, swap_l, (swap_other (a := a) (b := c)) by congruence; apply swap_r|].
  destruct (list_eq_dec Nat.eq_dec s c) as [->|Nc]; [rewrite swap_r, (swap_other (a := c) (b := b)), (swap_other (a := a) (b := b)), swap_r by congruence; reflexivity|].
  rewrite (swap_other (a := a) (b := c) (s := s)), (swap_other (a := a) (b := b) (s := s)), !swap_other by congruence. reflexivity.
Qed.

Lemma pair_edge : forall k a b c d, k <= n -> valid dims a -> valid dims b -> (forall i, k <= i -> i < n -> level a i = level b i) -> a <> b ->
  valid dims c -> adjacent c d -> both (a, b) (c, d).
Proof.
  induction k as [|k IH]; intros a b c d Hk Ha Hb Hab Hne Hc Hcd; [exfalso; apply Hne, agree_eq; assumption|].
  destruct (step_to (k := k) (a := a) (c := b)) as [V [A C]]; try assumption. set (a' := put a k (level b k)) in *. destruct C as [E|C].
  - rewrite E in A. apply IH; try assumption. lia.
  - destruct (list_eq_dec Nat.eq_dec a' b) as [E|E]; [apply edge_edge; try assumption; rewrite <- E; exact C|].
    destruct (adjacent_proper Ha C) as [_ N]. pose proof (adjacent_proper Hc Hcd) as [Vd Nd].
    assert (E1 : both (a', b) (c, d)) by (apply IH; try assumption; lia).
    assert (E2 : both (a, a') (c, d)) by (apply edge_edge; assumption).
    assert (E3 : both (c, d) (a', b)) by (apply both_sym; [apply real_one; assumption ..| exact E1]).
    apply both_trans with (q := (a, a')); [|exact E2]. apply triangle; [exact Hne | intros X; apply E; symmetry; exact X | exact N |].
    apply both_trans with (q := (c, d)); assumption.
Qed.

Lemma some_edge : exists c d, valid dims c /\ adjacent c d.
Proof.
  exists (repeat 0 n), (put (repeat 0 n) 0 1). assert (Hl : forall r, level (repeat 0 n) r = 0).
  { intros r. unfold level. destruct (Nat.lt_ge_cases r n); [apply nth_repeat | apply nth_overflow; rewrite repeat_length; assumption]. }
  assert (H0 : 0 < n) by lia. split.
  - apply valid_levels; [apply repeat_length|]. intros r Hr. rewrite Hl. pose proof (dim2 Hr). lia.
  - exists 0, 1. pose proof (dim2 H0). rewrite Hl. repeat split; lia.
Qed.

Lemma all_pairs : forall p q, proper p -> proper q -> both p q.
Proof.
  intros [a b] [c d] Hp Hq. destruct some_edge as [e [f [He Hef]]].
  destruct (Hp a b (or_introl eq_refl)) as [Va [Vb Nab]]. destruct (Hq c d (or_introl eq_refl)) as [Vc [Vd Ncd]].
  destruct (adjacent_proper He Hef) as [Vf Nf].
  apply both_trans with (q := (e, f)); [|apply both_sym; [exact Hq | apply real_one; assumption|]];
    apply (pair_edge (k := n)); try assumption; try lia; intros i H1 H2; lia.
Qed.

(** An even number of swaps can be programmed. *)
Lemma even_swaps : forall l, real_swaps dims l -> Nat.Even (length l) -> can (swaps l).
Proof.
  assert (G : forall m l, length l = 2 * m -> real_swaps dims l -> can (swaps l)).
  { induction m as [|m IH]; intros l Hl Hr; [destruct l; [apply can_id | discriminate]|].
    destruct l as [|p [|q l]]; [discriminate | cbn in Hl; lia|].
    assert (H1 : both p q). { apply all_pairs; intros a b [E|[]]; apply Hr; [left | right; left]; exact E. }
    assert (H2 : can (swaps l)) by (apply IH; [cbn in Hl; lia | intros a b H; apply Hr; right; right; exact H]).
    apply (can_ext (can_comp H1 H2)). intros s _. destruct p, q. reflexivity. }
  intros l Hr [m Hm]. apply (G m); assumption.
Qed.

(** ** With a register of even dimension *)
Section Even.
Variable r : nat.
Hypothesis Hr : r < n.
Hypothesis He : Nat.Even (nth r dims 0).
Variable a : config.
Hypothesis Ha : valid dims a.
Let d := nth r dims 0.
Let v (i : nat) : config := put a r i.

Lemma v_inj : forall i j, v i = v j -> i = j.
Proof.
  intros i j E. apply (f_equal (fun s => level s r)) in E. unfold v in E. rewrite !level_put in E by (rewrite (valid_length Ha); exact Hr).
  rewrite Nat.eqb_refl in E. exact E.
Qed.

Definition chain (m : nat) : list (config * config) := map (fun i => (v i, v (i + 1))) (rev (seq 0 m)).

Lemma chain_S : forall m, chain (Datatypes.S m) = (v m, v (m + 1)) :: chain m.
Proof. intros m. unfold chain. rewrite seq_S, rev_app_distr. reflexivity. Qed.

Lemma chain_out : forall m s, (forall i, i <= m -> s <> v i) -> swaps (chain m) s = s.
Proof.
  induction m as [|m IH]; intros s H; [reflexivity|]. rewrite chain_S. cbn [swaps]. rewrite swap_other; [apply IH; intros i Hi; apply H; lia | apply H; lia | apply H; lia].
Qed.

Lemma chain_in : forall m i, i <= m -> swaps (chain m) (v i) = v (if i <? m then i + 1 else 0).
Proof.
  induction m as [|m IH]; intros i Hi; [replace i with 0 by lia; reflexivity|]. rewrite chain_S. cbn [swaps].
  destruct (Nat.eq_dec i (m + 1)) as [->|N1].
  - rewrite swap_r, IH by lia. destruct (Nat.ltb_spec m m); [lia|]. destruct (Nat.ltb_spec (m + 1) (Datatypes.S m)); [lia | reflexivity].
  - destruct (Nat.eq_dec i m) as [->|N2].
    + rewrite swap_l, chain_out by (intros j Hj E; apply v_inj in E; lia). destruct (Nat.ltb_spec m (Datatypes.S m)); [reflexivity | lia].
    + rewrite swap_other, IH by (try lia; intros E; apply v_inj in E; lia). destruct (Nat.ltb_spec i m), (Nat.ltb_spec i (Datatypes.S m)); try lia. reflexivity.
Qed.

Lemma turn_chain : forall s, valid dims s -> turn a r 1 s = swaps (chain (d - 1)) s.
Proof.
  intros s Hs. pose proof (dim2 Hr) as D. fold d in D. unfold turn. destruct (on_line a r s) eqn:E.
  - unfold on_line in E. apply config_eqb_eq in E. assert (Es : s = v (level s r)) by (unfold v; rewrite <- E, put_put, put_level; reflexivity).
    pose proof (valid_level Hs Hr) as Hl. fold d in Hl. rewrite Es at 2. rewrite chain_in by lia. unfold move_x. rewrite Es at 1.
    unfold v at 1. rewrite put_put. fold (v (shift (nth r dims 0) (level s r) 1)). f_equal. fold d. unfold shift.
    destruct (Nat.ltb_spec (level s r) (d - 1)).
    + rewrite Z.mod_small by lia. lia.
    + replace (Z.of_nat (level s r) + 1)%Z with (0 + 1 * Z.of_nat d)%Z by lia. rewrite Z_mod_plus_full, Z.mod_small by lia. reflexivity.
  - rewrite chain_out; [reflexivity|]. intros i Hi ->. unfold on_line, v in E. rewrite put_put, put_level, config_eqb_refl in E. discriminate.
Qed.

Lemma chain_real : real_swaps dims (chain (d - 1)).
Proof.
  intros x y H. unfold chain in H. apply in_map_iff in H as [i [E Hi]]. injection E as <- <-. rewrite <- in_rev, in_seq in Hi.
  split; [apply valid_put; [exact Ha | fold d; lia]|]. split; [apply valid_put; [exact Ha | fold d; lia]|]. intros E. apply v_inj in E. lia.
Qed.

Lemma one_swap : forall p, proper p -> can (swaps [p]).
Proof.
  intros p Hp. pose proof (dim2 Hr) as D. fold d in D, He.
  assert (C : can (swaps (chain (d - 1)))) by (apply (can_ext (can_turn 1 Ha Hr)), turn_chain).
  assert (R : can (swaps (rev (chain (d - 1)) ++ [p]))).
  { apply even_swaps; [apply real_app; [apply real_rev, chain_real | exact Hp]|]. rewrite app_length, rev_length. unfold chain. rewrite map_length, rev_length, seq_length. cbn [length].
    replace (d - 1 + 1) with d by lia. exact He. }
  apply (can_ext (can_comp C R)). intros s _. rewrite swaps_app, swaps_rev. reflexivity.
Qed.

Lemma all_swaps : forall l, real_swaps dims l -> can (swaps l).
Proof.
  induction l as [|p l IH]; intros H; [apply can_id|].
  assert (H1 : can (swaps [p])) by (apply one_swap; intros x y [E|[]]; apply H; left; exact E).
  assert (H2 : can (swaps l)) by (apply IH; intros x y Hx; apply H; right; exact Hx).
  apply (can_ext (can_comp H1 H2)). intros s _. destruct p. reflexivity.
Qed.
End Even.
End Universal.
