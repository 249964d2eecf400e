(** * Grover: the state after any number of rounds of Grover's search. *)
From Verif Require Import Py Scalar Mat Utils Gates Circuit Spec Calls Lib Flow Layers Blocks Refine Run Reversible Parts Moved Local Product Algo Jozsa.
Set Implicit Arguments.

Section Grover.
Variable S : scalar.
Variable L : scalar_laws S.
Add Ring Sring : (sl_ring L).
Notation gate := (gate S).
Notation "x +s y" := (sadd x y) (at level 50).
Notation "x *s y" := (smul x y) (at level 40).
Hypothesis Hroot : nth 0 (sroots 2) s0 = sopp s1 :> S.
Hypothesis Hscale : (sisqrt 2 *s sisqrt 2) +s (sisqrt 2 *s sisqrt 2) = s1 :> S.
Notation c2 := (sisqrt 2 : S).
Notation two := (s1 +s s1).

(** The amplitude from [y] to [x] of h on every qubit. *)
Definition walsh (x y : config) : S := product S (map (hh S) (map (at_level S) y)) x.

Lemma walsh_cons : forall a x b y, walsh (a :: x) (b :: y) = hh S (at_level S b) a *s walsh x y.
Proof. reflexivity. Qed.

Lemma bsum_bits : forall n (f : config -> S),
  bsum f (all_configs (qubits (Datatypes.S n))) = bsum (fun z => f (0 :: z)) (all_configs (qubits n)) +s bsum (fun z => f (1 :: z)) (all_configs (qubits n)).
Proof.
  intros n f. unfold qubits. cbn [repeat all_configs seq flat_map]. rewrite app_nil_r, (bsum_app L), !bsum_map. reflexivity.
Qed.

Lemma walsh_twice : forall n x y, valid (qubits n) x -> valid (qubits n) y ->
  bsum (fun z => walsh x z *s walsh z y) (all_configs (qubits n)) = basis S y x.
Proof.
  intros n; induction n as [|n IH]; intros x y Hx Hy.
  - inversion Hx; inversion Hy; subst. unfold walsh, basis. simpl. ring.
  - inversion Hx as [|a d x' ds Ha Hx']; inversion Hy as [|b d' y' ds' Hb Hy']; subst. rewrite bsum_bits.
    rewrite (bsum_ext S _ (fun z => (hh S (at_level S 0) a *s hh S (at_level S b) 0) *s (walsh x' z *s walsh z y')) _) by (intros z _; rewrite !walsh_cons; ring).
    rewrite (bsum_ext S (fun z : config => walsh (a :: x') (1 :: z) *s _) (fun z : config => (hh S (at_level S 1) a *s hh S (at_level S b) 1) *s (walsh x' z *s walsh z y')) _) by (intros z _; rewrite !walsh_cons; ring).
    rewrite !(bsum_mul_l L), !(IH x' y' Hx' Hy').
    transitivity (at_level S b a *s basis S y' x').
    + rewrite !(hh_level L Hroot) by lia.
      destruct (bit Ha) as [-> | ->], (bit Hb) as [-> | ->]; unfold at_level; cbn [spow Nat.eqb]; rewrite ?sign_0, ?sign_1;
        try ring; (transitivity (((c2 *s c2) +s (c2 *s c2)) *s basis S y' x'); [ring | rewrite Hscale; ring]).
    + assert (Lx : length x' = length y') by (rewrite (valid_length Hx'), (valid_length Hy'); reflexivity).
      rewrite !(product_basis L) by (simpl; lia). reflexivity.
Qed.

Lemma walsh_zero_l : forall n y, valid (qubits n) y -> walsh (repeat 0 n) y = spow S c2 n.
Proof.
  intros n; induction n as [|n IH]; intros y Hy; inversion Hy as [|b d y' ds Hb Hy']; subst; [reflexivity|].
  cbn [repeat]. rewrite walsh_cons, IH by exact Hy'. rewrite (hh_level L Hroot) by lia. rewrite (spow_one L). simpl. ring.
Qed.
Lemma walsh_zero_r : forall n x, valid (qubits n) x -> walsh x (repeat 0 n) = spow S c2 n.
Proof.
  intros n; induction n as [|n IH]; intros x Hx; inversion Hx as [|a d x' ds Ha Hx']; subst; [reflexivity|].
  cbn [repeat]. rewrite walsh_cons, IH by exact Hx'. rewrite (hh_level L Hroot) by lia. simpl. ring.
Qed.

(** [n] qubits with amplitudes [a], and one more whose sign changes with its level. *)
Definition mix (n : nat) (a : config -> S) (s : config) : S := a (firstn n s) *s sign S (level s n).

Lemma split_last : forall n s, valid (qubits (n + 1)) s -> exists x b, s = x ++ [b] /\ valid (qubits n) x /\ b < 2.
Proof.
  intros n s Hs. unfold qubits in Hs. rewrite repeat_app in Hs.
  pose proof (valid_length Hs) as E. rewrite app_length, !repeat_length in E. simpl in E.
  exists (firstn n s), (level s n).
  assert (V : valid (qubits n) (firstn n s)).
  { pose proof (valid_firstn n Hs) as V. rewrite firstn_app, repeat_length, Nat.sub_diag, (firstn_all2 (repeat 2 n)) in V by (rewrite repeat_length; lia).
    cbn [firstn] in V. rewrite app_nil_r in V. exact V. }
  split; [|split; [exact V|]].
  - rewrite <- (firstn_skipn n s) at 1. f_equal. destruct (skipn n s) as [|b [|c r]] eqn:X; apply (f_equal (@length _)) in X as Y; rewrite skipn_length in Y; simpl in Y; try lia.
    unfold level. rewrite <- (firstn_skipn n s), X, app_nth2; rewrite firstn_length_le by lia; [|lia]. rewrite Nat.sub_diag. reflexivity.
  - rewrite <- repeat_app in Hs. apply (last_bit n Hs).
Qed.
Lemma mix_app : forall n a x b, length x = n -> mix n a (x ++ [b]) = a x *s sign S b.
Proof.
  intros n a x b <-. unfold mix, level. rewrite firstn_app, Nat.sub_diag, firstn_all, app_nth2 by lia. rewrite Nat.sub_diag. cbn [firstn nth]. rewrite app_nil_r. reflexivity.
Qed.
Lemma mix_ext : forall n a a' s, valid (qubits (n + 1)) s -> (forall x, valid (qubits n) x -> a x = a' x) -> mix n a s = mix n a' s.
Proof.
  intros n a a' s Hs H. destruct (split_last n Hs) as [x [b [-> [Vx _]]]]. pose proof (valid_length Vx) as E. rewrite len_qubits in E.
  rewrite !mix_app, H by assumption. reflexivity.
Qed.

(** h on the first [n]. *)
Notation hn n := (map (fun r => GH r) (seq 0 n) : list gate).
Definition spread_all (n : nat) (a : config -> S) (x : config) : S := bsum (fun y => walsh x y *s a y) (all_configs (qubits n)).

Lemma h_first : forall n x b y c, valid (qubits n) x -> valid (qubits n) y -> b < 2 -> c < 2 ->
  final (qubits (n + 1)) (hn n) (basis S (y ++ [c])) (x ++ [b]) = walsh x y *s at_level S c b.
Proof.
  intros n x b y c Hx Hy Hb Hc. pose proof (valid_length Hx) as Lx. pose proof (valid_length Hy) as Ly. rewrite len_qubits in Lx, Ly.
  assert (V : forall w v, valid (qubits n) w -> v < 2 -> valid (qubits (n + 1)) (w ++ [v])).
  { intros w v Hw Hv. unfold qubits. rewrite repeat_app. apply valid_app; [exact Hw | constructor; [exact Hv | constructor]]. }
  rewrite (@final_ext S (qubits (n + 1)) _ _ (product S (map (at_level S) (y ++ [c]))));
    [| intros w Hw; apply (product_basis L); pose proof (valid_length Hw) as X; rewrite len_qubits in X; rewrite app_length; simpl; lia | apply V; assumption].
  rewrite (h_layer L) by (try apply V; rewrite ?map_length, ?app_length; simpl; try assumption; lia).
  rewrite map_app, firstn_app, skipn_app, map_length, Ly, Nat.sub_diag. cbn [firstn skipn map].
  rewrite firstn_all2, skipn_all2 by (rewrite map_length; lia). rewrite app_nil_r. cbn [app].
  assert (E : length x = length y) by lia. unfold walsh. clear -E L. revert x E.
  induction y as [|v y IH]; intros [|w x] E; try discriminate; simpl in *; [ring|]. rewrite IH by lia. ring.
Qed.

Lemma h_mix : forall n a s, valid (qubits (n + 1)) s -> final (qubits (n + 1)) (hn n) (mix n a) s = mix n (spread_all n a) s.
Proof.
  intros n a s Hs. destruct (split_last n Hs) as [x [b [-> [Vx Hb]]]]. pose proof (valid_length Vx) as Lx. rewrite len_qubits in Lx.
  rewrite (final_sum L) by exact Hs. rewrite mix_app by exact Lx.
  replace (all_configs (qubits (n + 1))) with (all_configs (qubits n ++ [2])) by (unfold qubits; rewrite repeat_app; reflexivity).
  rewrite (bsum_configs_app L). unfold spread_all. rewrite <- (bsum_mul_r L).
  apply bsum_ext. intros y Hy. apply in_all_configs in Hy. pose proof (valid_length Hy) as Ly. rewrite len_qubits in Ly.
  cbn [all_configs seq flat_map map app]. unfold bsum. cbn [fold_right]. rewrite !h_first, !mix_app by (try assumption; lia). unfold at_level.
  destruct (bit Hb) as [-> | ->]; cbn [Nat.eqb]; ring.
Qed.

(** The oracle turns the last qubit over where [f] holds. *)
Lemma oracle_mix : forall n f prog a s, Forall (gate_ok (qubits (n + 1))) prog -> (forall g, In g prog -> reversible g) ->
  (forall t, valid (qubits (n + 1)) t -> moves (qubits (n + 1)) prog t = turned n f t) -> valid (qubits (n + 1)) s ->
  final (qubits (n + 1)) prog (mix n a) s = mix n (fun x => sgn S (f x) *s a x) s.
Proof.
  intros n f prog a s Hok Hrev Hf Hs. pose proof (turned_valid n f Hs) as Ht.
  assert (E : s = moves (qubits (n + 1)) prog (turned n f s)) by (rewrite Hf by exact Ht; symmetry; apply turned_twice; exact Hs).
  rewrite E at 1. rewrite (final_moved L) by assumption. unfold mix. rewrite (turned_sign L) by exact Hs. unfold turned. rewrite firstn_put. ring.
Qed.

(** One round. *)
Definition zeros (x : config) : bool := forallb (Nat.eqb 0) x.
Definition average (n : nat) (a : config -> S) : S := spow S c2 n *s spow S c2 n *s bsum a (all_configs (qubits n)).
Definition turn (n : nat) (f : config -> bool) (a : config -> S) (x : config) : S :=
  sgn S (f x) *s a x +s sopp (two *s average n (fun y => sgn S (f y) *s a y)).

Lemma zeros_repeat : forall n x, valid (qubits n) x -> zeros x = config_eqb (repeat 0 n) x.
Proof.
  intros n; induction n as [|n IH]; intros x Hx; inversion Hx as [|b d y ds Hb Hy]; subst; [symmetry; apply config_eqb_refl|].
  cbn [zeros forallb repeat]. fold (zeros y). rewrite (IH y Hy).
  destruct (Nat.eqb_spec 0 b) as [<-|N]; cbn [andb].
  - destruct (config_eqb (repeat 0 n) y) eqn:E.
    + apply config_eqb_eq in E. subst. symmetry. apply config_eqb_refl.
    + symmetry. apply config_eqb_neq. intros X. injection X as X. apply config_eqb_neq in E. contradiction.
  - symmetry. apply config_eqb_neq. intros X. injection X as X _. contradiction.
Qed.
Lemma zero_valid : forall n, valid (qubits n) (repeat 0 n).
Proof. induction n; simpl; constructor; [lia | assumption]. Qed.

Lemma reflect : forall n a x, valid (qubits n) x ->
  spread_all n (fun z => sgn S (zeros z) *s spread_all n a z) x = a x +s sopp (two *s average n a).
Proof.
  intros n a x Hx. unfold spread_all at 1.
  rewrite (bsum_ext S _ (fun z => walsh x z *s spread_all n a z +s basis S (repeat 0 n) z *s (sopp two *s (spow S c2 n *s spread_all n a (repeat 0 n)))) _).
  2: { intros z Hz. apply in_all_configs in Hz. rewrite (zeros_repeat n Hz). unfold basis. destruct (config_eqb (repeat 0 n) z) eqn:E; unfold sgn.
       - apply config_eqb_eq in E. subst z. rewrite walsh_zero_r by exact Hx. ring.
       - ring. }
  rewrite (bsum_add L). f_equal.
  - unfold spread_all.
    rewrite (bsum_ext S _ (fun z => bsum (fun y => walsh x z *s walsh z y *s a y) (all_configs (qubits n))) _)
      by (intros z _; rewrite <- (bsum_mul_l L); apply bsum_ext; intros y _; ring).
    rewrite (bsum_swap L).
    rewrite (bsum_ext S _ (fun y => basis S y x *s a y) _).
    2: { intros y Hy. apply in_all_configs in Hy. rewrite (bsum_mul_r L), walsh_twice by assumption. reflexivity. }
    rewrite (bsum_single L _ (a := x)); [unfold basis; rewrite config_eqb_refl; ring | apply all_configs_NoDup | apply in_all_configs; exact Hx |].
    intros y _ N. unfold basis. rewrite (proj2 (config_eqb_neq y x)) by congruence. ring.
  - rewrite (bsum_mul_r L), (bsum_single L _ (a := repeat 0 n)); [| apply all_configs_NoDup | apply in_all_configs; apply zero_valid |].
    + unfold basis. rewrite config_eqb_refl. unfold spread_all, average.
      rewrite (bsum_ext S _ (fun y => spow S c2 n *s a y) _) by (intros y Hy; apply in_all_configs in Hy; rewrite walsh_zero_l by exact Hy; reflexivity).
      rewrite (bsum_mul_l L). ring.
    + intros z _ N. unfold basis. rewrite (proj2 (config_eqb_neq (repeat 0 n) z)) by congruence. reflexivity.
Qed.

Section Rounds.
Variables (n : nat) (f : config -> bool) (oracle test : list gate).
Notation dims := (qubits (n + 1)).
Hypothesis Hok : Forall (gate_ok dims) oracle.
Hypothesis Hrev : forall g, In g oracle -> reversible g.
Hypothesis Hf : forall s, valid dims s -> moves dims oracle s = turned n f s.
Hypothesis Tok : Forall (gate_ok dims) test.
Hypothesis Trev : forall g, In g test -> reversible g.
Hypothesis Tf : forall s, valid dims s -> moves dims test s = turned n zeros s.
Definition round : list gate := oracle ++ hn n ++ test ++ hn n.
Definition rounds (k : nat) : list gate := concat (repeat round k).

Lemma round_mix : forall a s, valid dims s -> final dims round (mix n a) s = mix n (turn n f a) s.
Proof.
  intros a s Hs. unfold round. rewrite !final_app.
  rewrite (@final_ext S dims _ _ (mix n (fun x => sgn S (zeros x) *s spread_all n (fun x => sgn S (f x) *s a x) x))); [| | exact Hs].
  - rewrite h_mix by exact Hs. apply mix_ext; [exact Hs|]. intros x Hx. rewrite reflect by exact Hx. reflexivity.
  - intros t Ht. rewrite <- (@oracle_mix n zeros test) by assumption. apply final_ext; [|exact Ht]. intros u Hu.
    rewrite <- h_mix by exact Hu. apply final_ext; [|exact Hu]. intros v Hv. apply oracle_mix; assumption.
Qed.

Lemma iter_turn : forall k (a : config -> S), Nat.iter k (turn n f) (turn n f a) = Nat.iter (Datatypes.S k) (turn n f) a.
Proof. induction k as [|k IH]; intros a; [reflexivity|]. cbn [Nat.iter nat_rect]. f_equal. apply IH. Qed.

Lemma rounds_mix : forall k a s, valid dims s -> final dims (rounds k) (mix n a) s = mix n (Nat.iter k (turn n f) a) s.
Proof.
  intros k; induction k as [|k IH]; intros a s Hs; [reflexivity|].
  unfold rounds. cbn [repeat concat]. rewrite final_app.
  rewrite (@final_ext S dims _ _ (mix n (turn n f a))); [| intros t Ht; apply round_mix; exact Ht | exact Hs].
  fold (rounds k). rewrite IH by exact Hs. rewrite iter_turn. reflexivity.
Qed.

Lemma begin_mix : forall s, valid dims s -> final dims (hn (n + 1)) (basis S (repeat 0 n ++ [1])) s = mix n (fun _ => spow S c2 (n + 1)) s.
Proof. intros s Hs. rewrite (h_product L) by (try apply start_valid; exact Hs). rewrite (walsh_from L Hroot) by exact Hs. reflexivity. Qed.

Lemma end_mix : forall a x b, valid (qubits n) x -> b < 2 ->
  final dims [GH n] (mix n a) (x ++ [b]) = if b =? 1 then two *s c2 *s a x else s0.
Proof.
  intros a x b Hx Hb. pose proof (valid_length Hx) as Lx. rewrite len_qubits in Lx. cbn [final]. rewrite apply_kapply. unfold kapply. cbn [amp].
  assert (V : valid dims (x ++ [b])) by (unfold qubits; rewrite repeat_app; apply valid_app; [exact Hx | constructor; [exact Hb | constructor]]).
  rewrite (local_apply L) by (rewrite ?len_qubits; try exact V; lia). rewrite nth_qubits by lia.
  assert (Pt : forall j, put (x ++ [b]) n j = x ++ [j]).
  { intros j. rewrite <- Lx. clear. induction x as [|v x IH]; [reflexivity|]. simpl. rewrite IH. reflexivity. }
  assert (Lv : level (x ++ [b]) n = b) by (unfold level; rewrite <- Lx, app_nth2, Nat.sub_diag by lia; reflexivity).
  cbn [seq]. unfold bsum. cbn [fold_right]. rewrite !Pt, !mix_app, Lv by exact Lx.
  transitivity (hh S (fun j => a x *s sign S j) b); [unfold hh; simpl; ring|]. rewrite (hh_val L Hroot) by exact Hb. rewrite ?sign_0, ?sign_1.
  destruct (bit Hb) as [-> | ->]; cbn [Nat.eqb]; rewrite ?sign_0, ?sign_1; ring.
Qed.

Lemma grover_state : forall k x b, valid (qubits n) x -> b < 2 ->
  final dims (hn (n + 1) ++ rounds k ++ [GH n]) (basis S (repeat 0 n ++ [1])) (x ++ [b])
  = if b =? 1 then two *s c2 *s Nat.iter k (turn n f) (fun _ => spow S c2 (n + 1)) x else s0.
Proof.
  intros k x b Hx Hb. rewrite !final_app. rewrite <- (@end_mix _ x b) by assumption.
  assert (V : valid dims (x ++ [b])) by (unfold qubits; rewrite repeat_app; apply valid_app; [exact Hx | constructor; [exact Hb | constructor]]).
  apply final_ext; [|exact V]. intros t Ht. rewrite <- rounds_mix by exact Ht.
  apply final_ext; [|exact Ht]. intros u Hu. apply begin_mix. exact Hu.
Qed.
End Rounds.
End Grover.
