(** * Algo: the states of the GHZ and the Bernstein-Vazirani circuits. *)
From Coq Require Import Permutation Sorted.
From Verif Require Import Py Scalar Mat Utils Gates Circuit Spec Calls Lib Flow Layers Blocks Refine Run Reversible Parts Moved Local Product Props_Run.
Set Implicit Arguments.

Section Algo.
Variable S : scalar.
Variable L : scalar_laws S.
Add Ring Sring : (sl_ring L).
Notation gate := (gate S).
Notation "x +s y" := (sadd x y) (at level 50).
Notation "x *s y" := (smul x y) (at level 40).
Notation one := (fun _ : nat => s1 : S).

Fixpoint spow (a : S) (k : nat) : S := match k with O => s1 | Datatypes.S k => a *s spow a k end.

Definition kick (fs : list (nat -> S)) (c : nat) : list (nat -> S) := upd fs c (fun x => sign S x *s nth c fs one x).

Lemma kicks_length : forall cs fs, length (fold_left kick cs fs) = length fs.
Proof. induction cs as [|c cs IH]; intros fs; simpl; [reflexivity|]. rewrite IH. apply upd_length. Qed.

Lemma kicks_nth : forall cs fs r x, r < length fs -> (forall c, In c cs -> c < length fs) ->
  nth r (fold_left kick cs fs) one x = spow (sign S x) (count_occ Nat.eq_dec cs r) *s nth r fs one x.
Proof.
  induction cs as [|c cs IH]; intros fs r x Hr Hc; cbn [fold_left count_occ]; [simpl; ring|].
  rewrite IH; [| unfold kick; rewrite upd_length; exact Hr | intros y Hy; unfold kick; rewrite upd_length; apply Hc; right; exact Hy].
  unfold kick. rewrite nth_upd.
  destruct (Nat.eq_dec c r) as [->|N].
  - rewrite Nat.eqb_refl. rewrite (proj2 (Nat.ltb_lt _ _) Hr). cbv beta. cbn [spow andb]. ring.
  - rewrite (proj2 (Nat.eqb_neq r c)) by congruence. reflexivity.
Qed.

Lemma kicks_state : forall n t cs fs s, valid (qubits n) s -> t < n -> (forall c, In c cs -> c < n /\ c <> t) -> length fs = n ->
  nth t fs one 1 = sopp (nth t fs one 0) ->
  final (qubits n) (map (fun c => GCX c t 1) cs) (product S fs) s = product S (fold_left kick cs fs) s.
Proof.
  intros n t cs. induction cs as [|c cs IH]; intros fs s Hs Ht Hc Hl Hm; cbn [map final fold_left]; [reflexivity|].
  destruct (Hc c (or_introl eq_refl)) as [C1 C2].
  rewrite <- IH; [| exact Hs | exact Ht | intros y Hy; apply Hc; right; exact Hy | unfold kick; rewrite upd_length; exact Hl |].
  - apply final_ext; [|exact Hs]. intros u Hu. apply (kickback L); assumption.
  - unfold kick. rewrite !nth_upd. rewrite (proj2 (Nat.eqb_neq t c)) by congruence. exact Hm.
Qed.

(** What h does to one qubit. *)
Hypothesis Hroot : nth 0 (sroots 2) s0 = sopp s1 :> S.
Hypothesis Hscale : sisqrt 2 *s sisqrt 2 +s sisqrt 2 *s sisqrt 2 = s1 :> S.

Lemma spow_sign : forall k, spow (sign S 1) k = if Nat.even k then s1 else sopp s1.
Proof.
  induction k as [|k IH]; [reflexivity|]. cbn [spow]. rewrite IH, Nat.even_succ, <- Nat.negb_even.
  unfold sign. simpl (1 =? 1). destruct (Nat.even k); simpl; ring.
Qed.
Lemma spow_one : forall k, spow (sign S 0) k = s1.
Proof. induction k as [|k IH]; [reflexivity|]. cbn [spow]. rewrite IH. unfold sign. simpl. ring. Qed.

Lemma hh_val : forall f x, x < 2 -> hh S f x = sisqrt 2 *s (f 0 +s sign S x *s f 1).
Proof.
  intros f x Hx. unfold hh, had. simpl seq. simpl bsum. unfold sign.
  assert (D : x = 0 \/ x = 1) by lia. destruct D as [-> | ->]; cbn [Nat.eqb orb Nat.sub Nat.add]; rewrite ?Nat.mod_1_r, ?Hroot; ring.
Qed.
Lemma sign_0 : sign S 0 = s1. Proof. reflexivity. Qed.
Lemma sign_1 : sign S 1 = sopp s1. Proof. reflexivity. Qed.

Lemma hh_level : forall b x, b < 2 -> x < 2 -> hh S (at_level S b) x = sisqrt 2 *s spow (sign S x) b.
Proof.
  intros b x Hb Hx. rewrite hh_val by exact Hx. unfold at_level.
  assert (D : b = 0 \/ b = 1) by lia. destruct D as [-> | ->]; simpl; ring.
Qed.

Lemma hh_back : forall k f x, x < 2 -> (forall y, y < 2 -> f y = sisqrt 2 *s spow (sign S y) k) -> hh S f x = at_level S (k mod 2) x.
Proof.
  intros k f x Hx Hf. rewrite hh_val by exact Hx. rewrite !Hf by lia. rewrite spow_one, spow_sign.
  assert (E : k mod 2 = if Nat.even k then 0 else 1).
  { destruct (Nat.even k) eqn:E.
    - apply Nat.even_spec in E as [m ->]. rewrite Nat.mul_comm. apply Nat.mod_mul. lia.
    - assert (O : Nat.odd k = true) by (rewrite <- Nat.negb_even, E; reflexivity). apply Nat.odd_spec in O as [m ->].
      rewrite Nat.add_comm, Nat.mul_comm, Nat.mod_add by lia. reflexivity. }
  rewrite E. unfold at_level.
  assert (D : x = 0 \/ x = 1) by lia. destruct D as [-> | ->]; destruct (Nat.even k); cbn [Nat.eqb]; rewrite ?sign_0, ?sign_1;
    try ring; (transitivity (sisqrt (s := S) 2 *s sisqrt 2 +s sisqrt 2 *s sisqrt 2); [ring | exact Hscale]).
Qed.

Lemma spow_add : forall a i j, spow a (i + j) = spow a i *s spow a j.
Proof. intros a i j. induction i as [|i IH]; simpl; [ring|]. rewrite IH. ring. Qed.

(** h everywhere, cx gates onto the last qubit, h everywhere. *)
Lemma hidden_parity : forall n (b : config) cs s, valid (qubits (n + 1)) s -> valid (qubits (n + 1)) b -> level b n = 1 ->
  (forall c, In c cs -> c < n) ->
  final (qubits (n + 1)) (map (fun r => GH r) (seq 0 (n + 1)) ++ map (fun c => GCX c n 1) cs ++ map (fun r => GH r) (seq 0 (n + 1))) (basis S b) s
  = basis S (map (fun r => (level b r + count_occ Nat.eq_dec cs r) mod 2) (seq 0 (n + 1))) s.
Proof.
  intros n b cs s Hs Hb H1 Hc. set (N := n + 1) in *.
  pose proof (valid_length Hb) as Lb. rewrite len_qubits in Lb. pose proof (valid_length Hs) as Ls. rewrite len_qubits in Ls.
  assert (Vb : forall r, r < N -> level b r < 2).
  { intros r Hr. pose proof (valid_level Hb (r := r) ltac:(rewrite len_qubits; exact Hr)) as V. rewrite nth_qubits in V by exact Hr. exact V. }
  set (f1 := map (hh S) (map (at_level S) b)).
  assert (Lf1 : length f1 = N) by (unfold f1; rewrite !map_length; exact Lb).
  assert (N1 : forall r y, r < N -> y < 2 -> nth r f1 one y = sisqrt 2 *s spow (sign S y) (level b r)).
  { intros r y Hr Hy. unfold f1. rewrite map_map. rewrite nth_indep with (d' := (fun v => hh S (at_level S v)) 0) by (rewrite map_length; lia).
    rewrite (map_nth (fun v => hh S (at_level S v))). apply hh_level; [apply Vb; exact Hr | exact Hy]. }
  rewrite !final_app.
  transitivity (final (qubits N) (map (fun r => GH r) (seq 0 N)) (product S (fold_left kick cs f1)) s).
  { apply final_ext; [|exact Hs]. intros u Hu.
    rewrite <- (@kicks_state N n cs f1 u Hu); [| unfold N; lia | intros c Hin; specialize (Hc c Hin); unfold N; lia | exact Lf1 |].
    - apply final_ext; [|exact Hu]. intros v Hv.
      rewrite (@final_ext S (qubits N) _ _ (product S (map (at_level S) b)));
        [| intros w Hw; apply (product_basis L); pose proof (valid_length Hw) as X; rewrite len_qubits in X; lia | exact Hv].
      rewrite (h_layer L) by (try assumption; rewrite ?map_length; lia).
      rewrite firstn_all2, skipn_all2, app_nil_r by (rewrite map_length; lia). reflexivity.
    - rewrite !N1 by (unfold N; lia). rewrite H1. simpl. unfold sign. simpl. ring. }
  rewrite (h_layer L) by (try assumption; rewrite ?kicks_length; lia).
  rewrite firstn_all2, skipn_all2, app_nil_r by (rewrite kicks_length; lia).
  rewrite (product_basis L) by (rewrite map_length, seq_length; exact Ls).
  apply (@product_ext S (qubits N)); [exact Hs | | |].
  - rewrite map_length, kicks_length, len_qubits. exact Lf1.
  - rewrite !map_length, seq_length, len_qubits. reflexivity.
  - intros r x Hr Hx. rewrite len_qubits in Hr. rewrite nth_qubits in Hx by exact Hr.
    rewrite nth_indep with (d' := hh S one) by (rewrite map_length, kicks_length; lia). rewrite (map_nth (hh S)).
    rewrite (@hh_back (level b r + count_occ Nat.eq_dec cs r)); [| exact Hx |].
    + rewrite nth_indep with (d' := at_level S 0) by (rewrite !map_length, seq_length; lia). rewrite (map_nth (at_level S)).
      f_equal. rewrite nth_indep with (d' := (fun r => (level b r + count_occ Nat.eq_dec cs r) mod 2) 0) by (rewrite map_length, seq_length; lia).
      rewrite (map_nth (fun r => (level b r + count_occ Nat.eq_dec cs r) mod 2)), seq_nth by exact Hr. reflexivity.
    + intros y Hy. rewrite kicks_nth; [| lia | intros c Hin; specialize (Hc c Hin); unfold N in Lf1; lia].
      rewrite N1 by assumption. rewrite spow_add. ring.
Qed.

(** ** The same without an h on the last qubit at the end *)
Lemma product_put : forall fs r v s, r < length fs -> length s = length fs -> product S fs (put s r v) = product S (upd fs r (fun _ => nth r fs one v)) s.
Proof.
  intros fs r v s Hr Hl. rewrite (product_upd L) by lia. rewrite (@product_at S L fs r) by (rewrite ?put_length; lia).
  rewrite (product_put_one L) by lia. rewrite level_put, Nat.eqb_refl by lia. reflexivity.
Qed.

Lemma apply_x_product : forall n r fs s, valid (qubits n) s -> r < n -> length fs = n ->
  apply (qubits n) (GX r 1) (product S fs) s = product S (upd fs r (fun x => nth r fs one (shift 2 x (-1)))) s.
Proof.
  intros n r fs s Hs Hr Hl. pose proof (valid_length Hs) as Ls. rewrite len_qubits in Ls.
  rewrite (apply_reversible L); [| exact I | simpl; rewrite len_qubits, nth_qubits by exact Hr; lia | exact Hs].
  cbn [undo move]. unfold move_x. rewrite nth_qubits by exact Hr. rewrite product_put by lia.
  rewrite (product_upd L) by lia. rewrite (product_upd L (r := r) fs (fun x => nth r fs one (shift 2 x (-1)))) by lia. reflexivity.
Qed.

Lemma product_app : forall fs gs s t, length s = length fs -> product S (fs ++ gs) (s ++ t) = product S fs s *s product S gs t.
Proof. induction fs as [|f fs IH]; intros gs [|x s] t H; try discriminate; simpl; [ring|]. rewrite IH by (simpl in H; lia). ring. Qed.

Lemma product_spread : forall (e t : config) q n, length e = n -> length t = n + 1 ->
  product S (map (at_level S) e ++ [q]) t = spread S (e ++ [0]) n q t.
Proof.
  intros e t q n He Ht. subst n. destruct (@exists_last _ t) as [t1 [x ->]]; [intros ->; simpl in Ht; lia|]. rewrite app_length in Ht. simpl in Ht.
  rewrite product_app by (rewrite map_length; lia). rewrite <- (product_basis L) by lia. unfold spread, basis.
  assert (E : level (t1 ++ [x]) (length e) = x) by (unfold level; rewrite app_nth2 by lia; replace (length e - length t1) with 0 by lia; reflexivity).
  rewrite E. replace (put (e ++ [0]) (length e) x) with (e ++ [x]) by (rewrite put_upd, upd_split; reflexivity). simpl.
  destruct (config_eqb e t1) eqn:Ee.
  - apply config_eqb_eq in Ee. subst t1. rewrite config_eqb_refl. ring.
  - rewrite (proj2 (config_eqb_neq _ _)); [ring|]. intros X. apply app_inj_len in X as [X _]; [|lia]. apply config_eqb_neq in Ee. auto.
Qed.

Lemma nth_mapped : forall (l : list (nat -> S)) k r d, k <= length l -> r < length l ->
  nth r (map (hh S) (firstn k l) ++ skipn k l) d = if r <? k then hh S (nth r l d) else nth r l d.
Proof.
  intros l k r d Hk Hr. assert (E : length (map (hh S) (firstn k l)) = k) by (rewrite map_length, firstn_length; lia).
  assert (N : r < k -> nth r (firstn k l) d = nth r l d).
  { intros H. rewrite <- (firstn_skipn k l) at 2. rewrite app_nth1; [reflexivity | rewrite firstn_length; lia]. }
  destruct (Nat.ltb_spec r k) as [H|H].
  - rewrite app_nth1 by lia. rewrite nth_indep with (d' := hh S d) by lia. rewrite (map_nth (hh S)), N by exact H. reflexivity.
  - rewrite app_nth2, E by lia. rewrite <- (firstn_skipn k l) at 2. rewrite app_nth2; rewrite firstn_length, Nat.min_l by lia; [reflexivity | lia].
Qed.

Lemma open_parity : forall n (b : config) cs s, valid (qubits (n + 1)) s -> valid (qubits (n + 1)) b -> level b n = 0 ->
  (forall c, In c cs -> c < n) ->
  final (qubits (n + 1)) (map (fun r => GH r) (seq 0 n) ++ [GX n 1; GH n] ++ map (fun c => GCX c n 1) cs ++ map (fun r => GH r) (seq 0 n)) (basis S b) s
  = spread S (map (fun r => (level b r + count_occ Nat.eq_dec cs r) mod 2) (seq 0 n) ++ [0]) n (fun x => sisqrt 2 *s sign S x) s.
Proof.
  intros n b cs s Hs Hb H0 Hc. set (N := n + 1) in *.
  pose proof (valid_length Hb) as Lb. rewrite len_qubits in Lb. pose proof (valid_length Hs) as Ls. rewrite len_qubits in Ls.
  assert (Vb : forall r, r < N -> level b r < 2).
  { intros r Hr. pose proof (valid_level Hb (r := r) ltac:(rewrite len_qubits; exact Hr)) as V. rewrite nth_qubits in V by exact Hr. exact V. }
  set (f0 := map (at_level S) b).
  assert (L0 : length f0 = N) by (unfold f0; rewrite map_length; exact Lb).
  assert (N0 : forall r, r < N -> nth r f0 one = at_level S (level b r)).
  { intros r Hr. unfold f0. rewrite nth_indep with (d' := at_level S 0) by (rewrite map_length; lia). apply (map_nth (at_level S)). }
  set (f1 := map (hh S) (firstn n f0) ++ skipn n f0).
  assert (L1 : length f1 = N) by (unfold f1; rewrite app_length, map_length, firstn_length, skipn_length; unfold N in *; lia).
  set (f2 := upd f1 n (fun x => nth n f1 one (shift 2 x (-1)))).
  assert (L2 : length f2 = N) by (unfold f2; rewrite upd_length; exact L1).
  set (f3 := upd f2 n (hh S (nth n f2 one))).
  assert (L3 : length f3 = N) by (unfold f3; rewrite upd_length; exact L2).
  assert (Nn : n < N) by (unfold N; lia).
  assert (N3 : forall r y, r < N -> y < 2 -> nth r f3 one y = sisqrt 2 *s spow (sign S y) (if r =? n then 1 else level b r)).
  { intros r y Hr Hy. unfold f3. rewrite nth_upd. destruct (Nat.eqb_spec r n) as [->|Hne].
    - rewrite (proj2 (Nat.ltb_lt _ _)) by lia. cbn [andb].
      assert (E2 : forall z, nth n f2 one z = at_level S 0 (shift 2 z (-1))).
      { intros z. unfold f2. rewrite nth_upd, Nat.eqb_refl, (proj2 (Nat.ltb_lt _ _)) by lia. cbn [andb].
        unfold f1. rewrite nth_mapped by lia. rewrite Nat.ltb_irrefl, N0, H0 by exact Nn. reflexivity. }
      rewrite hh_val by exact Hy. rewrite !E2. change (shift 2 0 (-1)) with 1. change (shift 2 1 (-1)) with 0. unfold at_level. simpl. ring.
    - cbn [andb]. unfold f2. rewrite nth_upd, (proj2 (Nat.eqb_neq r n)) by exact Hne. cbn [andb].
      unfold f1. rewrite nth_mapped by lia. rewrite (proj2 (Nat.ltb_lt r n)), N0 by (unfold N in *; lia). apply hh_level; [apply Vb; exact Hr | exact Hy]. }
  assert (S3 : forall v, valid (qubits N) v -> final (qubits N) (map (fun r => GH r) (seq 0 n) ++ [GX n 1; GH n]) (basis S b) v = product S f3 v).
  { intros v Hv. rewrite final_app. cbn [final]. unfold f3. rewrite <- (@apply_h_product S L N n f2 v Hv Nn L2).
    apply apply_ext; [|exact Hv]. intros w Hw. unfold f2. rewrite <- (@apply_x_product N n f1 w Hw Nn L1).
    apply apply_ext; [|exact Hw]. intros z Hz. unfold f1. rewrite <- (@h_layer S L N n f0 z Hz) by (assumption || lia).
    apply final_ext; [|exact Hz]. intros y Hy. apply (product_basis L). pose proof (valid_length Hy) as X. rewrite len_qubits in X. lia. }
  set (F := fold_left kick cs f3). assert (LF : length F = N) by (unfold F; rewrite kicks_length; exact L3).
  rewrite app_assoc, final_app.
  transitivity (final (qubits N) (map (fun r => GH r) (seq 0 n)) (product S F) s).
  { rewrite final_app. apply final_ext; [|exact Hs]. intros u Hu. unfold F.
    rewrite <- (@kicks_state N n cs f3 u Hu); [| exact Nn | intros c Hin; specialize (Hc c Hin); unfold N; lia | exact L3 |].
    - apply final_ext; [|exact Hu]. exact S3.
    - rewrite !N3 by lia. rewrite Nat.eqb_refl. simpl. unfold sign. simpl. ring. }
  rewrite (h_layer L) by (try assumption; lia).
  assert (NF : forall r y, r < N -> y < 2 -> nth r F one y = sisqrt 2 *s spow (sign S y) ((if r =? n then 1 else level b r) + count_occ Nat.eq_dec cs r)).
  { intros r y Hr Hy. unfold F. rewrite kicks_nth; [| lia | intros c Hin; specialize (Hc c Hin); unfold N in *; lia]. rewrite N3, spow_add by assumption. ring. }
  set (e := map (fun r => (level b r + count_occ Nat.eq_dec cs r) mod 2) (seq 0 n)).
  assert (Le : length e = n) by (unfold e; rewrite map_length, seq_length; reflexivity).
  rewrite <- product_spread; [| exact Le | exact Ls].
  apply (@product_ext S (qubits N)); [exact Hs | | |].
  - rewrite app_length, map_length, firstn_length, skipn_length, len_qubits. lia.
  - rewrite app_length, map_length, len_qubits, Le. reflexivity.
  - intros r x Hr Hx. rewrite len_qubits in Hr. rewrite nth_qubits in Hx by exact Hr. rewrite nth_mapped by lia.
    destruct (Nat.ltb_spec r n) as [H|H].
    + rewrite app_nth1 by (rewrite map_length; lia). rewrite (@nth_indep _ (map (at_level S) e) r one (at_level S 0)) by (rewrite map_length; lia). rewrite (map_nth (at_level S)).
      rewrite (@hh_back (level b r + count_occ Nat.eq_dec cs r)); [| exact Hx |].
      * f_equal. unfold e. rewrite nth_indep with (d' := (fun r => (level b r + count_occ Nat.eq_dec cs r) mod 2) 0) by (rewrite map_length, seq_length; lia).
        rewrite (map_nth (fun r => (level b r + count_occ Nat.eq_dec cs r) mod 2)), seq_nth by exact H. reflexivity.
      * intros y Hy. rewrite NF by assumption. rewrite (proj2 (Nat.eqb_neq r n)) by lia. reflexivity.
    + assert (r = n) by (unfold N in Hr; lia). subst r. rewrite app_nth2 by (rewrite map_length; lia). rewrite map_length, Le, Nat.sub_diag. cbn [nth].
      rewrite NF by assumption. rewrite Nat.eqb_refl.
      rewrite (proj1 (count_occ_not_In Nat.eq_dec cs n)) by (intros X; specialize (Hc n X); lia). simpl. ring.
Qed.

(** ** GHZ *)
Lemma answer_sorted : forall dims (psi : config -> S), StronglySorted lt (map (lin dims) (map fst (answer dims psi))).
Proof.
  intros dims psi. unfold answer. rewrite !map_map. cbn [fst]. apply sorted_filter. rewrite lin_all_configs. apply seq_sorted.
Qed.

Lemma lin_zeros : forall n, lin (qubits n) (repeat 0 n) = 0.
Proof. induction n as [|n IH]; [reflexivity|]. unfold qubits in *. cbn [repeat lin]. rewrite IH. lia. Qed.

Lemma level_ones : forall k m r, r < k -> level (repeat 1 k ++ repeat 0 m) r = 1.
Proof. intros k m r H. unfold level. rewrite app_nth1 by (rewrite repeat_length; exact H). revert r H. induction k; intros [|r] H; simpl; try lia. apply IHk. lia. Qed.

Lemma chain_zeros : forall n m k, k + m < n -> moves (S := S) (qubits n) (map (fun i => GCX i (i + 1) 1) (seq k m)) (repeat 0 n) = repeat 0 n.
Proof.
  intros n m; induction m as [|m IH]; intros k H; [reflexivity|]. cbn [seq map moves move]. unfold move_cx, top.
  rewrite nth_qubits by lia. unfold level at 1. rewrite nth_repeat. simpl (0 + 1 =? 2). cbv iota. apply IH. lia.
Qed.

Lemma chain_ones : forall n m k, k + 1 + m = n ->
  moves (S := S) (qubits n) (map (fun i => GCX i (i + 1) 1) (seq k m)) (repeat 1 (k + 1) ++ repeat 0 m) = repeat 1 n.
Proof.
  intros n m; induction m as [|m IH]; intros k H.
  - cbn [seq map moves repeat]. rewrite app_nil_r. f_equal. lia.
  - cbn [seq map moves move]. unfold move_cx, top. rewrite nth_qubits by lia. rewrite level_ones by lia. simpl (1 + 1 =? 2). cbv iota.
    unfold move_x. rewrite nth_qubits by lia. cbn [repeat].
    assert (E : level (repeat 1 (k + 1) ++ 0 :: repeat 0 m) (k + 1) = 0).
    { unfold level. rewrite app_nth2; rewrite repeat_length; [|lia]. rewrite Nat.sub_diag. reflexivity. }
    rewrite E. change (shift 2 0 1) with 1.
    replace (put (repeat 1 (k + 1) ++ 0 :: repeat 0 m) (k + 1) 1) with (repeat 1 (Datatypes.S k + 1) ++ repeat 0 m).
    + apply IH. lia.
    + rewrite put_upd. replace (upd (repeat 1 (k + 1) ++ 0 :: repeat 0 m) (k + 1) 1) with (repeat 1 (k + 1) ++ 1 :: repeat 0 m)
        by (symmetry; etransitivity; [|apply (upd_split (repeat 1 (k + 1)) (repeat 0 m) 0 1)]; rewrite repeat_length; reflexivity).
      replace (Datatypes.S k + 1) with (k + 1 + 1) by lia. rewrite (repeat_app 1 (k + 1) 1), <- app_assoc. reflexivity.
Qed.

Lemma ghz_answer : forall n, 1 <= n -> sisqrt 2 <> s0 :> S ->
  answer (qubits n) (final (qubits n) (GH 0 :: map (fun i => GCX i (i + 1) 1) (seq 0 (n - 1))) (basis S (repeat 0 n)))
  = [(repeat 0 n, sisqrt 2); (repeat 1 n, sisqrt 2)].
Proof.
  intros n Hn Hc. set (chain := map (fun i => GCX i (i + 1) 1) (seq 0 (n - 1)) : list gate).
  assert (V0 : valid (qubits n) (repeat 0 n)) by (unfold valid, qubits; clear; induction n; simpl; constructor; [lia | assumption]).
  cbn [final].
  assert (Ea : answer (qubits n) (apply (qubits n) (GH 0) (basis S (repeat 0 n))) = [(repeat 0 n, sisqrt 2); (1 :: repeat 0 (n - 1), sisqrt 2)]).
  { rewrite (@answer_ext S (qubits n) _ (spread S (repeat 0 n) 0 (fun _ => sisqrt 2))).
    - rewrite (answer_spread L (r := 0) (fun _ => sisqrt 2) V0); [| rewrite len_qubits; lia | intros; exact Hc].
      rewrite nth_qubits by lia. destruct n as [|n]; [lia|]. simpl. rewrite Nat.sub_0_r. reflexivity.
    - intros s Hs. rewrite (apply_h_spreads L) by exact V0.
      apply spread_ext with (n := 2); [|pose proof (valid_level Hs (r := 0) ltac:(rewrite len_qubits; lia)) as X; rewrite nth_qubits in X by lia; exact X].
      intros i _. unfold level at 1. rewrite nth_repeat, nth_qubits by lia. unfold had. rewrite Bool.orb_true_r. ring. }
  assert (P := answer_moves L (dims := qubits n) (prog := chain) (apply (qubits n) (GH 0) (basis S (repeat 0 n)))).
  rewrite Ea in P. cbn [map] in P.
  assert (M0 : moves (qubits n) chain (repeat 0 n) = repeat 0 n) by (apply chain_zeros; lia).
  assert (M1 : moves (qubits n) chain (1 :: repeat 0 (n - 1)) = repeat 1 n) by (apply (@chain_ones n (n - 1) 0); lia).
  rewrite M0, M1 in P. pose proof (answer_sorted (qubits n) (final (qubits n) chain (apply (qubits n) (GH 0) (basis S (repeat 0 n))))) as So.
  assert (G1 : Forall (gate_ok (qubits n)) chain).
  { apply Forall_forall. intros g Hg. apply in_map_iff in Hg as [i [<- Hi]]. apply in_seq in Hi. simpl. rewrite len_qubits. lia. }
  assert (G2 : forall g, In g chain -> reversible g) by (intros g Hg; apply in_map_iff in Hg as [i [<- Hi]]; simpl; lia).
  destruct (Permutation_length_2_inv (Permutation_sym (P G1 G2))) as [E|E].
  - exact E.
  - rewrite E in So. cbn [map fst] in So. rewrite lin_zeros in So. apply StronglySorted_inv in So as [_ So]. apply Forall_inv in So. lia.
Qed.
End Algo.
