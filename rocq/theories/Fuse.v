(** * Fuse: a program on neighbouring registers has the effect of one gate. *)
From Verif Require Import Py Scalar Mat Utils Gates Circuit Spec Calls Lib Flow Layers Blocks Refine Run Reversible Parts PartsSpec Moved Local Product Jozsa RenameSpec EmbedSpec Embed Protocols Props_Run EmbedRun.
Set Implicit Arguments.

Section Fuse.
Variable S : scalar.
Variable L : scalar_laws S.
Add Ring Sring : (sl_ring L).
Notation gate := (gate S).
Notation "x *s y" := (smul x y) (at level 40).

Lemma whole_span : forall sub (u : config -> config -> S) psi s, valid sub s ->
  apply sub (GSpan 0 (length sub) u) psi s = bsum (fun t => u s t *s psi t) (all_configs sub).
Proof.
  intros sub u psi s Hs. rewrite apply_kapply. unfold kapply. apply bsum_ext. intros t Ht. apply in_all_configs in Ht.
  pose proof (valid_length Hs) as Ls. pose proof (valid_length Ht) as Lt. cbn [amp Nat.add].
  change (firstn 0 t) with (@nil nat). change (firstn 0 s) with (@nil nat). change (skipn 0 t) with t. change (skipn 0 s) with s.
  rewrite (skipn_all2 t), (skipn_all2 s), (firstn_all2 t), (firstn_all2 s) by lia. rewrite !config_eqb_refl. reflexivity.
Qed.

Lemma part_span : forall (dims : list nat) r k, r + k <= length dims -> part (seq r k) dims = span dims r k.
Proof.
  intros dims r k; revert dims; induction r as [|r IH]; intros dims H.
  - unfold span, part. cbn [skipn]. revert dims H. induction k as [|k IH]; intros dims H; [reflexivity|].
    destruct dims as [|d dims]; [simpl in H; lia|]. cbn [seq map firstn nth]. f_equal. rewrite <- seq_shift, map_map. apply IH. simpl in H. lia.
  - destruct dims as [|d dims]; [simpl in H; lia|]. unfold span, part in *. rewrite <- seq_shift, map_map. cbn [skipn]. apply IH. simpl in H. lia.
Qed.

Lemma backward : forall ds (prog : list gate), (forall g, In g prog -> reversible g) -> Forall (gate_ok ds) prog ->
  forall s t, valid ds s -> valid ds t -> moves ds prog s = moves ds prog t -> s = t.
Proof.
  intros ds prog; induction prog as [|g prog IH]; intros Hv Ho s t Hs Ht E; [exact E|]. cbn [moves] in E.
  inversion Ho as [|g' p' Hg Ho']; subst. assert (Hrg : reversible g) by (apply Hv; left; reflexivity).
  apply IH in E; [|intros x Hx; apply Hv; right; exact Hx | exact Ho' | apply move_valid; assumption | apply move_valid; assumption].
  rewrite <- (@move_undo S ds g s Hrg Hg Hs), <- (@move_undo S ds g t Hrg Hg Ht), E. reflexivity.
Qed.

Lemma back : forall ds (prog : list gate), (forall g, In g prog -> reversible g) -> Forall (gate_ok ds) prog ->
  forall s, valid ds s -> exists t, valid ds t /\ moves ds prog t = s.
Proof.
  intros ds prog; induction prog as [|g prog IH]; intros Hv Ho s Hs; [exists s; split; [exact Hs | reflexivity]|].
  inversion Ho as [|g' p' Hg Ho']; subst. assert (Hrg : reversible g) by (apply Hv; left; reflexivity).
  destruct (IH (fun x Hx => Hv x (or_intror Hx)) Ho' s Hs) as [t [Ht E]]. exists (move ds (undo g) t). split.
  - apply undo_valid; assumption.
  - cbn [moves]. rewrite move_undo' by assumption. exact E.
Qed.

(** The matrix of a reversible program passes the test for unitary matrices. *)
Lemma permuting : forall ds (prog : list gate) u, (forall g, In g prog -> reversible g) -> Forall (gate_ok ds) prog ->
  (forall i j, valid ds i -> valid ds j -> u i j = if config_eqb (moves ds prog j) i then s1 else s0) ->
  orthonormal_rows S config_eqb (all_configs ds) u.
Proof.
  intros ds prog u Hv Ho Hu i j Hi Hj. apply in_all_configs in Hi, Hj.
  destruct (back Hv Ho Hi) as [a [Ha Ea]].
  rewrite <- bsum_total. rewrite (bsum_single L _ (a := a)).
  - rewrite !Hu by assumption. rewrite Ea, config_eqb_refl.
    destruct (config_eqb i j); rewrite ?(sl_conj1 L), ?(sl_conj0 L);
      match goal with |- sclose ?x ?y = true => replace y with x by ring end; apply (sl_close_refl L).
  - apply all_configs_NoDup.
  - apply in_all_configs, Ha.
  - intros t Ht Hne. apply in_all_configs in Ht. rewrite !Hu by assumption.
    rewrite (proj2 (config_eqb_neq (moves ds prog t) i)); [ring|]. intros E. apply Hne. rewrite <- Ea in E. exact (backward Hv Ho Ht Ha E).
Qed.

Lemma product_of_two : forall ds r (a b c : nat -> nat -> S) psi s, r < length ds ->
  (forall i j, i < nth r ds 0 -> j < nth r ds 0 -> c i j = total S (fun x => b i x *s a x j) (seq 0 (nth r ds 0))) -> valid ds s ->
  apply ds (GU r b) (apply ds (GU r a) psi) s = apply ds (GU r c) psi s.
Proof.
  intros ds r a b c psi s Hr E Hs. pose proof (valid_length Hs) as Ls.
  assert (Al : forall (u : nat -> nat -> S) (phi : state S) t, valid ds t -> apply ds (GU r u) phi t = bsum (fun j => u (level t r) j *s phi (put t r j)) (seq 0 (nth r ds 0))).
  { intros u phi t Ht. rewrite apply_kapply. unfold kapply. cbn [amp]. apply (local_apply L); assumption. }
  rewrite !Al by exact Hs.
  transitivity (bsum (fun x => bsum (fun j => b (level s r) x *s a x j *s psi (put s r j)) (seq 0 (nth r ds 0))) (seq 0 (nth r ds 0))).
  - apply bsum_ext. intros x Hx. apply in_seq in Hx. rewrite Al by (apply valid_put; [exact Hs | lia]). rewrite <- (bsum_mul_l L). apply bsum_ext. intros j Hj.
    rewrite level_put by lia. rewrite Nat.eqb_refl, put_put. ring.
  - rewrite (bsum_swap L). apply bsum_ext. intros j Hj. apply in_seq in Hj. rewrite (bsum_mul_r L). rewrite E by (try lia; apply valid_level; assumption).
    rewrite <- bsum_total. reflexivity.
Qed.

Variables (dims : list nat) (r k : nat).
Hypothesis Hk : 1 <= k.
Hypothesis Hr : r + k <= length dims.
Notation rs := (seq r k).
Notation sub := (part rs dims).
Let f := fun i => nth i rs 0.

Lemma sub_len : length sub = k. Proof. unfold part. rewrite map_length, seq_length. reflexivity. Qed.
Lemma rs_in : forall q, In q rs -> q < length dims. Proof. intros q H. apply in_seq in H. lia. Qed.
Lemma f_is : forall i, i < k -> f i = r + i. Proof. intros i Hi. unfold f. apply seq_nth. exact Hi. Qed.

(** The gate with the matrix [u] in place of the program. *)
Lemma fused : forall (prog : list gate) u psi s,
  Forall (gate_ok sub) prog -> Forall (gate_ok dims) (map (rename f) prog) -> (forall g, In g prog -> together f g) ->
  (forall i j, valid sub i -> valid sub j -> u i j = final sub prog (basis S j) i) ->
  orthonormal_rows S config_eqb (all_configs sub) u -> valid dims s ->
  final dims (map (rename f) prog) psi s = final dims [GSpan r k u] psi s.
Proof.
  intros prog u psi s H1 H2 H3 Hu Ho Hs.
  assert (E0 : f 0 = r) by (rewrite f_is by lia; lia).
  assert (Hg0 : gate_ok sub (GSpan 0 k u)).
  { cbn [gate_ok]. rewrite sub_len. split; [exact Hk|]. split; [lia|]. unfold span. cbn [skipn]. rewrite firstn_all2 by (rewrite sub_len; lia). exact Ho. }
  assert (Hg : gate_ok dims (GSpan r k u)).
  { cbn [gate_ok]. split; [exact Hk|]. split; [exact Hr|]. rewrite <- part_span by exact Hr. exact Ho. }
  assert (E1 : [GSpan r k u] = map (rename f) [GSpan 0 k u]) by (cbn [map rename]; rewrite E0; reflexivity). rewrite E1.
  assert (Ht : valid sub (there rs s)) by (apply there_valid; [exact rs_in | exact Hs]).
  etransitivity; [apply (final_embed L (seq_NoDup k r) rs_in); assumption|]. symmetry.
  etransitivity; [apply (final_embed L (seq_NoDup k r) rs_in) with (prog := [GSpan 0 k u])|].
  - constructor; [exact Hg0 | constructor].
  - constructor; [|constructor]. cbn [rename]. fold (f 0). rewrite E0. exact Hg.
  - intros g [<-|[]]. cbn [together]. intros i Hi. cbn [Nat.add]. change (f i = f 0 + i). rewrite E0. apply f_is. exact Hi.
  - exact Hs.
  - cbn [final]. rewrite <- sub_len at 2. rewrite whole_span by exact Ht. symmetry. rewrite (final_sum L) by exact Ht.
    apply bsum_ext. intros t Hin. apply in_all_configs in Hin. rewrite Hu by assumption. reflexivity.
Qed.
End Fuse.
