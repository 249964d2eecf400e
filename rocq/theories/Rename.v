(** * Rename: renamed registers. *)
From Coq Require Import Permutation.
From Verif Require Import Py Scalar Mat Utils Gates Circuit Spec RenameSpec Calls Run Lib Kern Layers Refine GateMat Reversible Parts Moved.
Set Implicit Arguments.

Section Rename.
Variable S : scalar.
Hypothesis L : scalar_laws S.
Add Ring Sring_rename : (sl_ring L).
Notation gate := (gate S).
Variables (n : nat) (f h : nat -> nat).
Hypothesis R : renaming n f h.
Let re := rearrange h.

Lemma re_length : forall l, length (re l) = length l.
Proof. intros l. unfold re, rearrange. rewrite map_length, seq_length. reflexivity. Qed.

Lemma re_nth : forall l q, length l = n -> q < n -> nth q (re l) 0 = nth (h q) l 0.
Proof. intros l q Hl Hq. unfold re, rearrange. apply (nth_map_seq (fun q => nth (h q) l 0)). lia. Qed.

Lemma re_at : forall l r, length l = n -> r < n -> nth (f r) (re l) 0 = nth r l 0.
Proof. intros l r Hl Hr. destruct (proj1 R r Hr) as [H1 H2]. rewrite re_nth by assumption. rewrite H2. reflexivity. Qed.

Lemma f_inj : forall r r', r < n -> r' < n -> f r = f r' -> r = r'.
Proof. intros r r' H H' E. destruct (proj1 R r H) as [_ A], (proj1 R r' H') as [_ B]. congruence. Qed.

Lemma re_put : forall s r v, length s = n -> r < n -> put (re s) (f r) v = re (put s r v).
Proof.
  intros s r v Hs Hr. destruct (proj1 R r Hr) as [Hf _]. apply level_ext.
  - rewrite Lib.put_length, !re_length, Lib.put_length. reflexivity.
  - intros q Hq. rewrite Lib.put_length, re_length, Hs in Hq. rewrite level_put by (rewrite re_length; lia).
    unfold level. rewrite (re_nth (put s r v)) by (rewrite ?Lib.put_length; assumption).
    destruct (proj2 R q Hq) as [A B]. change (nth (h q) (put s r v) 0) with (level (put s r v) (h q)).
    rewrite level_put by lia. destruct (Nat.eqb_spec q (f r)) as [E|E].
    + subst q. destruct (proj1 R r Hr) as [_ E]. rewrite E, Nat.eqb_refl. reflexivity.
    + rewrite re_nth by assumption. destruct (Nat.eqb_spec (h q) r) as [E'|E']; [|reflexivity].
      exfalso. apply E. rewrite <- B, E'. reflexivity.
Qed.

Lemma re_inj : forall s t, length s = n -> length t = n -> re s = re t -> s = t.
Proof.
  intros s t Hs Ht E. apply level_ext; [congruence|]. intros r Hr. rewrite Hs in Hr. unfold level.
  rewrite <- (re_at s) by assumption. rewrite <- (re_at t) by assumption. rewrite E. reflexivity.
Qed.

Lemma re_eqb : forall s t, length s = n -> length t = n -> config_eqb (re s) (re t) = config_eqb s t.
Proof.
  intros s t Hs Ht. apply Bool.eq_iff_eq_true. rewrite !config_eqb_eq. split; [apply re_inj; assumption | congruence].
Qed.

Variable dims : list nat.
Hypothesis Hn : length dims = n.

Lemma valid_nth : forall ds s, valid ds s <-> length s = length ds /\ forall r, r < length ds -> nth r s 0 < nth r ds 0.
Proof.
  unfold valid. intros ds. induction ds as [|d ds IH]; intros s; split.
  - intros H. inversion H; subst. split; [reflexivity|]. simpl. lia.
  - intros [H _]. destruct s; [constructor | discriminate].
  - intros H. inversion H as [|x ? s' ? Hx Hs']; subst. apply IH in Hs' as [E F]. split; [simpl; congruence|].
    intros [|r] Hr; [exact Hx|]. apply F. simpl in Hr. lia.
  - intros [E F]. destruct s as [|x s]; [discriminate|]. constructor; [apply (F 0); simpl; lia|].
    apply IH. split; [injection E; auto|]. intros r Hr. apply (F (Datatypes.S r)). simpl. lia.
Qed.

Lemma re_valid : forall s, valid dims s -> valid (re dims) (re s).
Proof.
  intros s Hs. apply valid_nth in Hs as [H1 H2]. apply valid_nth. rewrite !re_length. split; [exact H1|].
  intros q Hq. rewrite !re_nth by congruence. apply H2. rewrite Hn in *. apply (proj2 R q Hq).
Qed.

Lemma re_onto : forall t, valid (re dims) t -> exists s, valid dims s /\ re s = t.
Proof.
  intros t Ht. pose proof (valid_length Ht) as Hl. rewrite re_length in Hl. apply valid_nth in Ht as [_ H2]. rewrite re_length in H2.
  exists (map (fun r => nth (f r) t 0) (seq 0 n)).
  assert (A : forall r, r < n -> nth r (map (fun r => nth (f r) t 0) (seq 0 n)) 0 = nth (f r) t 0)
    by (intros r Hr; apply (nth_map_seq (fun r => nth (f r) t 0)); exact Hr).
  split.
  - apply valid_nth. rewrite map_length, seq_length. split; [lia|]. intros r Hr. rewrite Hn in Hr. rewrite A by exact Hr.
    rewrite <- (re_at dims) by assumption. apply H2. rewrite Hn. apply (proj1 R r Hr).
  - apply level_ext; [rewrite re_length, map_length, seq_length; lia|].
    intros q Hq. rewrite re_length, map_length, seq_length in Hq. unfold level. rewrite re_nth by (rewrite ?map_length, ?seq_length; lia).
    destruct (proj2 R q Hq) as [B C]. rewrite A by exact B. rewrite C. reflexivity.
Qed.

Lemma re_configs : Permutation (all_configs (re dims)) (map re (all_configs dims)).
Proof.
  apply NoDup_Permutation.
  - apply all_configs_NoDup.
  - assert (G : forall l, NoDup l -> (forall s, In s l -> valid dims s) -> NoDup (map re l)).
    { intros l Hl. induction Hl as [|x l Hx Hl IH]; intros Hv; [constructor|]. cbn [map]. constructor.
      - rewrite in_map_iff. intros [y [E Hy]]. apply Hx. replace x with y; [exact Hy|].
        apply re_inj; [rewrite (valid_length (Hv y (or_intror Hy))); exact Hn | rewrite (valid_length (Hv x (or_introl eq_refl))); exact Hn | exact E].
      - apply IH. intros s Hs. apply Hv. right. exact Hs. }
    apply G; [apply all_configs_NoDup | intros s Hs; apply in_all_configs; exact Hs].
  - intros t. rewrite in_all_configs, in_map_iff. split.
    + intros Ht. destruct (re_onto Ht) as [s [Hs E]]. exists s. split; [exact E | apply in_all_configs; exact Hs].
    + intros [s [<- Hs]]. apply re_valid, in_all_configs. exact Hs.
Qed.

Lemma bsum_perm : forall A (F : A -> S) l l', Permutation l l' -> bsum F l = bsum F l'.
Proof.
  intros A F l l' H. unfold bsum. induction H as [|x l l' H IH|x y l|l l' l'' H IH H' IH']; simpl; [reflexivity | | ring | congruence].
  rewrite IH. reflexivity.
Qed.

(** ** Gates *)
Lemma re_move_x : forall s r p, length s = n -> r < n -> move_x (re dims) (f r) p (re s) = re (move_x dims r p s).
Proof. intros s r p Hs Hr. unfold move_x, level. rewrite !re_at by assumption. apply re_put; assumption. Qed.

Lemma re_top : forall s r, length s = n -> r < n -> top (re dims) (re s) (f r) = top dims s r.
Proof. intros s r Hs Hr. unfold top, level. rewrite !re_at by assumption. reflexivity. Qed.

Lemma re_local : forall u r o i, length o = n -> length i = n -> r < n -> local S (f r) u (re o) (re i) = local S r u o i.
Proof.
  intros u r o i Ho Hi Hr. unfold local, level. rewrite !re_at, re_put, re_eqb by (rewrite ?Lib.put_length; assumption). reflexivity.
Qed.

Lemma re_classical : forall F F' o i, length o = n -> length (F i) = n -> F' (re i) = re (F i) ->
  classical S F' (re o) (re i) = classical S F o i.
Proof. intros F F' o i Ho Hi E. unfold classical. rewrite E, re_eqb by assumption. reflexivity. Qed.

Lemma re_window : forall s r k, length s = n -> r + k <= n -> (forall i, i < k -> f (r + i) = f r + i) ->
  firstn k (skipn (f r) (re s)) = firstn k (skipn r s).
Proof.
  intros s r k Hs Hr Hf. destruct k as [|k]; [reflexivity|].
  assert (Hlast : f r + k < n). { rewrite <- Hf by lia. apply (proj1 R). lia. }
  apply level_ext.
  - rewrite !firstn_length, !skipn_length, re_length. lia.
  - intros i Hi. rewrite firstn_length, skipn_length, re_length in Hi.
    rewrite !level_firstn, !level_skipn by lia. unfold level. rewrite <- Hf by lia. rewrite re_at by lia. reflexivity.
Qed.

Lemma outside_eqb : forall s t r k, length s = n -> length t = n -> r + k <= n ->
  (config_eqb (firstn r s) (firstn r t) && config_eqb (skipn (r + k) s) (skipn (r + k) t) = true <->
   forall q, q < n -> q < r \/ r + k <= q -> level s q = level t q).
Proof.
  intros s t r k Hs Ht Hr. rewrite Bool.andb_true_iff, !config_eqb_eq. split.
  - intros [E1 E2] q Hq [H|H].
    + rewrite <- (@level_firstn r s q H), <- (@level_firstn r t q H). congruence.
    + replace q with ((r + k) + (q - (r + k))) by lia. rewrite <- !level_skipn. congruence.
  - intros H. split; apply level_ext.
    + rewrite !firstn_length. lia.
    + intros q Hq. rewrite firstn_length in Hq. rewrite !level_firstn by lia. apply H; lia.
    + rewrite !skipn_length. lia.
    + intros q Hq. rewrite skipn_length in Hq. rewrite !level_skipn. apply H; lia.
Qed.

Lemma re_amp : forall (g : gate) o i, gate_ok dims g -> together f g -> valid dims o -> valid dims i ->
  amp (re dims) (rename f g) (re o) (re i) = amp dims g o i.
Proof.
  intros g o i Hg Ht Ho Hi. pose proof (valid_length Ho) as Lo. pose proof (valid_length Hi) as Li. rewrite Hn in Lo, Li.
  assert (Lx : forall r p, length (move_x dims r p i) = n) by (intros; unfold move_x; rewrite Lib.put_length; exact Li).
  destruct g as [r p|r|r|c t p|cs t p|r u|r k u]; cbn [rename amp gate_ok together] in *.
  - apply re_classical; [exact Lo | apply Lx | apply re_move_x; [exact Li | lia]].
  - rewrite re_at by lia. apply re_local; lia.
  - rewrite re_at by lia. apply re_local; lia.
  - apply re_classical; [exact Lo | |]; unfold move_cx.
    + destruct (top dims i c); [apply Lx | exact Li].
    + rewrite re_top by lia. destruct (top dims i c); [apply re_move_x; lia | reflexivity].
  - apply re_classical; [exact Lo | |]; unfold move_tof.
    + destruct (forallb (top dims i) cs); [apply Lx | exact Li].
    + assert (E : forallb (top (re dims) (re i)) (map f cs) = forallb (top dims i) cs).
      { destruct Hg as [Hc _]. induction cs as [|c cs IH]; [reflexivity|]. cbn [map forallb].
        rewrite re_top by (try exact Li; rewrite <- Hn; apply Hc; left; reflexivity). rewrite IH; [reflexivity|].
        intros x Hx. apply Hc. right. exact Hx. }
      rewrite E. destruct (forallb (top dims i) cs); [apply re_move_x; lia | reflexivity].
  - apply re_local; try assumption. lia.
  - destruct Hg as [Hk [Hr _]]. rewrite Hn in Hr.
    rewrite !re_window by (try assumption; lia).
    assert (Hlast : f r + k <= n). { destruct k as [|k]; [lia|]. assert (f (r + k) < n) by (apply (proj1 R); lia). rewrite Ht in H by lia. lia. }
    replace (config_eqb (firstn (f r) (re i)) (firstn (f r) (re o)) && config_eqb (skipn (f r + k) (re i)) (skipn (f r + k) (re o)))
      with (config_eqb (firstn r i) (firstn r o) && config_eqb (skipn (r + k) i) (skipn (r + k) o)); [reflexivity|].
    apply Bool.eq_iff_eq_true. rewrite !outside_eqb by (rewrite ?re_length; assumption). unfold level. split; intros H.
    + intros q Hq Hout. rewrite !re_nth by assumption. destruct (proj2 R q Hq) as [A B]. apply H; [exact A|].
      destruct (Nat.lt_ge_cases (h q) r) as [C|C]; [left; exact C|]. right.
      destruct (Nat.lt_ge_cases (h q) (r + k)) as [D|D]; [|exact D]. exfalso.
      assert (E : f (r + (h q - r)) = f r + (h q - r)) by (apply Ht; lia).
      replace (r + (h q - r)) with (h q) in E by lia. rewrite B in E. lia.
    + intros q Hq Hout. destruct (proj1 R q Hq) as [A B]. rewrite <- (re_at i) by assumption. rewrite <- (re_at o) by assumption. apply H; [exact A|].
      destruct (Nat.lt_ge_cases (f q) (f r)) as [C|C]; [left; exact C|]. right.
      destruct (Nat.lt_ge_cases (f q) (f r + k)) as [D|D]; [|exact D]. exfalso.
      assert (E : f (r + (f q - f r)) = f r + (f q - f r)) by (apply Ht; lia).
      assert (E' : r + (f q - f r) = q) by (apply f_inj; lia). lia.
Qed.

Lemma re_apply : forall (g : gate) psi psi' s, gate_ok dims g -> together f g -> (forall u, valid dims u -> psi' (re u) = psi u) ->
  valid dims s -> apply (re dims) (rename f g) psi' (re s) = apply dims g psi s.
Proof.
  intros g psi psi' s Hg Ht H Hs. rewrite !apply_kapply. unfold kapply. rewrite (bsum_perm _ re_configs), bsum_map.
  apply bsum_ext. intros u Hu. apply in_all_configs in Hu. rewrite re_amp, H by assumption. reflexivity.
Qed.

Lemma re_final : forall (prog : list gate) psi psi' s, Forall (gate_ok dims) prog -> (forall g, In g prog -> together f g) ->
  (forall u, valid dims u -> psi' (re u) = psi u) -> valid dims s ->
  final (re dims) (map (rename f) prog) psi' (re s) = final dims prog psi s.
Proof.
  induction prog as [|g prog IH]; intros psi psi' s Hg Ht H Hs; simpl; [apply H; exact Hs|].
  pose proof (Forall_inv Hg) as Hg1. apply Forall_inv_tail in Hg.
  apply IH; try assumption; [intros g' Hg'; apply Ht; right; exact Hg'|].
  intros u Hu. apply re_apply; try assumption. apply Ht. left. reflexivity.
Qed.

Lemma re_basis : forall s u, length s = n -> length u = n -> basis S (re s) (re u) = basis S s u.
Proof. intros s u Hs Hu. unfold basis. rewrite re_eqb by assumption. reflexivity. Qed.

Lemma re_answer : forall (psi psi' : config -> S), (forall u, valid dims u -> psi' (re u) = psi u) ->
  Permutation (answer (re dims) psi') (map (fun '(s, a) => (re s, a)) (answer dims psi)).
Proof.
  intros psi psi' H. unfold answer. rewrite map_map.
  eapply Permutation_trans; [apply Permutation_map, Permutation_filter, re_configs|].
  rewrite Moved.filter_map, map_map.
  replace (filter (fun x => negb (seqb (psi' (re x)) s0)) (all_configs dims)) with (filter (fun s => negb (seqb (psi s) s0)) (all_configs dims)).
  - erewrite map_ext_in; [apply Permutation_refl|]. intros s Hs. apply filter_In in Hs as [Hs _]. cbn.
    rewrite H; [reflexivity | apply in_all_configs; exact Hs].
  - apply filter_ext_in. intros s Hs. rewrite H; [reflexivity | apply in_all_configs; exact Hs].
Qed.
End Rename.
