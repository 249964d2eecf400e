(** * CostThm: the cost of a run of a valid program. *)
From Coq Require Import List Arith ZArith Lia.
From Verif Require Import Py Scalar Mat Utils Gates Circuit Spec Calls Lib Kern GateMat GateTof Flow Layers Blocks Refine Run
  HistSpec Info DepthSpec InfoDepth BackendEq BackendSpec BackendAny Csr Cost CostSpec.
Import ListNotations.
Set Implicit Arguments.

Section CostThm.
Variable S : scalar.
Hypothesis L : scalar_laws S.
Notation op := (op S).
Notation moment := (moment S).
Notation NB := (NumpyBackend S).
Notation block := (block S).

(** ** Counting changes nothing else *)
Section Same.
Variable B : backend S.
Variable w : meter B.
Notation CB := (counted w).

Definition beside (a : CB) (b : B) : Prop := snd a = b.

Lemma counted_unitary : forall o, unitary CB o = (u <- unitary B o ;; Ok ((0, 0), u)).
Proof.
  intros o. destruct o; cbn [unitary]; try reflexivity.
  - destruct (h_unitary S dims); reflexivity.
  - destruct (x_unitary S dims plus); reflexivity.
  - destruct (z_unitary S dims); reflexivity.
  - destruct (cx_rows S qreg acting_on plus); reflexivity.
  - destruct (arb_unitary (RList dims) u); reflexivity.
  - destruct (arb_unitary dims u); reflexivity.
Qed.

Lemma beside_moment : forall l, same_res beside (moment_exec CB l) (moment_exec B l).
Proof.
  intros [|g gs]; [constructor|]. cbn [moment_exec]. rewrite counted_unitary.
  destruct (unitary B g) as [u|e]; [|constructor]. cbn [bind].
  assert (G : forall x y, same_res beside x y ->
    same_res beside
      (fold_left (fun (acc : res CB) h => a <- acc ;; b <- unitary CB h ;; Ok (b_kron (b := CB) a b)) gs x)
      (fold_left (fun (acc : res B) h => a <- acc ;; b <- unitary B h ;; Ok (b_kron (b := B) a b)) gs y)).
  { induction gs as [|h gs IH]; intros x y Hxy; cbn [fold_left]; [exact Hxy|].
    apply IH. destruct Hxy as [a b E|e]; [|constructor]. cbn [bind]. rewrite counted_unitary.
    destruct (unitary B h) as [v|e]; [|constructor]. cbn [bind]. constructor. unfold beside in *. cbn. rewrite E. reflexivity. }
  apply G. constructor. reflexivity.
Qed.

Inductive beside_opt : option CB -> option B -> Prop :=
| bo_none : beside_opt None None
| bo_some : forall a b, beside a b -> beside_opt (Some a) (Some b).

Lemma beside_dot : forall a b a' b', beside a b -> beside a' b' -> same_res beside (b_dot (b := CB) a a') (b_dot b b').
Proof.
  intros a b a' b' <- <-. cbn [b_dot counted]. destruct (b_dot (snd a) (snd a')); constructor. reflexivity.
Qed.

Lemma beside_flow : forall f, same_res beside_opt (flow_exec CB f) (flow_exec B f).
Proof.
  intros f. unfold flow_exec. destruct (forallb _ _); [|constructor].
  destruct (rev (f_list f)) as [|m rest]; [constructor|].
  assert (G : forall x y, same_res beside_opt x y ->
    same_res beside_opt
     (fold_left (fun (acc : res (option CB)) m =>
             a <- acc ;; k <- moment_exec CB (m_list m) ;;
             match a with None => Ok (Some k) | Some d => p <- b_dot (b := CB) d k ;; Ok (Some p) end) rest x)
     (fold_left (fun (acc : res (option B)) m =>
             a <- acc ;; k <- moment_exec B (m_list m) ;;
             match a with None => Ok (Some k) | Some d => p <- b_dot (b := B) d k ;; Ok (Some p) end) rest y)).
  { induction rest as [|h rest IH]; intros x y Hxy; cbn [fold_left]; [exact Hxy|].
    apply IH. destruct Hxy as [a1 b1 H1|e]; [|constructor]. cbn [bind].
    destruct (beside_moment (m_list h)) as [a2 b2 H2|e]; [|constructor]. cbn [bind].
    destruct H1 as [|a1 b1 H1].
    - constructor. constructor. exact H2.
    - destruct (beside_dot H1 H2) as [a3 b3 H3|e]; constructor. constructor. exact H3. }
  apply G. constructor. constructor.
Qed.

Theorem run_counted : forall c : circuit S, run CB c = run B c.
Proof.
  intros c. unfold run. destruct (beside_flow (c_flow c)) as [a b Hab|e]; [|reflexivity]. cbn [bind].
  destruct Hab as [|a b <-]; reflexivity.
Qed.
(** There is a cost whenever there is a result, and only then. *)
Theorem cost_iff : forall c : circuit S,
  (exists x, run_cost w c = Ok x) <-> (exists m, flow_exec B (c_flow c) = Ok (Some m)).
Proof.
  intros c. unfold run_cost. destruct (beside_flow (c_flow c)) as [a b Hab|e]; cbn [bind].
  - destruct Hab as [|a b E]; split; intros [x X]; try discriminate; [exists b; reflexivity | eexists; reflexivity].
  - split; intros [x X]; discriminate.
Qed.

Theorem cost_err : forall (c : circuit S) e, run_cost w c = Err e -> run B c = Err e.
Proof.
  intros c e. unfold run_cost, run. destruct (beside_flow (c_flow c)) as [a b Hab|e']; cbn [bind].
  - destruct Hab as [|a b E]; [intros X; injection X as <-; reflexivity | discriminate].
  - intros X. injection X as <-. reflexivity.
Qed.
End Same.

(** ** Costs from shapes *)
Section Sized.
Variable B : backend S.
Variable ok : B -> Prop.
Hypothesis H : computes B ok.
Variable w : meter B.
Notation CB := (counted w).
Definition sized (b : B) (r c : nat) : Prop := exists f, shows B ok b r c f.
(** [Rel]: equal to, or at most. *)
Variable Rel : nat -> nat -> Prop.
Hypothesis rel_0 : Rel 0 0.
Hypothesis rel_add : forall a b a' b', Rel a b -> Rel a' b' -> Rel (a + a') (b + b').
Hypothesis kron_le : forall a b r c r' c', sized a r c -> sized b r' c' -> in_kron w a b <= (r * r') * (c * c').
Hypothesis dot_rel : forall a b r c c', sized a r c -> sized b c c' -> Rel (in_dot w a b) (r * c * c').

Lemma sized_kron : forall a b r c r' c', sized a r c -> sized b r' c' -> sized (b_kron a b) (r * r') (c * c').
Proof. intros a b r c r' c' [f F] [g G]. eexists. apply (cm_kron H F G). Qed.
Lemma sized_dot : forall a b r c c', sized a r c -> sized b c c' -> exists p, b_dot a b = Ok p /\ sized p r c'.
Proof. intros a b r c c' [f F] [g G]. destruct (cm_dot H F G) as [p [E P]]. exists p. split; [exact E|]. eexists. exact P. Qed.

Lemma sized_unitary : forall o M, unitary NB o = Ok M -> exists u, unitary B o = Ok u /\ sized u (mr M) (mc M).
Proof.
  intros o M E. pose proof (alike_unitary H o) as A. rewrite E in A. inversion A as [a b Hab Ea Eb|]; subst.
  exists b. split; [reflexivity|]. eexists. exact Hab.
Qed.

Notation kstep := (fun (acc : res CB) h => a <- acc ;; b <- unitary CB h ;; Ok (b_kron (b := CB) a b)).

Lemma sub_two : forall dims p (b : block), (forall d, In d dims -> 2 <= d) -> blk_ok dims p b -> 2 <= prodn (sub dims p (bw b)).
Proof.
  intros dims p b Hd Hb. assert (X : forall l, (forall d, In d l -> 2 <= d) -> l <> [] -> 2 <= prodn l).
  { induction l as [|x l IH]; intros Hl Hn; [congruence|]. rewrite prodn_cons. pose proof (Hl x (or_introl eq_refl)).
    destruct l as [|y l]; [change (prodn []) with 1; lia|].
    assert (2 <= prodn (y :: l)) by (apply IH; [intros d D; apply Hl; right; exact D | discriminate]). nia. }
  apply X.
  - intros d D. apply Hd. unfold sub in D.
    clear -D. revert D. generalize (bw b). revert p. induction dims as [|x dims IH]; intros p n D.
    + destruct p, n; contradiction.
    + destruct p as [|p].
      * destruct n as [|n]; [contradiction|]. cbn in D. destruct D as [D|D]; [left; exact D|]. right. apply (IH 0 n). exact D.
      * right. apply (IH p n). exact D.
  - intros E. pose proof (sub_length _ _ _ (bok_in Hb)) as Hl. rewrite E in Hl. pose proof (bok_w Hb). cbn in Hl. lia.
Qed.

Lemma count_blocks : forall dims bs p q n a k, (forall d, In d dims -> 2 <= d) ->
  seg dims p bs q -> sized a n n -> 3 * k <= 4 * (n * n) ->
  exists k' a' n', fold_left kstep (map (@bo S) bs) (Ok ((k, 0), a)) = Ok ((k', 0), a') /\
    n' = n * prodn (sub dims p (Kern.width bs)) /\ sized a' n' n' /\ 3 * k' <= 4 * (n' * n').
Proof.
  intros dims bs; induction bs as [|b bs IH]; intros p q n a k Hd Hs Ha Hk; cbn [map fold_left].
  - exists k, a, n. unfold sub. cbn [Kern.width fold_right firstn]. change (prodn []) with 1. rewrite Nat.mul_1_r. auto.
  - inversion Hs as [|p' b' bs' q' Hb Hs']; subst. pose proof (sub_two Hd Hb) as H2.
    destruct (bok_u Hb) as [Mb [Eu Rb]]. destruct (sized_unitary _ Eu) as [u [Eu' Su]].
    rewrite (repr_mr Rb), (repr_mc Rb) in Su. set (m := prodn (sub dims p (bw b))) in *.
    cbn [bind]. rewrite counted_unitary, Eu'. cbn [bind b_kron counted fst snd]. rewrite !Nat.add_0_r. cbn [Nat.add].
    destruct (IH (p + bw b) q (n * m) (b_kron a u) (k + in_kron w a u) Hd Hs') as [k' [a' [n' [E [En [Sa Hk']]]]]].
    + apply sized_kron; assumption.
    + pose proof (kron_le Ha Su) as K. replace (n * m * (n * m)) with (m * m * (n * n)) in * by lia.
      assert (4 <= m * m) by nia. assert (4 * (n * n) <= m * m * (n * n)) by (apply Nat.mul_le_mono_r; assumption). lia.
    + exists k', a', n'. split; [exact E|]. split; [|auto]. subst n'. cbn [Kern.width fold_right]. fold (Kern.width bs).
      rewrite <- Nat.mul_assoc. f_equal. unfold m. rewrite <- prodn_app. f_equal.
      pose proof (seg_width Hs'). pose proof (seg_le Hs') as [_ Hle]. unfold sub. rewrite <- skipn_skipn'.
      rewrite <- (firstn_skipn (bw b) (firstn (bw b + Kern.width bs) (skipn p dims))).
      rewrite firstn_firstn, skipn_firstn_comm.
      replace (Nat.min (bw b) (bw b + Kern.width bs)) with (bw b) by lia.
      replace (bw b + Kern.width bs - bw b) with (Kern.width bs) by lia. reflexivity.
Qed.

Lemma count_layer : forall dims bs, (forall d, In d dims -> 2 <= d) -> dims <> [] -> seg dims 0 bs (length dims) ->
  exists k a, moment_exec CB (map (@bo S) bs) = Ok ((k, 0), a) /\ sized a (prodn dims) (prodn dims) /\
    3 * k <= 4 * (prodn dims * prodn dims).
Proof.
  intros dims bs Hd Hne Hs. pose proof (seg_width Hs) as Hw. destruct bs as [|b bs].
  - cbn in Hw. destruct dims; [congruence | discriminate].
  - inversion Hs as [|p' b' bs' q' Hb Hs']; subst. cbn [map moment_exec].
    destruct (bok_u Hb) as [Mb [Eu Rb]]. destruct (sized_unitary _ Eu) as [u [Eu' Su]].
    rewrite (repr_mr Rb), (repr_mc Rb) in Su. rewrite counted_unitary, Eu'. cbn [bind].
    destruct (@count_blocks dims bs _ _ _ u 0 Hd Hs' Su ltac:(lia)) as [k [a [n [E [En [Sa Hk]]]]]].
    assert (n = prodn dims) as ->.
    { rewrite En, <- prodn_app. f_equal. unfold sub. cbn [Kern.width fold_right] in Hw. fold (Kern.width bs) in Hw. cbn [skipn Nat.add] in *.
      rewrite (firstn_all2 (n := Kern.width bs)) by (rewrite skipn_length; lia). apply firstn_skipn. }
    exists k, a. auto.
Qed.

Lemma count_init : forall dims init, (forall d, In d dims -> 2 <= d) -> dims <> [] ->
  exists k a, moment_exec CB (init_ops S dims init) = Ok ((k, 0), a) /\ sized a (prodn dims) 1 /\ k <= 2 * prodn dims.
Proof.
  intros dims init Hd Hne. unfold init_ops.
  assert (U : forall i, exists u, unitary CB (init_op S dims init i) = Ok ((0, 0), u) /\ sized u (nth i dims 0) 1).
  { intros i. cbn. eexists. split; [reflexivity|]. eexists. apply (cm_matrix H). }
  assert (F : forall m i n a k, i + m <= length dims -> sized a n 1 -> k <= 2 * n ->
    exists k' a' n', fold_left kstep (map (init_op S dims init) (seq i m)) (Ok ((k, 0), a)) = Ok ((k', 0), a') /\
      n' = n * prodn (sub dims i m) /\ sized a' n' 1 /\ k' <= 2 * n').
  { induction m as [|m IH]; intros i n a k Hi Ha Hk; cbn [seq map fold_left].
    - exists k, a, n. unfold sub. cbn [firstn]. change (prodn []) with 1. rewrite Nat.mul_1_r. auto.
    - destruct (U i) as [u [Eu Su]]. cbn [bind]. rewrite Eu. cbn [bind b_kron counted fst snd]. rewrite !Nat.add_0_r. cbn [Nat.add].
      pose proof (Hd _ (nth_In dims 0 (n := i) ltac:(lia))) as H2.
      pose proof (sized_kron Ha Su) as K. rewrite Nat.mul_1_r in K. pose proof (kron_le Ha Su) as KL. rewrite !Nat.mul_1_r in KL.
      destruct (IH (Datatypes.S i) (n * nth i dims 0) (b_kron a u) (k + in_kron w a u) ltac:(lia) K) as [k' [a' [n' [E [En [Sa Hk']]]]]].
      { nia. }
      exists k', a', n'. split; [exact E|]. split; [|auto]. subst n'. rewrite <- Nat.mul_assoc. f_equal.
      assert (Esub : forall l i', i' < length l -> sub l i' (Datatypes.S m) = nth i' l 0 :: sub l (Datatypes.S i') m).
      { clear. induction l as [|y l IH]; intros [|i'] Hl; cbn in *; try lia; auto. unfold sub in *. cbn in *. apply IH. lia. }
      rewrite Esub by lia. rewrite prodn_cons. reflexivity. }
  destruct dims as [|d ds] eqn:Ed; [congruence|]. rewrite <- Ed in *. replace (length dims) with (Datatypes.S (length ds)) by (rewrite Ed; reflexivity).
  cbn [seq map moment_exec]. destruct (U 0) as [u [Eu Su]]. rewrite Eu. cbn [bind].
  destruct (F (length ds) 1 (nth 0 dims 0) u 0) as [k [a [n [E [En [Sa Hk]]]]]]; [rewrite Ed; cbn; lia | exact Su | lia|].
  assert (n = prodn dims) as ->.
  { rewrite En, Ed. cbn [nth]. rewrite prodn_cons. f_equal. unfold sub. cbn [skipn]. rewrite firstn_all. reflexivity. }
  exists k, a. auto.
Qed.

Notation xstep := (fun (acc : res (option CB)) (m : moment) =>
             a <- acc ;; k <- moment_exec CB (m_list m) ;;
             match a with None => Ok (Some k) | Some d => p <- b_dot (b := CB) d k ;; Ok (Some p) end).

Section Layers.
Variable dims : list nat.
Variable init : list nat.
Hypothesis Hd : forall d, In d dims -> 2 <= d.
Hypothesis Hne : dims <> [].
Notation N := (prodn dims).

Lemma count_rest : forall (m0 : moment), m_list m0 = init_ops S dims init ->
  forall bss ms, Forall2 (layer_of dims) ms bss ->
  forall a k d, sized a N N ->
  exists k' d' a', fold_left xstep (rev (m0 :: ms)) (Ok (Some ((k, d), a))) = Ok (Some ((k', d'), a')) /\
    3 * k' <= 3 * k + 4 * (length ms * (N * N)) + 6 * N /\
    (forall t, Rel d t -> Rel d' (t + (length ms * (N * N * N) + N * N))).
Proof.
  intros m0 E0 bss; induction bss as [|bs bss IH] using rev_ind; intros ms HF a k d Ha.
  - inversion HF; subst. cbn [rev app fold_left length Nat.mul]. rewrite E0.
    destruct (count_init init Hd Hne) as [k0 [v [Ev [Sv Kv]]]]. rewrite Ev. cbn [bind b_dot counted fst snd].
    destruct (sized_dot Ha Sv) as [p [Ep _]]. rewrite Ep. cbn [bind].
    eexists _, _, _. split; [reflexivity|]. split; [lia|]. intros t Ht. rewrite Nat.add_0_r. cbn [Nat.add].
    apply rel_add; [exact Ht|]. pose proof (dot_rel Ha Sv) as R. rewrite Nat.mul_1_r in R. exact R.
  - apply Forall2_app_inv_r in HF as [ms1 [ms2 [HF1 [HF2 ->]]]].
    inversion HF2 as [|m bs' l1 l2 [Hml Hseg] Hn]; subst. inversion Hn; subst.
    rewrite app_comm_cons, rev_unit. cbn [fold_left bind]. rewrite Hml.
    destruct (count_layer Hd Hne Hseg) as [k1 [b [Eb [Sb Kb]]]]. rewrite Eb. cbn [bind b_dot counted fst snd].
    destruct (sized_dot Ha Sb) as [p [Ep Sp]]. rewrite Ep. cbn [bind]. rewrite Nat.add_0_r.
    destruct (IH ms1 HF1 p (k + k1) (d + in_dot w a b) Sp) as [k' [d' [a' [E [Kk Kd]]]]].
    exists k', d', a'. split; [exact E|]. rewrite app_length. cbn [length]. split; [nia|].
    intros t Ht. specialize (Kd _ (rel_add Ht (dot_rel Ha Sb))).
    replace (t + ((length ms1 + 1) * (N * N * N) + N * N)) with (t + N * N * N + (length ms1 * (N * N * N) + N * N)) by lia. exact Kd.
Qed.

Lemma count_all : forall (m0 : moment) bss ms, m_list m0 = init_ops S dims init -> Forall2 (layer_of dims) ms bss ->
  exists k d a, fold_left xstep (rev (m0 :: ms)) (Ok None) = Ok (Some ((k, d), a)) /\
    3 * k <= 4 * (length ms * (N * N)) + 6 * N /\ Rel d (layer_by_layer N (length ms)).
Proof.
  intros m0 bss ms E0 HF. destruct (snoc_cases ms) as [->|[ms' [m ->]]].
  - cbn [rev app fold_left bind]. rewrite E0. destruct (count_init init Hd Hne) as [k0 [v [Ev [Sv Kv]]]]. rewrite Ev. cbn [bind].
    eexists _, _, _. split; [reflexivity|]. cbn [length layer_by_layer]. split; [lia | exact rel_0].
  - apply Forall2_snoc_l in HF as [bss' [bs [-> [HF [Hml Hseg]]]]].
    rewrite app_comm_cons, rev_unit. cbn [fold_left bind]. rewrite Hml.
    destruct (count_layer Hd Hne Hseg) as [k1 [b [Eb [Sb Kb]]]]. rewrite Eb. cbn [bind].
    destruct (count_rest m0 E0 HF k1 0 Sb) as [k [d [a [E [Kk Kd]]]]].
    exists k, d, a. split; [exact E|]. rewrite app_length. cbn [length]. split; [nia|].
    specialize (Kd 0 rel_0). replace (length ms' + 1) with (Datatypes.S (length ms')) by lia. cbn [layer_by_layer]. exact Kd.
Qed.

Lemma count_forward : forall (m0 : moment) bss ms, m_list m0 = init_ops S dims init -> Forall2 (layer_of dims) ms bss ->
  exists k d a,
    (v <- moment_exec CB (m_list m0) ;;
     fold_left (fun acc (m : moment) => a <- acc ;; k <- moment_exec CB (m_list m) ;; b_dot (b := CB) k a) ms (Ok v)) = Ok ((k, d), a) /\
    sized a N 1 /\ 3 * k <= 4 * (length ms * (N * N)) + 6 * N /\ Rel d (state_first N (length ms)).
Proof.
  intros m0 bss ms E0 HF. rewrite E0. destruct (count_init init Hd Hne) as [k0 [v [Ev [Sv Kv]]]]. rewrite Ev. cbn [bind].
  revert bss HF. induction ms as [|m ms IH] using rev_ind; intros bss HF.
  - cbn [fold_left]. eexists _, _, _. split; [reflexivity|]. split; [exact Sv|]. cbn [length]. split; [lia | exact rel_0].
  - apply Forall2_snoc_l in HF as [bss' [bs [-> [HF [Hml Hseg]]]]]. destruct (IH _ HF) as [k [d [a [E [Sa [Kk Kd]]]]]].
    rewrite fold_left_app, E. cbn [fold_left bind]. rewrite Hml.
    destruct (count_layer Hd Hne Hseg) as [k1 [b [Eb [Sb Kb]]]]. rewrite Eb. cbn [bind b_dot counted fst snd].
    destruct (sized_dot Sb Sa) as [p [Ep Sp]]. rewrite Ep. cbn [bind].
    eexists _, _, _. split; [reflexivity|]. split; [exact Sp|]. rewrite app_length. cbn [length]. split; [nia|].
    unfold state_first in *. pose proof (dot_rel Sb Sa) as R. rewrite Nat.mul_1_r in R. cbn [Nat.add].
    replace ((length ms + 1) * (N * N)) with (length ms * (N * N) + N * N) by lia. apply rel_add; assumption.
Qed.
End Layers.
End Sized.
End CostThm.
