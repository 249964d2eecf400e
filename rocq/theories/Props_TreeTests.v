(** * Props_TreeTests: the tests of the tree decomposition (C73) and the check
    of its counts (C74).  Statements only. *)
From Coq Require Import String.
From Verif Require Import Py Scalar Mat Utils Gates Circuit Spec Calls Lib Tree TreeTests TreeSpec Run Props_Run Props_Tree.
Local Notation length := List.length.
Open Scope Z_scope.

(** ** C73 *)

(** What [random.choices] may return: sizes from [low] to [high] and as many
    bits as the size says. *)
Definition drawn (low high : Z) (draws : list (Z * list Z)) : Prop :=
  forall n bits, In (n, bits) draws -> low <= n <= high /\ Z.of_nat (length bits) = n /\ forall x, In x bits -> x = 0 \/ x = 1.

Lemma bits_nat : forall bits, (forall x, In x bits -> x = 0 \/ x = 1) ->
  exists bs, bits = map Z.of_nat bs /\ length bs = length bits /\ forall x, In x bs -> (x < 2)%nat.
Proof.
  induction bits as [|b bits IH]; intros H; [exists []; repeat split; intros x []|].
  destruct IH as [bs [E [El Hb]]]; [intros x Hx; apply H; right; exact Hx|].
  assert (Hb0 : b = 0 \/ b = 1) by (apply H; left; reflexivity).
  exists (Z.to_nat b :: bs). split; [simpl; rewrite <- E; f_equal; lia|]. split; [simpl; congruence|].
  intros x [<-|Hx]; [lia | apply Hb; exact Hx].
Qed.

Lemma passes_bits : forall S (L : scalar_laws S) (B : backend S) flog fuel n bs exp,
  supported B -> large flog fuel n -> Z.of_nat (length bs) = n -> (forall x, In x bs -> (x < 2)%nat) ->
  exp = map Z.of_nat (toffoli_of bs) -> passes flog fuel B (n, map Z.of_nat bs, ket exp).
Proof.
  intros S L B flog fuel n bs exp HB HL Hl Hb ->. cbn [passes].
  rewrite (C44_tree_computes_the_toffoli S L B flog fuel n bs HB HL Hl Hb). unfold shown, ket. rewrite map_map. reflexivity.
Qed.

Lemma toffoli_of_snoc : forall l x, toffoli_of (l ++ [x]) = l ++ [if forallb (Nat.eqb 1) l then (1 - x)%nat else x].
Proof. intros l x. unfold toffoli_of. rewrite removelast_last, last_last. reflexivity. Qed.

Lemma random_case_ok : forall n bs, bs <> [] -> (forall x, In x bs -> (x < 2)%nat) ->
  random_case n (map Z.of_nat bs) = Ok (n, map Z.of_nat bs, ket (map Z.of_nat (toffoli_of bs))).
Proof.
  intros n bs Hne Hb. destruct (exists_last Hne) as [l [x ->]]. rewrite toffoli_of_snoc. unfold random_case.
  rewrite !map_app. cbn [map]. rewrite removelast_last.
  assert (E : existsb (Z.eqb 0) (map Z.of_nat l) = negb (forallb (Nat.eqb 1) l)).
  { assert (Hl : forall y, In y l -> (y < 2)%nat) by (intros y Hy; apply Hb, in_or_app; left; exact Hy). clear -Hl.
    induction l as [|y l IH]; [reflexivity|]. cbn [map existsb forallb]. rewrite IH by (intros; apply Hl; right; assumption).
    assert (y < 2)%nat by (apply Hl; left; reflexivity). destruct y as [|[|y]]; [reflexivity | reflexivity | lia]. }
  rewrite E. destruct (forallb (Nat.eqb 1) l); cbn [negb bind]; [|reflexivity].
  assert (Hx : (x < 2)%nat) by (apply Hb, in_or_app; right; left; reflexivity).
  set (p := map Z.of_nat l).
  assert (I : py_index (length (p ++ [Z.of_nat x])) (-1) = Some (length p)).
  { rewrite app_length. cbn [length]. unfold py_index. change (0 <=? -1) with false. cbn [andb].
    rewrite (proj2 (Z.leb_le _ _)) by lia. change (-1 <? 0) with true. cbn [andb]. f_equal. lia. }
  unfold py_get, py_set. rewrite I. rewrite nth_error_app2, Nat.sub_diag by lia. cbn [nth_error bind].
  unfold ket. do 4 f_equal. rewrite upd_split. unfold flip. destruct x as [|[|x]]; [reflexivity | reflexivity | lia].
Qed.

(** Every generated test passes, there are as many as announced, and for every
    size both inputs with all controls on are among them. *)
Theorem C73_generated_tests_pass :
  forall S (L : scalar_laws S) (B : backend S) flog fuel low high draws,
  supported B -> (forall n, low <= n <= high -> large flog fuel n) -> drawn low high draws -> 3 <= low -> low <= high ->
  exists cases, generate draws low high = Ok cases /\
    (forall t, In t cases -> passes flog fuel B t) /\
    Z.of_nat (length cases) = Z.of_nat (length draws) + 2 * (high - low + 1) /\
    (forall n bits, In (n, bits) draws -> exists e, In (n, bits, e) cases) /\
    (forall n, low <= n <= high -> exists e e', In (n, zrepeat n 1, e) cases /\ In (n, zrepeat (n - 1) 1 ++ [0], e') cases).
Proof.
  intros S L B flog fuel low high draws HB HL Hd H3 Hlh.
  set (g := fun d : Z * list Z => let '(n, bits) := d in (n, bits, ket (map Z.of_nat (toffoli_of (map Z.to_nat bits))))).
  assert (Hin : forall n bits, In (n, bits) draws -> random_case n bits = Ok (g (n, bits)) /\ passes flog fuel B (g (n, bits))).
  { intros n bits Hi. destruct (Hd n bits Hi) as [Hn [Hl Hb]]. destruct (bits_nat bits Hb) as [bs [E [El Hbs]]].
    assert (E' : map Z.to_nat bits = bs). { rewrite E, map_map. erewrite map_ext; [apply map_id|]. intros x. apply Nat2Z.id. }
    unfold g. rewrite E', E. split.
    - apply random_case_ok; [|exact Hbs]. intros ->. simpl in El. lia.
    - apply (passes_bits S L); try assumption; try reflexivity; [apply HL; lia | lia]. }
  assert (Hf : forall n, low <= n <= high -> forall t, In t (fixed_cases n) -> passes flog fuel B t).
  { intros n Hn t Ht.
    assert (R : forall k, zrepeat (Z.of_nat k) 1 = map Z.of_nat (repeat 1%nat k)) by (intros k; unfold zrepeat; rewrite Nat2Z.id, map_repeat; reflexivity).
    assert (F : forall k, forallb (Nat.eqb 1) (repeat 1%nat k) = true) by (intros k; apply forallb_forall; intros x Hx; apply repeat_spec in Hx; subst; reflexivity).
    set (k := Z.to_nat (n - 1)). assert (En : n - 1 = Z.of_nat k) by (unfold k; lia). assert (En' : n = Z.of_nat (k + 1)) by lia.
    destruct Ht as [<-|[<-|[]]].
    - rewrite En. replace (zrepeat n 1) with (map Z.of_nat (repeat 1%nat k ++ [1%nat])).
      + apply (passes_bits S L); try assumption; [apply HL; exact Hn | rewrite app_length, repeat_length; simpl; lia | |].
        * intros x Hx. apply in_app_iff in Hx as [Hx|[<-|[]]]; [apply repeat_spec in Hx; lia | lia].
        * rewrite toffoli_of_snoc, F, map_app, R. reflexivity.
      + rewrite En', R, repeat_app. reflexivity.
    - rewrite En. replace (zrepeat (Z.of_nat k) 1 ++ [0]) with (map Z.of_nat (repeat 1%nat k ++ [0%nat])) by (rewrite map_app, R; reflexivity).
      apply (passes_bits S L); try assumption; [apply HL; exact Hn | rewrite app_length, repeat_length; simpl; lia | |].
      + intros x Hx. apply in_app_iff in Hx as [Hx|[<-|[]]]; [apply repeat_spec in Hx; lia | lia].
      + rewrite toffoli_of_snoc, F, En', R, repeat_app. reflexivity. }
  assert (Hr : forall n, In n (zrange low (high + 1)) <-> low <= n <= high).
  { intros n. unfold zrange. rewrite in_map_iff. split.
    - intros [k [<- Hk]]. apply in_seq in Hk. lia.
    - intros Hn. exists (Z.to_nat (n - low)). split; [lia|]. apply in_seq. lia. }
  unfold generate. rewrite (mapM_ok _ g) by (intros [n bits] Hi; apply Hin; exact Hi). cbn [bind].
  eexists. split; [reflexivity|]. split; [|split; [|split]].
  - intros t Ht. apply in_app_iff in Ht as [Ht|Ht].
    + apply in_map_iff in Ht as [[n bits] [<- Hi]]. apply Hin. exact Hi.
    + apply in_flat_map in Ht as [n [Hn Ht]]. apply (Hf n); [apply Hr; exact Hn | exact Ht].
  - rewrite app_length, map_length.
    assert (Q : forall l, length (flat_map fixed_cases l) = (2 * length l)%nat) by (induction l; simpl; lia).
    rewrite Q. unfold zrange. rewrite map_length, seq_length. lia.
  - intros n bits Hi. eexists. apply in_or_app. left. apply in_map_iff. exists (n, bits). split; [reflexivity | exact Hi].
  - intros n Hn. do 2 eexists. split; apply in_or_app; right; apply in_flat_map; exists n; (split; [apply Hr; exact Hn|]); unfold fixed_cases;
    [left | right; left]; reflexivity.
Qed.

(** With sizes below three the two fixed tests of such a size fail. *)
Theorem C73_small_sizes_fail :
  forall S (B : backend S) flog fuel low high draws cases n, (1 <= fuel)%nat -> flog 1 = 0 ->
  generate draws low high = Ok cases -> low <= n <= high -> n < 3 ->
  exists t t', In t cases /\ In t' cases /\ t <> t' /\ ~ passes flog fuel B t /\ ~ passes flog fuel B t'.
Proof.
  intros S B flog fuel low high draws cases n Hf H1 E Hn Hs. unfold generate in E.
  destruct (mapM _ draws) as [rs|e]; [|discriminate]. injection E as <-.
  destruct (C50_fewer_than_three_lines_raise S B flog fuel n None Hf) as [_ _].
  assert (F : forall inp, exists e, run_circ flog fuel B n (Some inp) = Err e).
  { intros inp. destruct (C50_fewer_than_three_lines_raise S B flog fuel n (Some inp) Hf) as [A C].
    destruct (Z.eq_dec n 2) as [->|N]; [eexists; apply C; exact H1 | eexists; apply A; lia]. }
  assert (I : In n (zrange low (high + 1))).
  { unfold zrange. apply in_map_iff. exists (Z.to_nat (n - low)). split; [lia|]. apply in_seq. lia. }
  exists (n, zrepeat n 1, ket (zrepeat (n - 1) 1 ++ [0])), (n, zrepeat (n - 1) 1 ++ [0], ket (zrepeat n 1)).
  split; [apply in_or_app; right; apply in_flat_map; exists n; split; [exact I | left; reflexivity]|].
  split; [apply in_or_app; right; apply in_flat_map; exists n; split; [exact I | right; left; reflexivity]|].
  split; [|split; cbn [passes]; match goal with |- ~ run_circ _ _ _ _ (Some ?i) = _ => destruct (F i) as [e ->]; discriminate end].
  intros X. injection X as X _. apply (f_equal (fun l => last l 1)) in X. rewrite last_last in X.
  assert (Q : forall k, last (repeat 1 k) 1 = 1) by (induction k as [|[|k] IH]; [reflexivity | reflexivity | exact IH]).
  unfold zrepeat in X. rewrite Q in X. discriminate.
Qed.

(** The outcomes listed in main.py, which it never compares, are right. *)
Theorem C73_listed_outcomes_are_right :
  forall S (L : scalar_laws S) (B : backend S) flog fuel t,
  supported B -> (forall n, 3 <= n <= 11 -> large flog fuel n) -> In t listed_cases -> passes flog fuel B t.
Proof.
  intros S L B flog fuel t HB HL Ht.
  assert (G : forall n inp exp, 3 <= n <= 11 -> Z.of_nat (length inp) = n -> forallb (fun x => (x =? 0) || (x =? 1)) inp = true ->
    exp = ket (map Z.of_nat (toffoli_of (map Z.to_nat inp))) -> passes flog fuel B (n, inp, exp)).
  { intros n inp exp Hn Hl Hb ->. assert (Hb' : forall x, In x inp -> x = 0 \/ x = 1).
    { intros x Hx. rewrite forallb_forall in Hb. specialize (Hb x Hx). apply Bool.orb_true_iff in Hb as [Hb|Hb]; apply Z.eqb_eq in Hb; auto. }
    destruct (bits_nat inp Hb') as [bs [E [El Hbs]]].
    assert (E' : map Z.to_nat inp = bs). { rewrite E, map_map. erewrite map_ext; [apply map_id|]. intros x. apply Nat2Z.id. }
    rewrite E', E. apply (passes_bits S L); try assumption; [apply HL; exact Hn | lia | reflexivity]. }
  unfold listed_cases in Ht. simpl in Ht.
  repeat (destruct Ht as [<-|Ht]; [apply G; [lia | reflexivity | reflexivity | vm_compute; reflexivity]|]). contradiction.
Qed.

(** ** C74 *)

(** The check of [runner] never speaks up, not even for odd [n], where the
    number of qutrits is not the expected one. *)
Theorem C74_check_never_fires : forall flog fuel n t final, large flog fuel n -> decompose flog fuel n = Ok (t, final) ->
  alarm t n = false.
Proof.
  intros flog fuel n t final HL E. pose proof (C46_gate_counters flog fuel n t final HL E) as C. unfold alarm.
  destruct (mathematical_expectation n) as [[[[tern quat] qb] qt] qq]. destruct C as [C _]. rewrite C, Z.eqb_refl. reflexivity.
Qed.

(** It would speak up only if all five numbers were wrong. *)
Theorem C74_check_wants_all_counts_wrong : forall t n,
  let '(tern, quat, qubits, qutrits, ququads) := mathematical_expectation n in
  alarm t n = true <->
  t_tern t <> tern /\ t_quat t <> quat /\ Z.of_nat (length (t_qubits t)) <> qubits /\
  Z.of_nat (length (t_qutrits t)) <> qutrits /\ Z.of_nat (length (t_ququads t)) <> ququads.
Proof.
  intros t n. unfold alarm. destruct (mathematical_expectation n) as [[[[tern quat] qb] qt] qq].
  rewrite !Bool.andb_true_iff, !Bool.negb_true_iff, !Z.eqb_neq. intuition congruence.
Qed.

Theorem C74_check_misses_wrong_counts : forall flog fuel n t final, large flog fuel n -> decompose flog fuel n = Ok (t, final) ->
  Z.even n = false ->
  let '(_, _, _, qutrits, _) := mathematical_expectation n in
  qutrits <> Z.of_nat (length (t_qutrits t)) /\ alarm t n = false.
Proof.
  intros flog fuel n t final HL E Ho. pose proof (C46_gate_counters flog fuel n t final HL E) as C.
  pose proof (C74_check_never_fires flog fuel n t final HL E) as A.
  destruct (mathematical_expectation n) as [[[[tern quat] qb] qt] qq]. destruct C as [_ [_ [_ [_ [_ C]]]]]. specialize (C Ho).
  split; [lia | exact A].
Qed.

(** ** Non-trivial instances *)
Example ex_C73 :
  drawn 3 4 [(4, [1; 1; 1; 0]); (3, [1; 0; 1])] /\ (forall n, 3 <= n <= 11 -> large Z.log2 20 n) /\
  generate [(4, [1; 1; 1; 0]); (3, [1; 0; 1])] 3 4 =
    Ok [(4, [1; 1; 1; 0], "|1111>"); (3, [1; 0; 1], "|101>"); (3, [1; 1; 1], "|110>"); (3, [1; 1; 0], "|111>");
        (4, [1; 1; 1; 1], "|1110>"); (4, [1; 1; 1; 0], "|1111>")]%string /\
  run_circ Z.log2 20 (NumpyBackend Zscalar) 4 (Some [1; 1; 1; 0]) = Ok (LStr "|1111>"%string) /\
  (exists e, run_circ Z.log2 20 (NumpyBackend Zscalar) 2 (Some [1; 1]) = Err e).
Proof.
  split; [|split; [|split; [|split]]].
  - intros n bits [E|[E|[]]]; injection E as <- <-; (split; [lia|]); (split; [reflexivity|]); simpl; intros x Hx; lia.
  - intros n Hn. split; [lia|]. split; lia.
  - vm_compute. reflexivity.
  - vm_compute. reflexivity.
  - eexists. vm_compute. reflexivity.
Qed.
Example ex_C74 : exists t final, decompose Z.log2 20 5 = Ok (t, final) /\ Z.even 5 = false /\ alarm t 5 = false /\
  mathematical_expectation 5 = (7, 0, 2, 4, 0) /\ length (t_qutrits t) = 3%nat.
Proof. do 2 eexists. repeat split; vm_compute; reflexivity. Qed.

Print Assumptions C73_generated_tests_pass.
Print Assumptions C73_small_sizes_fail.
Print Assumptions C73_listed_outcomes_are_right.
Print Assumptions C74_check_never_fires.
Print Assumptions C74_check_wants_all_counts_wrong.
Print Assumptions C74_check_misses_wrong_counts.
