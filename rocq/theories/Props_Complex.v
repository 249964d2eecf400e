(** * Props_Complex: the H and Z gates, total probability and the probability
    output over the complex numbers (C23 - C28).  [ord] is the order in which
    the root finder returns the roots of unity. *)
From Coq Require Import Reals Lra Permutation.
From Verif Require Import Py Scalar Mat Utils Gates Circuit Spec Calls Complex ComplexSpec ComplexLib Lib Kern GateMat Layers Refine
  Run Reversible Outcome Local Unitary ComplexGates ComplexRun Props_Run.
Local Notation length := List.length.

(** ** C23 *)
Theorem C23_h_on_level_zero_is_uniform :
  forall ord, orders ord -> forall (B : backend (Cscalar ord)) dims levels out ty r,
  supported B -> line dims levels -> wants dims out ty OutAmplitude -> r < length dims ->
  let s := start dims levels in
  let d := nth r dims 0 in
  level s r = 0 ->
  simulate B (QList (map Z.of_nat dims)) (Some (map Z.of_nat levels)) out [CH (Z.of_nat r) None]
  = Ok (map (fun j => (shown ty (put s r j), (/ sqrt (INR d), 0)%R)) (seq 0 d)).
Proof.
  intros ord Hord B dims levels out ty r HB Hl Hw Hr s d H0.
  etransitivity; [exact (C01_run_applies_gates_in_order _ (Cscalar_laws Hord) B dims levels out ty OutAmplitude _ _ HB Hl Hw (asks_h ord dims r 1 Hr))|].
  destruct Hl as [_ [Hd [_ Hv]]]. f_equal.
  apply (@spread_answer ord Hord dims s ty r (fun _ => sisqrt (s := Cscalar ord) d)); [exact Hv | exact Hr | |].
  - intros t Ht. cbn [repeat final]. rewrite (apply_h_spreads (Cscalar_laws Hord)) by exact Hv.
    apply spread_ext with (n := d); [|apply valid_level; assumption]. intros i _. fold s. rewrite H0. unfold had.
    rewrite Bool.orb_true_r. unfold d; apply C_ext; simpl; ring.
  - intros j Hj. apply scale_neq0. unfold d. specialize (Hd _ (nth_In dims 0 Hr)). lia.
Qed.

Theorem C23_h_twice_restores_level_zero :
  forall ord, orders ord -> forall (B : backend (Cscalar ord)) dims levels out ty r,
  supported B -> line dims levels -> wants dims out ty OutAmplitude -> r < length dims ->
  one_last ord (nth r dims 0) -> level (start dims levels) r = 0 ->
  simulate B (QList (map Z.of_nat dims)) (Some (map Z.of_nat levels)) out [CH (Z.of_nat r) None; CH (Z.of_nat r) None]
  = Ok [(shown ty (start dims levels), C1)].
Proof.
  intros ord Hord B dims levels out ty r HB Hl Hw Hr H1 H0.
  etransitivity; [exact (C01_run_applies_gates_in_order _ (Cscalar_laws Hord) B dims levels out ty OutAmplitude _ _ HB Hl Hw (asks_h ord dims r 2 Hr))|].
  destruct Hl as [_ [Hd [_ Hv]]]. specialize (Hd _ (nth_In dims 0 Hr)).
  rewrite (@answer_ext _ dims _ (basis (Cscalar ord) (start dims levels))).
  - rewrite (answer_basis (Cscalar_laws Hord)) by exact Hv. reflexivity.
  - intros t Ht. cbn [repeat final].
    rewrite <- (@apply_h_back _ (Cscalar_laws Hord) dims r (start dims levels) t Hv Ht Hr Hd (cfourier Hord Hd H1) H0).
    rewrite !apply_kapply. apply kapply_ext; [exact Ht | auto |]. intros u Hu.
    rewrite (apply_h_spreads (Cscalar_laws Hord)) by exact Hv.
    apply spread_ext with (n := nth r dims 0); [|apply valid_level; assumption]. intros i _. rewrite H0. unfold had.
    rewrite Bool.orb_true_r. apply C_ext; simpl; ring.
Qed.

(** ** C24: in dimension 2 and 3, with a primitive root [w], h sends level j to
    the levels i with amplitude w^(i*j) / sqrt(d), and its matrix is unitary. *)
Theorem C24_h_is_the_fourier_transform :
  forall ord, orders ord -> forall d, d = 2 \/ d = 3 -> one_last ord d ->
  exists w, (w = root d 1 \/ w = root d (d - 1)) /\
  forall (B : backend (Cscalar ord)) dims levels out ty r,
  supported B -> line dims levels -> wants dims out ty OutAmplitude -> r < length dims -> nth r dims 0 = d ->
  let s := start dims levels in
  simulate B (QList (map Z.of_nat dims)) (Some (map Z.of_nat levels)) out [CH (Z.of_nat r) None]
  = Ok (map (fun i => (shown ty (put s r i), Cmul (/ sqrt (INR d), 0)%R (Cpow w (i * level s r)))) (seq 0 d)).
Proof.
  intros ord Hord d Hd H1. destruct (had_fourier Hord Hd H1) as [k [Hk E]]. exists (root d k).
  split; [destruct Hk as [-> | ->]; auto|]. intros B dims levels out ty r HB Hl Hw Hr <- s.
  etransitivity; [exact (C01_run_applies_gates_in_order _ (Cscalar_laws Hord) B dims levels out ty OutAmplitude _ _ HB Hl Hw (asks_h ord dims r 1 Hr))|].
  destruct Hl as [_ [_ [_ Hv]]]. f_equal.
  apply (@spread_answer ord Hord dims s ty r); [exact Hv | exact Hr | |].
  - intros t Ht. cbn [repeat final]. rewrite (apply_h_spreads (Cscalar_laws Hord)) by exact Hv.
    apply spread_ext with (n := nth r dims 0); [|apply valid_level; assumption]. intros i Hi. apply E; [exact Hi | apply valid_level; assumption].
  - intros j Hj Z. apply Cmul_eq_0 in Z as [Z|Z].
    + apply (@scale_neq0 ord (nth r dims 0)); [lia | exact Z].
    + rewrite <- root_Cpow in Z. exact (root_neq_0 _ _ Z).
Qed.

Theorem C24_h_is_unitary :
  forall ord, orders ord -> forall d, d = 2 \/ d = 3 -> one_last ord d ->
  exists M : mat (Cscalar ord), h_unitary (Cscalar ord) (Z.of_nat d) = Ok M /\ mr M = d /\ mc M = d /\
  forall i j, i < d -> j < d ->
    total (Cscalar ord) (fun k => Cmul (mget M i k) (Cconj (mget M j k))) (seq 0 d) = (if Nat.eqb i j then C1 else C0) /\
    total (Cscalar ord) (fun k => Cmul (Cconj (mget M k i)) (mget M k j)) (seq 0 d) = (if Nat.eqb i j then C1 else C0).
Proof.
  intros ord Hord d Hd H1. destruct (@h_unitary_spec _ (Cscalar_laws Hord) d ltac:(lia)) as [M [H2 [H3 [H4 H5]]]].
  exists M. repeat split; try assumption; rewrite <- bsum_total; destruct (had_unitary Hord Hd H1 H H0) as [U1 U2].
  - transitivity (bsum (fun k => smul (s := Cscalar ord) (had (Cscalar ord) d i k) (sconj (had (Cscalar ord) d j k))) (seq 0 d)); [|exact U2].
    apply bsum_ext. intros k Hk. apply in_seq in Hk. rewrite !H5 by lia. reflexivity.
  - transitivity (bsum (fun k => smul (s := Cscalar ord) (sconj (had (Cscalar ord) d k i)) (had (Cscalar ord) d k j)) (seq 0 d)); [|exact U1].
    apply bsum_ext. intros k Hk. apply in_seq in Hk. rewrite !H5 by lia. reflexivity.
Qed.

(** ** C25 *)
Theorem C25_h_is_not_unitary_on_ququarts :
  forall ord, orders ord ->
  exists M : mat (Cscalar ord), h_unitary (Cscalar ord) 4 = Ok M /\
  exists i j, i < 4 /\ j < 4 /\ i <> j /\ total (Cscalar ord) (fun k => Cmul (mget M i k) (Cconj (mget M j k))) (seq 0 4) <> C0.
Proof.
  intros ord Hord. destruct (@h_unitary_spec _ (Cscalar_laws Hord) 4 ltac:(lia)) as [M [H2 [H3 [H4 H5]]]].
  exists M. split; [exact H2|]. destruct (had_4 Hord) as [[i [j [[Hi [Hj Hn]] H]]] _]. exists i, j. repeat split; try assumption.
  intros E. apply H. rewrite <- E, <- bsum_total. apply bsum_ext. intros k Hk. apply in_seq in Hk. rewrite !H5 by lia. reflexivity.
Qed.

Theorem C25_probabilities_do_not_add_up :
  forall ord, orders ord -> forall B : backend (Cscalar ord), supported B ->
  exists x l, x < 4 /\ simulate B (QList [4%Z]) (Some [Z.of_nat x]) None [CH 0 None; CH 0 None] = Ok l /\ prob_sum l <> 1%R.
Proof.
  intros ord Hord B HB. destruct (had_4 Hord) as [_ [x [Hx H]]].
  assert (Hl : line [4] [x]).
  { split; [discriminate|]. split; [intros d [<-|[]]; lia|]. split; [simpl; lia|]. change (valid [4] [x]). constructor; [exact Hx | constructor]. }
  eexists x, _. split; [exact Hx|]. split.
  - exact (C01_run_applies_gates_in_order _ (Cscalar_laws Hord) B [4] [x] None OutPrint OutAmplitude _ _ HB Hl
             (or_intror (conj eq_refl (conj eq_refl eq_refl))) (asks_h ord [4] 0 2 ltac:(simpl; lia))).
  - rewrite (@prob_norm ord Hord). intros E. apply H. rewrite <- E. clear E H.
    assert (V : forall i, i < 4 -> valid [4] [i]) by (intros i Hi; constructor; [exact Hi | constructor]).
    assert (F : forall i, i < 4 -> final [4] (repeat (GH 0) 2) (basis (Cscalar ord) (start [4] [x])) [i]
                = bsum (fun j => smul (s := Cscalar ord) (had (Cscalar ord) 4 i j) (had (Cscalar ord) 4 j x)) (seq 0 4)).
    { intros i Hi. cbn [repeat final]. rewrite apply_kapply. unfold kapply. cbn [amp].
      rewrite (local_apply (Cscalar_laws Hord)) by (try apply V; simpl; lia). apply bsum_ext. intros j Hj. apply in_seq in Hj. cbn [level nth put].
      rewrite (apply_h_spreads (Cscalar_laws Hord)) by (apply V; exact Hx). unfold spread. cbn [start app repeat length Nat.sub put level nth].
      rewrite config_eqb_refl. reflexivity. }
    unfold norm. change (all_configs [4]) with [[0]; [1]; [2]; [3]]. unfold bsum at 2. cbn [fold_right map]. rewrite !F by lia. cbn [seq map fold_right].
    generalize (bsum (fun j => smul (s := Cscalar ord) (had (Cscalar ord) 4 0 j) (had (Cscalar ord) 4 j x)) (seq 0 4)).
    generalize (bsum (fun j => smul (s := Cscalar ord) (had (Cscalar ord) 4 1 j) (had (Cscalar ord) 4 j x)) (seq 0 4)).
    generalize (bsum (fun j => smul (s := Cscalar ord) (had (Cscalar ord) 4 2 j) (had (Cscalar ord) 4 j x)) (seq 0 4)).
    generalize (bsum (fun j => smul (s := Cscalar ord) (had (Cscalar ord) 4 3 j) (had (Cscalar ord) 4 j x)) (seq 0 4)).
    intros a b c e. unfold prob, Cre, Cim. simpl. ring.
Qed.

(** ** C26: the phase depends on the level of the register only. *)
Theorem C26_z_multiplies_by_distinct_roots :
  forall ord, orders ord -> forall d, 2 <= d ->
  exists phase : nat -> C,
  (forall i, i < d -> Cpow (phase i) d = C1) /\
  (forall i j, i < d -> j < d -> phase i = phase j -> i = j) /\
  (one_last ord d -> phase 0 <> C1) /\
  forall (B : backend (Cscalar ord)) dims levels out ty ks prog r,
  supported B -> line dims levels -> wants dims out ty OutAmplitude -> asks dims ks prog ->
  r < length dims -> nth r dims 0 = d ->
  let go := simulate B (QList (map Z.of_nat dims)) (Some (map Z.of_nat levels)) out in
  let z := CZ (Z.of_nat r) None in
  exists l : list (config * Cscalar ord),
    go ks = Ok (report ty OutAmplitude l) /\
    go (ks ++ [z]) = Ok (report (S := Cscalar ord) ty OutAmplitude (map (fun '(s, a) => (s, Cmul (phase (level s r)) a)) l)) /\
    go (ks ++ repeat z d) = go ks.
Proof.
  intros ord Hord d Hd. exists (phase ord d). destruct (ord_elems Hord d) as [HN Hlt]. pose proof (ord_length Hord d) as Hlen.
  split; [intros i Hi; apply root_pow; lia|]. split; [|split].
  - intros i j Hi Hj E. apply root_inj in E; [|apply Hlt, nth_In; lia | apply Hlt, nth_In; lia].
    apply (proj1 (NoDup_nth (ord d) 0) HN); lia.
  - intros [l E]. unfold phase. apply root_neq_1. rewrite E in HN, Hlt, Hlen |- *. rewrite app_length in Hlen. simpl in Hlen.
    destruct l as [|k l]; [simpl in Hlen; lia|]. simpl in *. split; [|apply Hlt; left; reflexivity].
    apply NoDup_cons_iff in HN as [HN _]. destruct k; [|lia]. exfalso. apply HN. apply in_or_app. right. left. reflexivity.
  - intros B dims levels out ty ks prog r HB Hl Hw Ha Hr Er go z.
    assert (Hv : valid dims (start dims levels)) by apply Hl.
    exists (answer dims (final dims prog (basis (Cscalar ord) (start dims levels)))).
    assert (G : forall n, go (ks ++ repeat z n) = Ok (report ty OutAmplitude (answer dims (final dims (repeat (GZ r) n)
                  (final dims prog (basis (Cscalar ord) (start dims levels))))))).
    { intros n. rewrite <- final_app.
      exact (C01_run_applies_gates_in_order _ (Cscalar_laws Hord) B dims levels out ty OutAmplitude _ _ HB Hl Hw
               (asks_app ord dims _ _ _ _ Ha (asks_z ord dims r n Hr))). }
    pose proof (G 0) as G0. cbn [repeat] in G0. rewrite app_nil_r in G0. split; [exact G0|]. split.
    + etransitivity; [exact (G 1)|]. do 2 f_equal. rewrite <- Er.
      apply (answer_phase ord Hord) with (f := fun s => phase ord (nth r dims 0) (level s r)).
      * intros s. apply root_neq_0.
      * intros s Hs. cbn [repeat final]. apply (apply_z ord Hord); assumption.
    + rewrite (G d), G0. do 2 f_equal. apply answer_ext. intros s Hs. rewrite (z_repeat ord Hord) by assumption. cbn [final].
      rewrite Er. unfold phase. rewrite root_pow by lia. apply C_ext; simpl; ring.
Qed.

(** ** C27 *)
Theorem C27_total_probability_is_one :
  forall ord, orders ord -> one_last ord 2 -> one_last ord 3 ->
  forall (B : backend (Cscalar ord)) dims levels out ty ks prog,
  supported B -> line dims levels -> wants dims out ty OutAmplitude -> asks dims ks prog ->
  (forall g, In g prog -> exact dims g) ->
  exists l, simulate B (QList (map Z.of_nat dims)) (Some (map Z.of_nat levels)) out ks = Ok l /\ prob_sum l = 1%R.
Proof.
  intros ord Hord H2 H3 B dims levels out ty ks prog HB Hl Hw Ha He.
  eexists. split; [exact (C01_run_applies_gates_in_order _ (Cscalar_laws Hord) B dims levels out ty OutAmplitude ks prog HB Hl Hw Ha)|].
  rewrite (@prob_norm ord Hord), (final_norm (Cscalar_laws Hord)); [|apply Cconj_add | apply Cconj_mul |].
  - rewrite (norm_basis (Cscalar_laws Hord)) by apply Hl. reflexivity.
  - intros g Hg. apply (exact_isometry ord Hord); [exact H2 | exact H3 | apply Hl | | apply He; exact Hg].
    destruct Ha as [_ Ha]. rewrite Forall_forall in Ha. apply Ha. exact Hg.
Qed.

(** ** C28: the number reported for a real amplitude is its squared modulus, but
    z on a qutrit yields a number that is not real. *)
Theorem C28_reported_number_need_not_be_real :
  forall ord, orders ord -> forall B : backend (Cscalar ord), supported B ->
  (forall a : C, Cim a = 0%R -> reported (S := Cscalar ord) OutProbability a = (prob a, 0%R)) /\
  exists x a, x < 3 /\
    simulate B (QList [3%Z]) (Some [Z.of_nat x]) (Some {| o_base := [3%Z]; o_type := OutPrint; o_method := OutProbability |}) [CZ 0 None]
    = Ok [(shown OutPrint [x], a)] /\ Cim a <> 0%R.
Proof.
  intros ord Hord B HB. split.
  { intros a Ha. unfold prob, Cre, Cim in *. apply C_ext; simpl; rewrite Ha; ring. }
  assert (Hin : In 1 (ord 3)) by (apply (Permutation_in _ (Permutation_sym (Hord 3))); simpl; auto).
  apply (In_nth _ _ 0) in Hin as [x [Hx Ex]]. rewrite (ord_length Hord) in Hx.
  assert (Hv : valid [3] [x]) by (constructor; [exact Hx | constructor]).
  assert (Hl : line [3] [x]) by (split; [discriminate|]; split; [intros d [<-|[]]; lia|]; split; [simpl; lia | exact Hv]).
  exists x, (Cmul (root 3 1) (root 3 1)). split; [exact Hx|]. split.
  - etransitivity; [exact (C01_run_applies_gates_in_order _ (Cscalar_laws Hord) B [3] [x] _ OutPrint OutProbability _ _ HB Hl
                             (or_introl eq_refl) (asks_z ord [3] 0 1 ltac:(simpl; lia)))|].
    rewrite (@answer_phase ord Hord [3] (fun s => phase ord 3 (level s 0)) (basis (Cscalar ord) [x])).
    + rewrite (answer_basis (Cscalar_laws Hord)) by exact Hv. cbn [map report reported level nth]. unfold phase. rewrite Ex.
      do 3 f_equal. apply C_ext; simpl; ring.
    + intros s. apply root_neq_0.
    + intros s Hs. cbn [repeat final]. apply (apply_z ord Hord); [exact Hs | simpl; lia].
  - rewrite root_3_1. unfold Cim. simpl. pose proof (sqrt_lt_R0 3 ltac:(lra)). lra.
Qed.

(** ** Concrete cases: the order numpy uses for small degrees, a qutrit next to
    a qubit. *)
Definition np_ord (d : nat) : list nat :=
  match d with
  | 0 => []
  | 4 => [2; 1; 3; 0]
  | S d' => seq 1 d' ++ [0]
  end.

Lemma np_ord_orders : orders np_ord.
Proof.
  intros d. assert (G : forall n, Permutation (seq 1 n ++ [0]) (seq 0 (S n))) by (intros n; apply Permutation_sym, Permutation_cons_append).
  destruct d as [|[|[|[|[|d]]]]]; try apply G; [constructor|]. simpl.
  apply NoDup_Permutation; [repeat constructor; simpl; intuition discriminate | repeat constructor; simpl; intuition discriminate|].
  intros x. simpl. tauto.
Qed.
Lemma np_ord_last : forall d, 1 <= d -> one_last np_ord d.
Proof.
  intros d Hd. destruct d as [|[|[|[|[|d]]]]]; [lia | exists [] | exists [1] | exists [1; 2] | exists [2; 1; 3] | exists (seq 1 (4 + d))]; reflexivity.
Qed.

Example C23_case :
  simulate (NumpyBackend (Cscalar np_ord)) (QList [3; 2]%Z) (Some [0; 1]%Z) None [CH 0 None]
  = Ok [(shown OutPrint [0; 1], (/ sqrt (INR 3), 0)%R); (shown OutPrint [1; 1], (/ sqrt (INR 3), 0)%R);
        (shown OutPrint [2; 1], (/ sqrt (INR 3), 0)%R)] /\
  simulate (NumpyBackend (Cscalar np_ord)) (QList [3; 2]%Z) (Some [0; 1]%Z) None [CH 0 None; CH 0 None]
  = Ok [(shown OutPrint [0; 1], C1)].
Proof.
  assert (Hl : line [3; 2] [0; 1]).
  { split; [discriminate|]. split; [intros d [<-|[<-|[]]]; lia|]. split; [simpl; lia | repeat constructor]. }
  split.
  - exact (C23_h_on_level_zero_is_uniform np_ord np_ord_orders _ [3; 2] [0; 1] None OutPrint 0 (or_introl eq_refl) Hl
             (or_intror (conj eq_refl (conj eq_refl eq_refl))) ltac:(simpl; lia) eq_refl).
  - exact (C23_h_twice_restores_level_zero np_ord np_ord_orders _ [3; 2] [0; 1] None OutPrint 0 (or_introl eq_refl) Hl
             (or_intror (conj eq_refl (conj eq_refl eq_refl))) ltac:(simpl; lia) (np_ord_last 3 ltac:(lia)) eq_refl).
Qed.

(** A program with every kind of exact gate, including an arbitrary matrix. *)
Example C27_case :
  let flip : mat (Cscalar np_ord) := {| mr := 2; mc := 2; md := [[C0; C1]; [C1; C0]] : list (list (Cscalar np_ord)) |} in
  exists l, simulate (SparseBackend (Cscalar np_ord)) (QList [3; 2]%Z) (Some [1]%Z) None
    [CH 0 None; CCX [0; 1]%Z 1; CZ 1 None; CH 1 None; CX 0 None 2; CGate flip (RInt 1) None] = Ok l /\ prob_sum l = 1%R.
Proof.
  intros flip.
  assert (Hl : line [3; 2] [1]).
  { split; [discriminate|]. split; [intros d [<-|[<-|[]]]; lia|]. split; [simpl; lia | repeat constructor]. }
  set (u := (fun i j => if Nat.eqb (i + j) 1 then C1 else C0) : nat -> nat -> Cscalar np_ord).
  apply (C27_total_probability_is_one np_ord np_ord_orders (np_ord_last 2 ltac:(lia)) (np_ord_last 3 ltac:(lia))
           _ [3; 2] [1] None OutPrint _ [GH 0; GCX 0 1 1; GZ 1; GH 1; GX 0 2; GU (S := Cscalar np_ord) 1 u] (or_intror eq_refl) Hl
           (or_intror (conj eq_refl (conj eq_refl eq_refl)))).
  - split.
    + constructor; [apply (@den_h _ [3; 2] 0); left; reflexivity|]. constructor; [apply (@den_cx _ [3; 2] 0 1)|].
      constructor; [apply (@den_z _ [3; 2] 1); left; reflexivity|]. constructor; [apply (@den_h _ [3; 2] 1); left; reflexivity|].
      constructor; [apply (@den_x _ [3; 2] 0); left; reflexivity|]. constructor; [|constructor].
      apply (@den_u _ [3; 2] 1); [left; reflexivity | reflexivity | reflexivity|].
      intros i j Hi Hj. simpl in Hi, Hj. destruct i as [|[|i]]; try lia; destruct j as [|[|j]]; try lia; reflexivity.
    + repeat constructor; simpl; try lia. intros i j Hi Hj. simpl in Hi, Hj.
      destruct Hi as [<-|[<-|[]]]; destruct Hj as [<-|[<-|[]]]; simpl; unfold u; simpl;
      match goal with |- Cclose ?x ?y = true => replace y with x by (apply C_ext; simpl; ring); apply Cclose_refl end.
  - intros g Hg. destruct Hg as [<-|[<-|[<-|[<-|[<-|[<-|[]]]]]]]; simpl; auto.
    intros i j Hi Hj. simpl in Hi, Hj.
    destruct Hi as [<-|[<-|[]]]; destruct Hj as [<-|[<-|[]]]; simpl; unfold u; simpl; apply C_ext; simpl; ring.
Qed.

Print Assumptions C23_h_on_level_zero_is_uniform.
Print Assumptions C23_h_twice_restores_level_zero.
Print Assumptions C24_h_is_the_fourier_transform.
Print Assumptions C24_h_is_unitary.
Print Assumptions C25_h_is_not_unitary_on_ququarts.
Print Assumptions C25_probabilities_do_not_add_up.
Print Assumptions C26_z_multiplies_by_distinct_roots.
Print Assumptions C27_total_probability_is_one.
Print Assumptions C28_reported_number_need_not_be_real.
