(** * Props_Grover: Grover's search on any number of qubits (C120). *)
From Coq Require Import Reals Lra String Permutation.
From Verif Require Import Py Scalar Mat Utils Gates Circuit Spec Calls Complex ComplexSpec ComplexLib Lib Refine Run Reversible Moved Local Labels ComplexGates ComplexRun Unitary
  Product Algo Jozsa Grover GroverAngle GroverRun Props_Run Props_Complex Props_Bench Props_Jozsa.
Local Notation length := List.length.
Open Scope list_scope.
Open Scope nat_scope.

(** h on the first [m] registers. *)
Definition first_h ord (m : nat) : list (call (Cscalar ord)) := map (fun r => CH (Z.of_nat r) None) (seq 0 m).

(** Calls that turn register [n] over where [f] holds of the registers before it. *)
Definition turns_over ord (n : nat) (ks : list (call (Cscalar ord))) (f : config -> bool) : Prop :=
  exists prog, asks (repeat 2 (n + 1)) ks prog /\ (forall g, In g prog -> reversible g) /\
    forall t, valid (repeat 2 (n + 1)) t ->
      moves (repeat 2 (n + 1)) prog t = put t n (if f (firstn n t) then 1 - level t n else level t n).

(** The search: h gates on n + 1 qubits, the last of which starts at 1, then [k]
    rounds, then an h on the last qubit. *)
Definition search ord (B : backend (Cscalar ord)) (n : nat) (oracle test : list (call (Cscalar ord))) (k : nat) out :=
  simulate B (QList (map Z.of_nat (repeat 2 (n + 1)))) (Some (map Z.of_nat (repeat 0 n ++ [1]))) out
    (first_h ord (n + 1) ++ concat (repeat (oracle ++ first_h ord n ++ test ++ first_h ord n) k) ++ [CH (Z.of_nat n) None]).

Lemma asks_first_h : forall ord N m, m <= N -> asks (S := Cscalar ord) (repeat 2 N) (first_h ord m) (map (fun r => GH r) (seq 0 m)).
Proof.
  intros ord N m H. split.
  - unfold first_h. induction (seq 0 m) as [|i l IH]; simpl; constructor; [apply (@den_h _ (repeat 2 N) i None); left; reflexivity | exact IH].
  - apply Forall_forall. intros g Hg. apply in_map_iff in Hg as [i [<- Hi]]. apply in_seq in Hi. simpl. rewrite repeat_length. lia.
Qed.
Lemma asks_repeat : forall ord dims ks prog k, asks (S := Cscalar ord) dims ks prog -> asks dims (concat (repeat ks k)) (concat (repeat prog k)).
Proof.
  intros ord dims ks prog k H. induction k as [|k IH]; [split; constructor|]. cbn [repeat concat]. apply asks_app; assumption.
Qed.

Lemma search_answer : forall ord, orders ord -> one_last ord 2 -> forall (B : backend (Cscalar ord)) n f oracle test out ty k th,
  supported B -> wants (repeat 2 (n + 1)) out ty OutAmplitude ->
  turns_over ord n oracle f -> turns_over ord n test (forallb (Nat.eqb 0)) ->
  (0 < th < PI / 2)%R -> (sin th ^ 2 = INR (satisfying n f) / 2 ^ n)%R ->
  exists psi : config -> Cscalar ord, search ord B n oracle test k out = Ok (report ty OutAmplitude (answer (repeat 2 (n + 1)) psi)) /\
    forall x b, valid (repeat 2 n) x -> b < 2 -> psi (x ++ [b]) = if b =? 1 then (value n (satisfying n f) k th (f x), 0%R) else C0.
Proof.
  intros ord Hord H1 B n f oracle test out ty k th HB Hw [op [Ao [Ro Mo]]] [tp [At [Rt Mt]]] Hth Hm.
  set (dims := repeat 2 (n + 1)) in *. set (s := repeat 0 n ++ [1]).
  assert (Vs : valid dims s) by apply start_valid.
  assert (Hs : start dims s = s) by (unfold start; rewrite (valid_length Vs), Nat.sub_diag; apply app_nil_r).
  assert (HL : line dims s).
  { unfold line. rewrite Hs. split; [unfold dims; rewrite Nat.add_comm; discriminate|].
    split; [intros d Hd; apply repeat_spec in Hd; lia|]. split; [rewrite (valid_length Vs); lia | exact Vs]. }
  assert (A : asks (S := Cscalar ord) dims (first_h ord (n + 1) ++ concat (repeat (oracle ++ first_h ord n ++ test ++ first_h ord n) k) ++ [CH (Z.of_nat n) None])
    (map (fun r => GH r) (seq 0 (n + 1)) ++ rounds n op tp k ++ [GH n])).
  { assert (X1 : asks (S := Cscalar ord) dims (first_h ord (n + 1)) (map (fun r => GH r) (seq 0 (n + 1)))) by (apply asks_first_h; lia).
    assert (X2 : asks (S := Cscalar ord) dims (first_h ord n) (map (fun r => GH r) (seq 0 n))) by (apply asks_first_h; lia).
    apply asks_app; [exact X1|]. apply asks_app.
    - apply asks_repeat. unfold round. repeat apply asks_app; assumption.
    - apply (@asks_h ord dims n 1). unfold dims. rewrite repeat_length. lia. }
  pose proof (C01_run_applies_gates_in_order _ (Cscalar_laws Hord) B dims s out ty OutAmplitude _ _ HB HL Hw A) as R. rewrite Hs in R.
  eexists. split; [exact R|]. intros x b Hx Hb.
  pose proof (root_fact ord Hord H1) as F1. pose proof (scale_fact ord) as F2.
  etransitivity; [exact (@grover_state _ (Cscalar_laws Hord) F1 F2 n f op tp (proj2 Ao) Ro Mo (proj2 At) Rt Mt k x b Hx Hb)|].
  destruct (b =? 1); [|reflexivity]. apply grover_amplitude; assumption.
Qed.

(** ** C120: after [k] rounds the amplitudes of the inputs are sines and cosines of
    the angle (2k + 1) th, where the square of sin th is the share of the inputs
    satisfying [f]; up to the sign (-1)^k. *)
Theorem C120_grover_search :
  forall ord, orders ord -> one_last ord 2 -> forall (B : backend (Cscalar ord)) n f oracle test out ty k th,
  supported B -> wants (repeat 2 (n + 1)) out ty OutAmplitude ->
  turns_over ord n oracle f -> turns_over ord n test (forallb (Nat.eqb 0)) ->
  let m := satisfying n f in
  (0 < th < PI / 2)%R -> (sin th ^ 2 = INR m / 2 ^ n)%R ->
  exists l, search ord B n oracle test k out = Ok l /\
    (forall e, In e l -> exists x, valid (repeat 2 n) x /\ fst e = shown ty (x ++ [1])) /\
    (forall x a, valid (repeat 2 n) x ->
       (In (shown ty (x ++ [1]), a) l <-> a <> C0 /\
          a = ((-1) ^ k * (if f x then sin ((2 * INR k + 1) * th) / sqrt (INR m)
                           else cos ((2 * INR k + 1) * th) / sqrt (2 ^ n - INR m)), 0)%R)).
Proof.
  intros ord Hord H1 B n f oracle test out ty k th HB Hw Ho Ht m Hth Hm.
  destruct (search_answer ord Hord H1 B n f oracle test out ty k th HB Hw Ho Ht Hth Hm) as [psi [R P]].
  assert (V : forall x b, valid (repeat 2 n) x -> b < 2 -> valid (repeat 2 (n + 1)) (x ++ [b])).
  { intros x b Hx Hb. rewrite repeat_app. apply valid_app; [exact Hx | constructor; [exact Hb | constructor]]. }
  eexists. split; [exact R|]. split.
  - intros e He. unfold report, answer in He. rewrite map_map in He. apply in_map_iff in He as [t [<- Hin]]. apply filter_In in Hin as [Hin N0].
    apply in_all_configs in Hin. destruct (@split_last n t Hin) as [x [b [-> [Hx Hb]]]]. exists x. split; [exact Hx|].
    rewrite (P x b Hx Hb) in N0. destruct (bit Hb) as [-> | ->]; [|reflexivity]. exfalso. cbn [Nat.eqb] in N0.
    change (negb (Ceqb C0 C0) = true) in N0. rewrite (proj2 (Ceqb_eq C0 C0) eq_refl) in N0. discriminate.
  - intros x a Hx. fold (angle k th). fold (value n m k th (f x)). pose proof (P x 1 Hx ltac:(lia)) as E. cbn [Nat.eqb] in E. fold m in E. rewrite <- E.
    unfold report, answer. rewrite map_map, in_map_iff. split.
    + intros [t [X Hin]]. cbn [reported] in X. injection X as X <-. apply filter_In in Hin as [Hin N0]. apply in_all_configs in Hin.
      apply (@shown_inj ty (repeat 2 (n + 1))) in X; [subst t | intros d Hd; apply repeat_spec in Hd; lia | exact Hin | apply V; [exact Hx | lia]].
      split; [|reflexivity]. intros X. change (negb (Ceqb (psi (x ++ [1])) C0) = true) in N0. rewrite (proj2 (Ceqb_eq _ _) X) in N0. discriminate.
    + intros [N0 ->]. exists (x ++ [1]). split; [reflexivity|]. apply filter_In. split; [apply in_all_configs, V; [exact Hx | lia]|].
      change (seqb (psi (x ++ [1])) s0) with (Ceqb (psi (x ++ [1])) C0). destruct (Ceqb (psi (x ++ [1])) C0) eqn:X; [|reflexivity].
      exfalso. apply N0, Ceqb_eq, X.
Qed.

Lemma answer_parts : forall ord dims (P : config -> bool) (psi : config -> Cscalar ord),
  Permutation (answer dims psi) (answer dims (fun s => if P s then psi s else s0) ++ answer dims (fun s => if P s then s0 else psi s)).
Proof.
  intros ord dims P psi. unfold answer. induction (all_configs dims) as [|s l IH]; [constructor|].
  assert (Z : seqb (s0 : Cscalar ord) s0 = true) by (apply Ceqb_eq; reflexivity).
  cbn [filter]. destruct (P s) eqn:E; rewrite ?Z; cbn [negb]; destruct (seqb (psi s) s0) eqn:X; cbn [negb map app]; rewrite ?E; try exact IH.
  - constructor. exact IH.
  - apply Permutation_cons_app. exact IH.
Qed.

(** The outcomes satisfying [f] have together the probability sin^2, the others cos^2. *)
Theorem C120_probability_of_success :
  forall ord, orders ord -> one_last ord 2 -> forall (B : backend (Cscalar ord)) n f oracle test out ty k th,
  supported B -> wants (repeat 2 (n + 1)) out ty OutAmplitude ->
  turns_over ord n oracle f -> turns_over ord n test (forallb (Nat.eqb 0)) ->
  (0 < th < PI / 2)%R -> (sin th ^ 2 = INR (satisfying n f) / 2 ^ n)%R ->
  exists l hits misses, search ord B n oracle test k out = Ok l /\ Permutation l (hits ++ misses) /\
    (forall e, In e hits -> exists x, valid (repeat 2 n) x /\ f x = true /\ fst e = shown ty (x ++ [1])) /\
    (forall e, In e misses -> exists x, valid (repeat 2 n) x /\ f x = false /\ fst e = shown ty (x ++ [1])) /\
    prob_sum hits = (sin ((2 * INR k + 1) * th) ^ 2)%R /\ prob_sum misses = (cos ((2 * INR k + 1) * th) ^ 2)%R.
Proof.
  intros ord Hord H1 B n f oracle test out ty k th HB Hw Ho Ht Hth Hm.
  destruct (search_answer ord Hord H1 B n f oracle test out ty k th HB Hw Ho Ht Hth Hm) as [psi [R P]].
  set (m := satisfying n f) in *. set (dims := repeat 2 (n + 1)) in *.
  set (part := fun (c : bool) (s : config) => if Bool.eqb (f (firstn n s)) c then psi s else s0 : Cscalar ord).
  assert (Mem : forall c e, In e (report ty OutAmplitude (answer dims (part c))) -> exists x, valid (repeat 2 n) x /\ f x = c /\ fst e = shown ty (x ++ [1])).
  { intros c e He. unfold report, answer in He. rewrite map_map in He. apply in_map_iff in He as [t [<- Hin]]. apply filter_In in Hin as [Hin N0].
    apply in_all_configs in Hin. destruct (@split_last n t Hin) as [x [b [-> [Hx Hb]]]]. exists x. split; [exact Hx|].
    assert (Lx : length x = n) by (rewrite (valid_length Hx); apply repeat_length). unfold part in N0. rewrite firstn_app, <- Lx, Nat.sub_diag, firstn_all in N0. cbn [firstn] in N0. rewrite app_nil_r in N0.
    destruct (Bool.eqb (f x) c) eqn:Fc; [apply Bool.eqb_prop in Fc; split; [exact Fc|] |].
    - rewrite (P x b Hx Hb) in N0. destruct (bit Hb) as [-> | ->]; [|reflexivity]. exfalso. cbn [Nat.eqb] in N0.
      change (negb (Ceqb C0 C0) = true) in N0. rewrite (proj2 (Ceqb_eq C0 C0) eq_refl) in N0. discriminate.
    - exfalso. change (negb (Ceqb C0 C0) = true) in N0. rewrite (proj2 (Ceqb_eq C0 C0) eq_refl) in N0. discriminate. }
  assert (Sum : forall c, prob_sum (report ty OutAmplitude (answer dims (part c)))
    = ((if c then INR m else 2 ^ n - INR m) * (value n m k th c * value n m k th c))%R).
  { intros c. rewrite (prob_norm ord Hord). unfold norm, dims. replace (all_configs (repeat 2 (n + 1))) with (all_configs (repeat 2 n ++ [2])) by (rewrite repeat_app; reflexivity).
    rewrite (bsum_configs_app (Cscalar_laws Hord)).
    rewrite (bsum_ext (Cscalar ord) _ (fun x => if f x then ((if c then value n m k th c * value n m k th c else 0)%R, 0%R) else ((if c then 0 else value n m k th c * value n m k th c)%R, 0%R)) _).
    - rewrite two_sum. fold (satisfying n f). fold m. rewrite all_configs_length, prod_twos, pow_INR. replace (INR 2) with 2%R by reflexivity. unfold Cre. cbn [fst]. destruct c; ring.
    - intros x Hx. apply in_all_configs in Hx. assert (Lx : length x = n) by (rewrite (valid_length Hx); apply repeat_length).
      cbn [all_configs seq flat_map map app]. unfold bsum. cbn [fold_right]. unfold part. rewrite !firstn_app, <- Lx, Nat.sub_diag, firstn_all. cbn [firstn]. rewrite app_nil_r.
      rewrite !P by (try exact Hx; lia). cbn [Nat.eqb]. rewrite Lx. fold m.
      destruct (f x), c; cbn [Bool.eqb]; apply C_ext; simpl; ring. }
  exists (report ty OutAmplitude (answer dims psi)), (report ty OutAmplitude (answer dims (part true))), (report ty OutAmplitude (answer dims (part false))).
  split; [exact R|]. split.
  { unfold report. rewrite <- map_app. apply Permutation_map. pose proof (answer_parts ord dims (fun s => f (firstn n s)) psi) as Q.
    replace (answer dims (part true)) with (answer dims (fun s => if f (firstn n s) then psi s else s0)) by (apply answer_ext; intros s _; unfold part; destruct (f (firstn n s)); reflexivity).
    replace (answer dims (part false)) with (answer dims (fun s => if f (firstn n s) then s0 else psi s)) by (apply answer_ext; intros s _; unfold part; destruct (f (firstn n s)); reflexivity).
    exact Q. }
  split; [exact (Mem true)|]. split; [exact (Mem false)|]. rewrite !Sum. unfold value. fold (angle k th).
  assert (N1 : ((-1) ^ k * (-1) ^ k = 1)%R) by (rewrite <- Rpow_mult_distr; replace (-1 * -1)%R with 1%R by ring; apply pow1).
  pose proof (@sin_pos th Hth) as S1. pose proof (@cos_pos th Hth) as S2. pose proof (@sqN_pos n) as S3. pose proof (@N_pos n) as S4.
  pose proof (@sq_m n m th Hth Hm) as Q1. pose proof (@sq_rest n m th Hth Hm) as Q2. pose proof (@m_val n m th Hm) as Q3.
  assert (T1 : (0 < INR m)%R) by (rewrite Q3; apply Rmult_lt_0_compat; [nra | exact S4]).
  assert (T2 : (0 < 2 ^ n - INR m)%R) by (pose proof (sin2_cos2 th) as E; unfold Rsqr in E; rewrite Q3; replace (2 ^ n - sin th * sin th * 2 ^ n)%R with (cos th * cos th * 2 ^ n)%R by (replace (cos th * cos th)%R with (1 - sin th * sin th)%R by lra; ring); apply Rmult_lt_0_compat; [nra | exact S4]).
  pose proof (sqrt_lt_R0 _ T1) as U1. pose proof (sqrt_lt_R0 _ T2) as U2. pose proof (sqrt_sqrt (INR m) ltac:(lra)) as W1. pose proof (sqrt_sqrt (2 ^ n - INR m) ltac:(lra)) as W2.
  split.
  - rewrite <- W1 at 1. transitivity ((-1) ^ k * (-1) ^ k * sin (angle k th) ^ 2)%R; [field; lra | rewrite N1; ring].
  - rewrite <- W2 at 1. transitivity ((-1) ^ k * (-1) ^ k * cos (angle k th) ^ 2)%R; [field; lra | rewrite N1; ring].
Qed.

Lemma good_rounds : forall n m, 0 < m < 2 ^ n ->
  exists th k, (0 < th < PI / 2)%R /\ (sin th ^ 2 = INR m / 2 ^ n)%R /\ (INR k <= PI / 4 * sqrt (2 ^ n / INR m))%R /\
    (1 - INR m / 2 ^ n <= sin ((2 * INR k + 1) * th) ^ 2)%R.
Proof.
  intros n m [M0 M1].
  assert (P0 : (0 < INR m)%R) by (apply lt_0_INR; exact M0).
  assert (P1 : (INR m < 2 ^ n)%R) by (apply lt_INR in M1; rewrite pow_INR in M1; exact M1).
  set (r := (INR m / 2 ^ n)%R). assert (Rr : (0 < r < 1)%R).
  { unfold r. split; [apply Rdiv_lt_0_compat; lra|]. apply Rmult_lt_reg_r with (2 ^ n)%R; [lra|]. unfold Rdiv. rewrite Rmult_assoc, Rinv_l by lra. lra. }
  assert (Sr : (0 < sqrt r < 1)%R) by (split; [apply sqrt_lt_R0; lra | rewrite <- sqrt_1; apply sqrt_lt_1; lra]).
  assert (T : exists th, (0 < th < PI / 2)%R /\ sin th = sqrt r).
  { pose proof PI_RGT_0. assert (C : continuity (sin - fct_cte (sqrt r))%F) by (apply continuity_minus; [exact continuity_sin | apply continuity_const; intros x y; reflexivity]).
    destruct (IVT_cor _ 0 (PI / 2) C) as [th [[T1 T2] T3]]; unfold minus_fct, fct_cte in *; [lra | rewrite sin_0, sin_PI2; nra |].
    exists th. assert (Es : sin th = sqrt r) by lra. split; [|exact Es].
    split; [destruct T1 as [T1 | T1]; [exact T1 | rewrite <- T1, sin_0 in Es; lra] | destruct T2 as [T2 | T2]; [exact T2 | rewrite T2, sin_PI2 in Es; lra]]. }
  destruct T as [th [Hth Es]].
  assert (Hm : (sin th ^ 2 = r)%R) by (rewrite Es; simpl; rewrite Rmult_1_r; apply sqrt_sqrt; lra).
  destruct (best_rounds Hth) as [k [K1 K2]]. exists th, k. split; [exact Hth|]. split; [exact Hm|]. split.
  - eapply Rle_trans; [exact K1|]. unfold Rdiv at 1. apply Rmult_le_compat_l; [pose proof PI_RGT_0; lra|].
    replace (2 ^ n / INR m)%R with (/ r)%R by (unfold r; field; lra).
    replace (sqrt (/ r)) with (/ sqrt r)%R by (symmetry; apply inv_sqrt_depr || apply sqrt_inv; lra).
    apply Rinv_le_contravar; [lra|]. rewrite <- Es. apply sin_below. exact Hth.
  - fold (angle k th). replace (1 - r)%R with (cos th ^ 2)%R; [exact (near_quarter _ Hth K2)|].
    pose proof (sin2_cos2 th) as E. unfold Rsqr in E. simpl in *. lra.
Qed.

(** At most pi/4 sqrt(2^n / m) rounds make the probability of success at least 1 - m / 2^n. *)
Theorem C120_enough_rounds :
  forall ord, orders ord -> one_last ord 2 -> forall (B : backend (Cscalar ord)) n f oracle test out ty,
  supported B -> wants (repeat 2 (n + 1)) out ty OutAmplitude ->
  turns_over ord n oracle f -> turns_over ord n test (forallb (Nat.eqb 0)) ->
  let m := satisfying n f in
  0 < m < 2 ^ n ->
  exists k l hits misses, (INR k <= PI / 4 * sqrt (2 ^ n / INR m))%R /\
    search ord B n oracle test k out = Ok l /\ Permutation l (hits ++ misses) /\
    (forall e, In e hits -> exists x, valid (repeat 2 n) x /\ f x = true /\ fst e = shown ty (x ++ [1])) /\
    (1 - INR m / 2 ^ n <= prob_sum hits)%R.
Proof.
  intros ord Hord H1 B n f oracle test out ty HB Hw Ho Ht m M.
  destruct (good_rounds n m M) as [th [k [Hth [Hm [K G]]]]].
  destruct (C120_probability_of_success ord Hord H1 B n f oracle test out ty k th HB Hw Ho Ht Hth Hm) as [l [hits [misses [R [Pm [Ph [_ [Sh _]]]]]]]].
  exists k, l, hits, misses. rewrite Sh. auto.
Qed.

(** ** Looking for one bit pattern: x gates around a toffoli with [n] controls. *)
Definition marks ord (n : nat) (w : config) : list (call (Cscalar ord)) :=
  let around := map (fun r => CX (Z.of_nat r) None 1%Z) (filter (fun r => level w r =? 0) (seq 0 n)) in
  around ++ [CTof (map Z.of_nat (seq 0 n)) (Z.of_nat n) 1%Z] ++ around.

Lemma marks_turn : forall ord n w, 2 <= n -> valid (repeat 2 n) w -> turns_over ord n (marks ord n w) (config_eqb w).
Proof.
  intros ord n w Hn Hw. exists (recognise (Cscalar ord) n w). split; [|split].
  - split; [|apply recognise_ok; exact Hn]. unfold marks, recognise.
    assert (X : forall l, Forall2 (denotes (repeat 2 (n + 1))) (map (fun r => CX (S := Cscalar ord) (Z.of_nat r) None 1%Z) l) (xs (Cscalar ord) l)).
    { induction l as [|r l IH]; constructor; [apply den_x; left; reflexivity | exact IH]. }
    apply Forall2_app; [apply X|]. apply Forall2_app; [constructor; [apply den_tof | constructor] | apply X].
  - apply recognise_reversible.
  - intros t Ht. apply recognise_moves; assumption.
Qed.

Lemma turns_over_ext : forall ord n ks f g, (forall x, valid (repeat 2 n) x -> f x = g x) -> turns_over ord n ks f -> turns_over ord n ks g.
Proof.
  intros ord n ks f g E [prog [A [R M]]]. exists prog. split; [exact A|]. split; [exact R|]. intros t Ht. rewrite (M t Ht).
  destruct (@split_last n t Ht) as [x [b [-> [Hx _]]]]. assert (Lx : length x = n) by (rewrite (valid_length Hx); apply repeat_length).
  rewrite firstn_app, <- Lx, Nat.sub_diag, firstn_all. cbn [firstn]. rewrite app_nil_r, (E x Hx). reflexivity.
Qed.

Lemma one_satisfies : forall n w, valid (repeat 2 n) w -> satisfying n (config_eqb w) = 1.
Proof.
  intros n w Hw. unfold satisfying. apply in_all_configs in Hw. pose proof (all_configs_NoDup (repeat 2 n)) as Nd.
  induction (all_configs (repeat 2 n)) as [|x l IH]; [destruct Hw|]. apply NoDup_cons_iff in Nd as [Nx Nd]. cbn [filter].
  destruct (config_eqb w x) eqn:E.
  - apply config_eqb_eq in E. subst x. cbn [length]. f_equal. clear -Nx. induction l as [|y l IH]; [reflexivity|]. cbn [filter].
    rewrite (proj2 (config_eqb_neq w y)) by (intros ->; apply Nx; left; reflexivity). apply IH. intros H. apply Nx. right. exact H.
  - destruct Hw as [-> | Hw]; [rewrite config_eqb_refl in E; discriminate | exact (IH Hw Nd)].
Qed.

(** A pattern [w] of [n] >= 2 bits is found with probability at least 1 - 1/2^n
    after at most pi/4 sqrt(2^n) rounds. *)
Theorem C120_a_pattern_is_found :
  forall ord, orders ord -> one_last ord 2 -> forall (B : backend (Cscalar ord)) n w out ty,
  2 <= n -> valid (repeat 2 n) w -> supported B -> wants (repeat 2 (n + 1)) out ty OutAmplitude ->
  exists k l a, (INR k <= PI / 4 * sqrt (2 ^ n))%R /\
    search ord B n (marks ord n w) (marks ord n (repeat 0 n)) k out = Ok l /\
    In (shown ty (w ++ [1]), a) l /\ (1 - / 2 ^ n <= prob a)%R.
Proof.
  intros ord Hord H1 B n w out ty Hn Hw HB Hwt.
  assert (Pn : 1 < 2 ^ n) by (apply Nat.pow_gt_1; lia).
  assert (Pr : (1 < 2 ^ n)%R) by (apply lt_INR in Pn; rewrite pow_INR in Pn; exact Pn).
  assert (Ht : turns_over ord n (marks ord n (repeat 0 n)) (forallb (Nat.eqb 0))).
  { apply (turns_over_ext ord n _ (config_eqb (repeat 0 n))); [|apply marks_turn; [exact Hn | apply zero_valid]].
    intros x Hx. symmetry. apply (zeros_repeat n Hx). }
  destruct (good_rounds n 1 ltac:(lia)) as [th [k [Hth [Hm [K G]]]]]. cbn [INR] in K, G.
  replace (2 ^ n / 1)%R with (2 ^ n)%R in K by field. replace (1 / 2 ^ n)%R with (/ 2 ^ n)%R in G by (field; lra).
  assert (Hm' : (sin th ^ 2 = INR (satisfying n (config_eqb w)) / 2 ^ n)%R) by (rewrite one_satisfies by exact Hw; exact Hm).
  destruct (C120_grover_search ord Hord H1 B n (config_eqb w) (marks ord n w) (marks ord n (repeat 0 n)) out ty k th HB Hwt (marks_turn ord n w Hn Hw) Ht Hth Hm')
    as [l [R [_ A]]].
  set (v := sin ((2 * INR k + 1) * th)%R) in *. exists k, l, ((-1) ^ k * v, 0)%R. split; [exact K|]. split; [exact R|].
  assert (N1 : ((-1) ^ k * (-1) ^ k = 1)%R) by (rewrite <- Rpow_mult_distr; replace (-1 * -1)%R with 1%R by ring; apply pow1).
  assert (E : (prob ((-1) ^ k * v, 0) = v ^ 2)%R) by (unfold prob, Cre, Cim; cbn [fst snd]; transitivity ((-1) ^ k * (-1) ^ k * v ^ 2)%R; [ring | rewrite N1; ring]).
  split; [|rewrite E; exact G]. apply A; [exact Hw|]. rewrite config_eqb_refl, one_satisfies by exact Hw. cbn [INR]. rewrite sqrt_1. fold v. split; [|apply C_ext; simpl; field].
  intros X. rewrite X in E. unfold prob, C0, Cre, Cim in E. cbn [fst snd] in E. assert (/ 2 ^ n < 1)%R by (rewrite <- Rinv_1; apply Rinv_lt_contravar; lra). lra.
Qed.

(** Two bits, one round: the pattern is the only outcome. *)
Section Examples.
Let S := Cscalar np_ord.
Example ex_C120 :
  exists l, simulate (SparseBackend S) (QList [2; 2; 2]%Z) (Some [0; 0; 1]%Z) None
    ([CH 0 None; CH 1 None; CH 2 None]%Z ++
     [CX 1 None 1; CTof [0; 1] 2 1; CX 1 None 1]%Z ++ [CH 0 None; CH 1 None]%Z ++
     [CX 0 None 1; CX 1 None 1; CTof [0; 1] 2 1; CX 0 None 1; CX 1 None 1]%Z ++ [CH 0 None; CH 1 None]%Z ++ [CH 2 None]%Z) = Ok l /\
    forall e, In e l <-> e = (LStr "|101>"%string, (-1, 0)%R).
Proof.
  assert (HB : supported (SparseBackend S)) by (right; reflexivity).
  assert (Hw : wants [2; 2; 2] None OutPrint OutAmplitude) by (right; auto).
  assert (V : valid (repeat 2 2) [1; 0]) by (repeat constructor).
  assert (Ht : turns_over np_ord 2 (marks np_ord 2 (repeat 0 2)) (forallb (Nat.eqb 0))).
  { apply (turns_over_ext np_ord 2 _ (config_eqb (repeat 0 2))); [|apply marks_turn; [lia | apply zero_valid]].
    intros x Hx. symmetry. apply (zeros_repeat 2 Hx). }
  assert (Hth : (0 < PI / 6 < PI / 2)%R) by (pose proof PI_RGT_0; lra).
  destruct (C120_grover_search np_ord np_ord_orders (np_ord_last 2 ltac:(lia)) (SparseBackend S) 2 (config_eqb [1; 0]) (marks np_ord 2 [1; 0]) (marks np_ord 2 (repeat 0 2)) None OutPrint 1 (PI / 6)
    HB Hw (marks_turn np_ord 2 [1; 0] ltac:(lia) V) Ht Hth) as [l [R [All A]]].
  { rewrite sin_PI6, one_satisfies by exact V. simpl. field. }
  exists l. split; [etransitivity; [|exact R]; unfold search; apply (f_equal2 (fun ks i => simulate (SparseBackend S) (QList [2; 2; 2]%Z) i None ks)); reflexivity|].
  rewrite one_satisfies in A by exact V. cbn [INR] in A. replace ((2 * 1 + 1) * (PI / 6))%R with (PI / 2)%R in A by field. rewrite sin_PI2, cos_PI2, sqrt_1 in A.
  assert (Va : forall x a, valid (repeat 2 2) x -> In (shown OutPrint (x ++ [1]), a) l -> x = [1; 0] /\ a = (-1, 0)%R).
  { intros x a Hx H. apply A in H as [N E]; [|exact Hx]. destruct (config_eqb [1; 0] x) eqn:X.
    - apply config_eqb_eq in X. split; [symmetry; exact X|]. rewrite E. apply C_ext; simpl; field.
    - exfalso. apply N. rewrite E. apply C_ext; simpl; [unfold Rdiv; ring | reflexivity]. }
  intros e. split.
  - intros H. destruct (All e H) as [x [Hx E]]. destruct e as [lab a]. cbn [fst] in E. subst lab. destruct (Va x a Hx H) as [-> ->]. reflexivity.
  - intros ->. change (LStr "|101>") with (shown OutPrint ([1; 0] ++ [1])). apply A; [exact V|]. split; [intros X; injection X as X; lra|].
    rewrite config_eqb_refl. apply C_ext; simpl; field.
Qed.
End Examples.

Print Assumptions C120_grover_search.
Print Assumptions C120_probability_of_success.
Print Assumptions C120_enough_rounds.
Print Assumptions C120_a_pattern_is_found.
