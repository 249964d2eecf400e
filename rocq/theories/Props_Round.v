(** * Property C99: rounding errors stay small. *)
From Coq Require Import Reals Lra Permutation.
From Verif Require Import Py Scalar Mat Utils Gates Circuit Spec Calls Complex ComplexSpec BitSpec RoundArith RoundSpec
  Lib ComplexLib CNorm RoundLib RoundRun RoundThm RoundBound RoundInst.
Set Implicit Arguments.
Local Open Scope R_scope.

(** ** C99 *)
Theorem C99_rounding_errors_stay_small : forall (F : scalar) (val : F -> C) ord u e (B : backend F) ok
    (meant : mat F -> mat (Cscalar ord)) dims levels out ty me ks prog cs,
  orders ord -> rounded F val ord u e -> computes_rounded val u B ok ->
  dims <> [] -> (forall d, In d dims -> 2 <= d)%nat ->
  (length levels <= length dims)%nat -> valid dims (start dims levels) -> wants dims out ty me ->
  Forall2 (fun k g => denotes dims (as_meant meant k) g) ks prog ->
  Forall (gate_ok dims) prog -> Forall2 (gain (ord := ord) dims) prog cs ->
  (forall M q d, In (CGate M q d) ks -> stands_for val u e M (meant M)) ->
  exists psi : config -> F,
    simulate B (QList (map Z.of_nat dims)) (Some (map Z.of_nat levels)) out ks = Ok (report ty me (answer dims psi)) /\
    distance dims (fun s => val (psi s)) (final dims prog (basis (Cscalar ord) (start dims levels)))
      <= bound u e dims (length ks) cs.
Proof.
  intros F val ord u e B ok meant dims levels out ty me ks prog cs Ho RD CR Hne Hd Hl Hv Hw HD Hok HG HM.
  exact (simulate_rounded Ho RD meant CR levels Hne Hd Hl Hv Hw HD Hok HG HM).
Qed.
Print Assumptions C99_rounding_errors_stay_small.

(** ** What is reported *)
Lemma distance_at : forall dims psi phi s, valid dims s -> Cdist (psi s) (phi s) <= distance dims psi phi.
Proof.
  intros dims psi phi s Hs. apply (@len2_in config (fun s => Cdist (psi s) (phi s)) (all_configs dims) s).
  - apply in_all_configs. exact Hs.
  - intros; apply Cdist_pos.
Qed.

(** Every reported number is near the exact one; an outcome whose exact number
    is above the bound is reported. *)
Theorem C99_reported_numbers : forall (F : scalar) (val : F -> C) ord u e (B : backend F) ok
    (meant : mat F -> mat (Cscalar ord)) dims levels out ty me ks prog cs,
  orders ord -> rounded F val ord u e -> computes_rounded val u B ok ->
  dims <> [] -> (forall d, In d dims -> 2 <= d)%nat ->
  (length levels <= length dims)%nat -> valid dims (start dims levels) -> wants dims out ty me ->
  Forall2 (fun k g => denotes dims (as_meant meant k) g) ks prog ->
  Forall (gate_ok dims) prog -> Forall2 (gain (ord := ord) dims) prog cs ->
  (forall M q d, In (CGate M q d) ks -> stands_for val u e M (meant M)) ->
  let exact_number := final dims prog (basis (Cscalar ord) (start dims levels)) in
  exists l : list (config * F),
    simulate B (QList (map Z.of_nat dims)) (Some (map Z.of_nat levels)) out ks = Ok (report ty me l) /\
    NoDup (map fst l) /\
    (forall s a, In (s, a) l -> valid dims s /\ Cdist (val a) (exact_number s) <= bound u e dims (length ks) cs) /\
    (forall s, valid dims s -> bound u e dims (length ks) cs < Cabs (exact_number s) -> exists a, In (s, a) l) /\
    (forall s, valid dims s -> ~ In s (map fst l) -> Cabs (exact_number s) <= bound u e dims (length ks) cs).
Proof.
  intros F val ord u e B ok meant dims levels out ty me ks prog cs Ho RD CR Hne Hd Hl Hv Hw HD Hok HG HM phi.
  destruct (simulate_rounded Ho RD meant CR levels Hne Hd Hl Hv Hw HD Hok HG HM) as [psi [E H]]. fold phi in H.
  set (b := bound u e dims (length ks) cs) in *.
  assert (Hat : forall s, valid dims s -> Cdist (val (psi s)) (phi s) <= b).
  { intros s Hs. eapply Rle_trans; [apply (distance_at (fun s => val (psi s)) phi Hs) | exact H]. }
  assert (Hin : forall s, valid dims s -> In s (map fst (answer dims psi)) \/ val (psi s) = C0).
  { intros s Hs. destruct (seqb (psi s) s0) eqn:Es.
    - right. apply (rd_eqb RD). exact Es.
    - left. unfold answer. rewrite map_map. apply in_map_iff. exists s. split; [reflexivity|]. apply filter_In.
      split; [apply in_all_configs; exact Hs | rewrite Es; reflexivity]. }
  assert (Hz : forall s, valid dims s -> val (psi s) = C0 -> Cabs (phi s) <= b).
  { intros s Hs Es. specialize (Hat s Hs). rewrite Es, Cdist_sym, Cdist_0 in Hat. exact Hat. }
  exists (answer dims psi). split; [exact E|]. split; [|split; [|split]].
  - unfold answer. rewrite map_map. rewrite map_id. apply NoDup_filter, all_configs_NoDup.
  - intros s a Hs. unfold answer in Hs. apply in_map_iff in Hs as [s' [E' Hs]]. injection E' as -> <-.
    apply filter_In in Hs as [Hs _]. apply in_all_configs in Hs. split; [exact Hs | apply Hat; exact Hs].
  - intros s Hs Hb. destruct (Hin s Hs) as [Hi|Hi].
    + apply in_map_iff in Hi as [[s' a] [Es Hi]]. simpl in Es. subst s'. exists a. exact Hi.
    + pose proof (Hz s Hs Hi). lra.
  - intros s Hs Hn. destruct (Hin s Hs) as [Hi|Hi]; [contradiction | apply Hz; assumption].
Qed.
Print Assumptions C99_reported_numbers.

(** ** Sizes of the growth factors *)
(** Gates that are unitary without tolerance do not let errors grow; the
    matrices numpy's test lets pass may, by a little, and a cx with control and
    target on one register by a factor of at most sqrt 2. *)
Theorem C99_growth_factors : forall ord dims, orders ord ->
  (forall g, gate_ok dims g -> exact dims g -> (forall r, g = GH r -> one_last ord (nth r dims 0%nat)) -> gain (ord := ord) dims g 1) /\
  (forall r m, gate_ok dims (GU (S := Cscalar ord) r m) ->
     gain dims (GU r m) (sqrt (1 + 2 / 100000 + 2 / 100000000 * INR (nth r dims 0%nat)))) /\
  (forall r k m, gate_ok dims (GSpan (S := Cscalar ord) r k m) ->
     gain dims (GSpan r k m) (sqrt (1 + 2 / 100000 + 2 / 100000000 * INR (prodn (span dims r k))))) /\
  (forall r p, gain (ord := ord) dims (GCX r r p) (sqrt 2)).
Proof.
  intros ord dims Ho. split; [|split; [|split]].
  - intros g H1 H2 H3. apply exact_gain; assumption.
  - intros r m [_ H]. cbn [gain].
    pose proof (@accepted_stretch nat Nat.eqb seq_eqb ord _ m (seq_NoDup _ _) H) as G. rewrite seq_length in G. exact G.
  - intros r k m [_ [_ H]]. cbn [gain].
    pose proof (@accepted_stretch config config_eqb config_eqb_eq ord _ m (all_configs_NoDup _) H) as G.
    rewrite all_configs_length in G. exact G.
  - intros r p. cbn [gain]. rewrite Nat.eqb_refl. reflexivity.
Qed.
Print Assumptions C99_growth_factors.

(** The size of the bound: linear in the number of gates and in [u]. *)
Theorem C99_size_of_the_bound : forall u e dims m cs, 0 <= u -> 0 <= rprod cs ->
  INR (roundings e dims) * u <= 1 ->
  2 * INR (m + 1) * sqrt (INR (prodn dims)) * INR (roundings e dims) * u <= 1 ->
  bound u e dims m cs <= 4 * INR (m + 1) * INR (prodn dims) * INR (roundings e dims) * u * rprod cs.
Proof. exact bound_simple. Qed.
Print Assumptions C99_size_of_the_bound.

(** ** Arithmetic that keeps [p] binary digits *)
Theorem C99_numpy_with_rounding : forall rnd eps ord, rounding rnd eps -> orders ord ->
  rounded (Rounded rnd ord) (fun x => x) ord (3 * eps) 1 /\
  computes_rounded (F := Rounded rnd ord) (fun x => x) (3 * eps) (NumpyBackend (Rounded rnd ord)) (fun _ => True).
Proof.
  intros rnd eps ord RO Ho. pose proof (Rounded_rounded RO Ho) as RD. split; [exact RD|]. apply (numpy_rounded RD).
Qed.
Print Assumptions C99_numpy_with_rounding.

(** Rounding to the nearest number with [p] binary digits, and what it is. *)
Theorem C99_nearest : forall p x, (4 <= p)%nat ->
  Rabs (nearest p x - x) <= / 2 ^ p * Rabs x /\ nearest p 1 = 1 /\
  exists z e, nearest p x = IZR z * powerRZ 2 e /\ (Z.abs z <= 2 ^ Z.of_nat p)%Z /\
    (forall z', Rabs (nearest p x - x) <= Rabs (IZR z' * powerRZ 2 e - x)) /\
    (x <> 0 -> 2 ^ p * powerRZ 2 e <= 2 * Rabs x).
Proof.
  intros p x Hp. destruct (nearest_rounding Hp) as [_ _ E O]. split; [apply E|]. split; [exact O | apply nearest_digits].
Qed.
Print Assumptions C99_nearest.

(** The calls whose gates are unitary without tolerance, apart from [Gate]. *)
Definition plain (ord : nat -> list nat) (dims : list nat) (g : gate (Cscalar ord)) : Prop :=
  match g with
  | GU _ _ | GSpan _ _ _ => False
  | GH r => exact dims g /\ one_last ord (nth r dims 0%nat)
  | _ => exact dims g
  end.

(** The error left with [p] digits on a register line of [N] states. *)
Theorem C99_with_p_digits : forall p ord (meant : mat (Rounded (nearest p) ord) -> mat (Cscalar ord)) dims levels out ty me ks prog,
  (4 <= p)%nat -> orders ord ->
  dims <> [] -> (forall d, In d dims -> 2 <= d)%nat ->
  (length levels <= length dims)%nat -> valid dims (start dims levels) -> wants dims out ty me ->
  Forall2 (fun k g => denotes dims (as_meant meant k) g) ks prog ->
  Forall (gate_ok dims) prog -> Forall (plain dims) prog ->
  let u := 3 / 2 ^ p in
  2 * INR (length ks + 1) * INR (prodn dims) * INR (roundings 1 dims) * u <= 1 ->
  exists psi : config -> Rounded (nearest p) ord,
    simulate (NumpyBackend (Rounded (nearest p) ord)) (QList (map Z.of_nat dims)) (Some (map Z.of_nat levels)) out ks
      = Ok (report ty me (answer dims psi)) /\
    distance dims psi (final dims prog (basis (Cscalar ord) (start dims levels)))
      <= 4 * INR (length ks + 1) * INR (prodn dims) * INR (roundings 1 dims) * u.
Proof.
  intros p ord meant dims levels out ty me ks prog Hp Ho Hne Hd Hl Hv Hw HD Hok HP u Hu.
  assert (H2p : 0 < 2 ^ p) by (apply pow_lt; lra).
  destruct (C99_numpy_with_rounding (nearest_rounding Hp) Ho) as [RD CR].
  replace (3 * / 2 ^ p) with u in RD, CR by (unfold u; field; lra).
  assert (HG : Forall2 (gain (ord := ord) dims) prog (map (fun _ => 1) prog)).
  { clear - HP Hok Ho. induction HP as [|g prog H HP IH]; simpl; inversion Hok; subst; constructor; [|auto].
    apply exact_gain; [exact Ho | assumption | |].
    - intros r ->. exact (proj2 H).
    - destruct g; cbn [plain] in H; try exact H; try contradiction. exact (proj1 H). }
  assert (HM : forall M q d, In (CGate M q d) ks -> stands_for (F := Rounded (nearest p) ord) (fun x => x) u 1 M (meant M)).
  { intros M q d Hin. exfalso. clear - HD HP Hin. induction HD as [|k g ks prog H HD IH]; [contradiction|]. inversion HP; subst.
    destruct Hin as [->|Hin]; [|auto]. cbn [as_meant] in H. inversion H; subst; cbn [plain] in *; assumption. }
  destruct (simulate_rounded Ho RD meant CR levels Hne Hd Hl Hv Hw HD Hok HG HM) as [psi [E H]].
  exists psi. split; [exact E|]. eapply Rle_trans; [exact H|].
  assert (Hone : rprod (map (fun _ : gate (Cscalar ord) => 1) prog) = 1).
  { clear. induction prog as [|g prog IH]; [reflexivity|]. cbn [map]. rewrite rprod_cons, IH. ring. }
  assert (HN : 1 <= INR (prodn dims)).
  { change 1 with (INR 1). apply le_INR. apply prodn_pos, Forall_forall. intros d Hin. specialize (Hd d Hin). lia. }
  assert (Hm : 1 <= INR (length ks + 1)) by (change 1 with (INR 1); apply le_INR; lia).
  assert (Hk : 0 <= INR (roundings 1 dims)) by apply pos_INR.
  assert (Hu0 : 0 <= u) by (apply (rd_u RD)).
  assert (Hs : sqrt (INR (prodn dims)) <= INR (prodn dims)).
  { apply sq_le; [lra|]. rewrite <- Rsqr_pow2, Rsqr_sqrt by lra. simpl. nra. }
  assert (Hku : 0 <= INR (roundings 1 dims) * u) by (apply Rmult_le_pos; assumption).
  assert (HmN : 1 <= INR (length ks + 1) * INR (prodn dims)) by nra.
  eapply Rle_trans; [apply bound_simple|].
  - exact Hu0.
  - rewrite Hone. lra.
  - nra.
  - eapply Rle_trans; [|exact Hu].
    assert (INR (length ks + 1) * sqrt (INR (prodn dims)) <= INR (length ks + 1) * INR (prodn dims)) by (apply Rmult_le_compat_l; lra).
    nra.
  - rewrite Hone. lra.
Qed.
Print Assumptions C99_with_p_digits.

(** More digits, less error: any accuracy is reached. *)
Theorem C99_any_accuracy : forall ord (meant : forall p, mat (Rounded (nearest p) ord) -> mat (Cscalar ord)) dims levels out ty me prog delta,
  0 < delta -> orders ord ->
  dims <> [] -> (forall d, In d dims -> 2 <= d)%nat ->
  (length levels <= length dims)%nat -> valid dims (start dims levels) -> wants dims out ty me ->
  Forall (gate_ok dims) prog -> Forall (plain dims) prog ->
  exists p0, forall p, (p0 <= p)%nat -> forall ks,
  Forall2 (fun k g => denotes dims (as_meant (meant p) k) g) ks prog ->
  exists psi : config -> Rounded (nearest p) ord,
    simulate (NumpyBackend (Rounded (nearest p) ord)) (QList (map Z.of_nat dims)) (Some (map Z.of_nat levels)) out ks
      = Ok (report ty me (answer dims psi)) /\
    distance dims psi (final dims prog (basis (Cscalar ord) (start dims levels))) <= delta.
Proof.
  intros ord meant dims levels out ty me prog delta Hdelta Ho Hne Hd Hl Hv Hw Hok HP.
  set (K := 12 * INR (length prog + 1) * INR (prodn dims) * INR (roundings 1 dims)).
  set (t := Rmin 1 delta). assert (Ht : 0 < t) by (apply Rmin_glb_lt; lra).
  destruct (archimed (K / t)) as [HA _]. set (z := up (K / t)) in *.
  exists (4 + Z.to_nat z)%nat. intros p Hp ks HD.
  assert (Hlen : length ks = length prog) by (clear - HD; induction HD; simpl; congruence).
  assert (H2p : 0 < 2 ^ p) by (apply pow_lt; lra).
  assert (HK : 0 <= K) by (unfold K; repeat apply Rmult_le_pos; try apply pos_INR; lra).
  assert (Hbig : K / t <= 2 ^ p).
  { apply Rle_trans with (INR p).
    - assert (IZR z <= INR (Z.to_nat z)).
      { rewrite INR_IZR_INZ. apply IZR_le. lia. }
      assert (INR (Z.to_nat z) <= INR p) by (apply le_INR; lia). lra.
    - clear. induction p as [|p IH]; [simpl; lra|]. rewrite S_INR. cbn [pow]. assert (1 <= 2 ^ p) by (apply pow_R1_Rle; lra). lra. }
  assert (Hfin : K / 2 ^ p <= t).
  { apply Rmult_le_reg_r with (2 ^ p); [exact H2p|]. unfold Rdiv. rewrite Rmult_assoc, Rinv_l, Rmult_1_r by lra.
    apply Rmult_le_reg_r with (/ t); [apply Rinv_0_lt_compat; exact Ht|]. replace (t * 2 ^ p * / t) with (2 ^ p) by (field; lra). exact Hbig. }
  pose proof (Rmin_l 1 delta) as Ht1. pose proof (Rmin_r 1 delta) as Ht2. fold t in Ht1, Ht2.
  assert (EK : 4 * INR (length ks + 1) * INR (prodn dims) * INR (roundings 1 dims) * (3 / 2 ^ p) = K / 2 ^ p).
  { rewrite Hlen. unfold K, Rdiv. ring. }
  destruct (@C99_with_p_digits p ord (meant p) dims levels out ty me ks prog) as [psi [E H]]; auto; [lia | | ].
  - assert (0 <= K / 2 ^ p) by (apply Rmult_le_pos; [exact HK | apply Rlt_le, Rinv_0_lt_compat; exact H2p]). lra.
  - exists psi. split; [exact E|]. rewrite EK in H. lra.
Qed.
Print Assumptions C99_any_accuracy.

(** ** Non-vacuity *)
Lemma two_53 : 2 ^ 53 = 9007199254740992.
Proof. rewrite (pow_IZR 2 53). reflexivity. Qed.

(** With 53 binary digits, 1000 gates on ten qubits leave an error below 1/100000. *)
Example C99_size : 4 * INR (1000 + 1) * 1024 * INR (1024 + 1 + 10 * 4) * (3 / 2 ^ 53) <= / 100000.
Proof.
  rewrite (INR_IZR_INZ (1000 + 1)), (INR_IZR_INZ (1024 + 1 + 10 * 4)).
  change (Z.of_nat (1000 + 1)) with 1001%Z. change (Z.of_nat (1024 + 1 + 10 * 4)) with 1065%Z.
  rewrite two_53. lra.
Qed.

Definition np_order (d : nat) : list nat := match d with O => [] | S d' => seq 1 d' ++ [0%nat] end.
Lemma np_order_orders : orders np_order.
Proof. intros [|d]; simpl; [constructor|]. rewrite Permutation_app_comm. reflexivity. Qed.

(** A qubit and a qutrit: h, cx across, h on the qutrit, z. *)
Example C99_case :
  let dims := [2; 3]%nat in
  let ks := [CH 0 None; CCX [0%Z; 1%Z] 1%Z; CH 1 None; CZ 0 None] in
  let prog := [GH 0; GCX 0 1 1; GH 1; GZ 0] in
  Forall2 (fun k g => denotes dims (as_meant (F := Rounded (nearest 53) np_order) (fun _ => mkmat 0 0 (fun _ _ => s0)) k) g) ks prog /\
  Forall (gate_ok (S := Cscalar np_order) dims) prog /\ Forall (plain (ord := np_order) dims) prog /\
  exists psi : config -> Rounded (nearest 53) np_order,
    simulate (NumpyBackend (Rounded (nearest 53) np_order)) (QList [2; 3]%Z) (Some [0; 0]%Z) None ks
      = Ok (report OutPrint OutAmplitude (answer dims psi)) /\
    distance dims psi (final dims prog (basis (Cscalar np_order) [0; 0]%nat)) <= / 100000000000.
Proof.
  intros dims ks prog.
  assert (H1 : Forall2 (fun k g => denotes dims (as_meant (F := Rounded (nearest 53) np_order) (fun _ => mkmat 0 0 (fun _ _ => s0)) k) g) ks prog).
  { constructor; [exact (den_h _ (dims := dims) (r := 0%nat) (or_introl eq_refl))|].
    constructor; [exact (den_cx _ dims 0%nat 1%nat 1%Z)|].
    constructor; [exact (den_h _ (dims := dims) (r := 1%nat) (or_introl eq_refl))|].
    constructor; [exact (den_z _ (dims := dims) (r := 0%nat) (or_introl eq_refl)) | constructor]. }
  assert (H2 : Forall (gate_ok (S := Cscalar np_order) dims) prog) by (repeat constructor).
  assert (H3 : Forall (plain (ord := np_order) dims) prog).
  { constructor; [split; [left; reflexivity | exists [1%nat]; reflexivity]|].
    constructor; [discriminate|].
    constructor; [split; [right; reflexivity | exists [1; 2]%nat; reflexivity]|].
    constructor; [exact I | constructor]. }
  split; [exact H1|]. split; [exact H2|]. split; [exact H3|].
  destruct (@C99_with_p_digits 53 np_order (fun _ => mkmat 0 0 (fun _ _ => s0)) dims [0; 0]%nat None OutPrint OutAmplitude ks prog)
    as [psi [E H]]; auto.
  - lia.
  - apply np_order_orders.
  - discriminate.
  - intros d [<-|[<-|[]]]; lia.
  - repeat constructor.
  - right. auto.
  - change (INR (length ks + 1)) with (INR 5). change (INR (prodn dims)) with (INR 6). change (INR (roundings 1 dims)) with (INR 15).
    rewrite two_53, !INR_IZR_INZ. cbn [Z.of_nat Pos.of_succ_nat Pos.succ]. lra.
  - exists psi. split; [exact E|]. eapply Rle_trans; [exact H|].
    change (INR (length ks + 1)) with (INR 5). change (INR (prodn dims)) with (INR 6). change (INR (roundings 1 dims)) with (INR 15).
    rewrite two_53, !INR_IZR_INZ. cbn [Z.of_nat Pos.of_succ_nat Pos.succ]. lra.
Qed.

(** A cx with control and target on one qutrit after h. *)
Example C99_case_one_register :
  Forall2 (gain (ord := np_order) [3]%nat) [GH 0; GCX 0 0 1] [1; sqrt 2] /\
  Forall (gate_ok (S := Cscalar np_order) [3]%nat) [GH 0; GCX 0 0 1].
Proof.
  split; [|repeat constructor]. constructor; [|constructor; [|constructor]].
  - apply exact_gain; [apply np_order_orders | repeat constructor | | right; reflexivity].
    intros r E. injection E as <-. exists [1; 2]%nat. reflexivity.
  - apply (C99_growth_factors [3]%nat np_order_orders).
Qed.
