(** * Props_Jozsa: the algorithm of Deutsch and Jozsa (C88). *)
From Coq Require Import Reals Lra String.
From Verif Require Import Py Scalar Mat Utils Gates Circuit Spec Calls Complex ComplexSpec ComplexLib Lib Refine Run Reversible Moved Local Labels ComplexGates ComplexRun
  Product Algo Jozsa Props_Run Props_Complex Props_Bench.
Local Notation length := List.length.
Open Scope list_scope.
Open Scope nat_scope.

(** How many inputs satisfy [f]. *)
Definition satisfying (n : nat) (f : config -> bool) : nat := length (filter f (all_configs (repeat 2 n))).

Lemma sgn_sum : forall ord f (l : list config),
  bsum (S := Cscalar ord) (fun x => sgn (Cscalar ord) (f x)) l = ((INR (length l) - 2 * INR (length (filter f l)))%R, 0%R).
Proof.
  intros ord f l; induction l as [|x l IH]; [apply C_ext; simpl; lra|].
  cbn [bsum]. etransitivity; [exact (f_equal (Cadd _) IH)|]. cbn [filter]. unfold sgn.
  destruct (f x); cbn [length]; rewrite ?S_INR; apply C_ext; simpl; lra.
Qed.
Lemma pow_scale : forall ord n, spow (Cscalar ord) (sisqrt 2) (n + n) = ((/ 2 ^ n)%R, 0%R).
Proof.
  intros ord n; induction n as [|n IH]; [apply C_ext; simpl; lra|].
  replace (Datatypes.S n + Datatypes.S n) with (Datatypes.S (Datatypes.S (n + n))) by lia. cbn [spow].
  pose proof (@scale_sq ord 2 ltac:(lia)) as E.
  transitivity (Cmul (Cmul (sisqrt (s := Cscalar ord) 2) (sisqrt (s := Cscalar ord) 2)) (spow (Cscalar ord) (sisqrt 2) (n + n)));
    [apply C_ext; simpl; ring|].
  etransitivity; [exact (f_equal2 Cmul E IH)|]. pose proof (pow_nonzero 2 n ltac:(lra)) as P. apply C_ext; simpl; field; exact P.
Qed.

Lemma prod_twos : forall n, prodn (repeat 2 n) = 2 ^ n.
Proof. induction n as [|n IH]; [reflexivity|]. cbn [repeat]. unfold prodn in *. simpl in *. rewrite IH. lia. Qed.

(** ** C88: h gates on n + 1 qubits, the last of which starts at 1, then any
    reversible calls that turn the last qubit over where [f] holds of the others,
    then h gates.  If [f] is constant the start state is the only outcome.  Its
    amplitude is the excess of the inputs not satisfying [f] over those satisfying
    it, divided by 2^n; so it is missing if [f] is balanced. *)
Theorem C88_deutsch_jozsa :
  forall ord, orders ord -> one_last ord 2 -> forall (B : backend (Cscalar ord)) n (f : config -> bool) (oracle : list (call (Cscalar ord))) (prog : list (gate (Cscalar ord))) out ty,
  let dims := repeat 2 (n + 1) in
  let s := repeat 0 n ++ [1] in
  supported B -> wants dims out ty OutAmplitude ->
  asks dims oracle prog -> (forall g, In g prog -> reversible g) ->
  (forall t, valid dims t -> moves dims prog t = put t n (if f (firstn n t) then 1 - level t n else level t n)) ->
  let all_h : list (call (Cscalar ord)) := map (fun r => CH (Z.of_nat r) None) (seq 0 (n + 1)) in
  exists l, simulate B (QList (map Z.of_nat dims)) (Some (map Z.of_nat s)) out (all_h ++ oracle ++ all_h) = Ok l /\
    (forall a, In (shown ty s, a) l <->
       2 * satisfying n f <> 2 ^ n /\ a = (((2 ^ n - 2 * INR (satisfying n f)) / 2 ^ n)%R, 0%R)) /\
    (forall b, (forall x, valid (repeat 2 n) x -> f x = b) -> l = [(shown ty s, ((if b then -1 else 1)%R, 0%R))]).
Proof.
  intros ord Hord H1 B n f oracle prog out ty dims s HB Hw HA Hrev Hf all_h.
  set (hs := map (fun r => GH r) (seq 0 (n + 1)) : list (gate (Cscalar ord))).
  assert (Vs : valid dims s) by apply start_valid.
  assert (Hs : start dims s = s) by (unfold start; rewrite (valid_length Vs), Nat.sub_diag; apply app_nil_r).
  assert (HL : line dims s).
  { unfold line. rewrite Hs. split; [unfold dims; rewrite Nat.add_comm; discriminate|].
    split; [intros d Hd; apply repeat_spec in Hd; lia|]. split; [rewrite (valid_length Vs); lia | exact Vs]. }
  assert (Ah : asks (S := Cscalar ord) dims all_h hs).
  { split.
    - unfold all_h, hs. induction (seq 0 (n + 1)) as [|i l IH]; simpl; constructor; [apply (@den_h _ dims i None); left; reflexivity | exact IH].
    - apply Forall_forall. intros g Hg. apply in_map_iff in Hg as [i [<- Hi]]. apply in_seq in Hi. unfold dims. simpl. rewrite repeat_length. lia. }
  pose proof (asks_app ord dims _ _ _ _ Ah (asks_app ord dims _ _ _ _ HA Ah)) as A.
  pose proof (C01_run_applies_gates_in_order _ (Cscalar_laws Hord) B dims s out ty OutAmplitude _ _ HB HL Hw A) as R. rewrite Hs in R.
  eexists. split; [exact R|].
  pose proof (root_fact ord Hord H1) as F1. pose proof (scale_fact ord) as F2. destruct HA as [_ Hok].
  pose proof (@jozsa_amplitude _ (Cscalar_laws Hord) F1 F2 n f prog Hok Hrev Hf) as J.
  pose proof (@jozsa_constant _ (Cscalar_laws Hord) F1 F2 n f prog Hok Hrev Hf) as K.
  change (qubits (n + 1)) with dims in J, K. fold s hs in J, K.
  set (psi := final dims (hs ++ prog ++ hs) (basis (Cscalar ord) s)) in *.
  assert (V : psi s = (((2 ^ n - 2 * INR (satisfying n f)) / 2 ^ n)%R, 0%R)).
  { rewrite J. etransitivity; [exact (f_equal2 Cmul (pow_scale ord n) (sgn_sum ord f _))|]. unfold satisfying, qubits.
    rewrite all_configs_length. rewrite prod_twos.
    rewrite pow_INR. replace (INR 2) with 2%R by reflexivity. pose proof (pow_nonzero 2 n ltac:(lra)) as P. apply C_ext; simpl; field; exact P. }
  assert (Z : psi s = s0 <-> 2 * satisfying n f = 2 ^ n).
  { rewrite V. pose proof (pow_nonzero 2 n ltac:(lra)) as P. split; intros E.
    - injection E as E. apply INR_eq. rewrite mult_INR, pow_INR. replace (INR 2) with 2%R by reflexivity.
      apply Rmult_eq_compat_r with (r := (2 ^ n)%R) in E. unfold Rdiv in E. rewrite Rmult_assoc, Rinv_l, Rmult_1_r, Rmult_0_l in E by exact P. lra.
    - apply (f_equal INR) in E. rewrite mult_INR, pow_INR in E. replace (INR 2) with 2%R in E by reflexivity. rewrite E.
      apply C_ext; simpl; field; exact P. }
  split.
  - intros a. rewrite <- V. unfold report, answer. rewrite map_map, in_map_iff. split.
    + intros [t [E Ht]]. cbn [fst snd reported] in E. injection E as E <-. apply filter_In in Ht as [Ht N].
      apply in_all_configs in Ht. apply (@shown_inj ty dims) in E; [subst t | intros d Hd; apply repeat_spec in Hd; lia | exact Ht | exact Vs].
      split; [|reflexivity]. rewrite <- Z. intros X. change (seqb (psi s) s0) with (Ceqb (psi s) C0) in N. rewrite (proj2 (Ceqb_eq (psi s) C0) X) in N. discriminate.
    + intros [N ->]. exists s. split; [reflexivity|]. apply filter_In. split; [apply in_all_configs; exact Vs|].
      change (seqb (psi s) s0) with (Ceqb (psi s) C0). destruct (Ceqb (psi s) C0) eqn:E; [|reflexivity]. exfalso. apply N, Z. apply Ceqb_eq. exact E.
  - intros b Hb. specialize (K b Hb). destruct b.
    + rewrite (@answer_minus ord Hord dims s psi Vs); [reflexivity|]. intros t Ht. rewrite K by exact Ht. apply C_ext; simpl; ring.
    + transitivity (report ty OutAmplitude [(s, s1 : Cscalar ord)]); [|reflexivity]. f_equal.
      etransitivity; [|exact (answer_basis (Cscalar_laws Hord) Vs)]. apply answer_ext. intros t Ht. rewrite K by exact Ht. apply C_ext; simpl; ring.
Qed.

(** Three qubits.  A toffoli computes "and": one input of four satisfies it.  Two
    cx gates compute the balanced "exclusive or".  An x makes the constant. *)
Section Examples.
Let S := Cscalar np_ord.
Let hs : list (call S) := [CH 0 None; CH 1 None; CH 2 None]%Z.
Let asked (ks : list (call S)) := simulate (SparseBackend S) (QList [2; 2; 2]%Z) (Some [0; 0; 1]%Z) None (hs ++ ks ++ hs).
Let listed (t : config) : Prop := t = [0;0;0] \/ t = [0;0;1] \/ t = [0;1;0] \/ t = [0;1;1] \/ t = [1;0;0] \/ t = [1;0;1] \/ t = [1;1;0] \/ t = [1;1;1].
Let three : forall t, valid [2; 2; 2] t -> listed t.
Proof.
  intros t V. apply in_all_configs in V. vm_compute in V. unfold listed. decompose [or] V; subst; tauto.
Qed.

Example ex_C88 :
  (exists l, asked [CTof [0; 1]%Z 2%Z 1%Z] = Ok l /\ forall a, In (LStr "|001>"%string, a) l <-> a = (/ 2, 0)%R) /\
  (exists l, asked [CCX [0; 2]%Z 1%Z; CCX [1; 2]%Z 1%Z] = Ok l /\ forall a, ~ In (LStr "|001>"%string, a) l) /\
  asked [CX 2 None 1]%Z = Ok [(LStr "|001>"%string, (-1, 0)%R)].
Proof.
  assert (HB : supported (SparseBackend S)) by (right; reflexivity).
  assert (Hw : wants [2; 2; 2] None OutPrint OutAmplitude) by (right; auto).
  split; [|split].
  - destruct (C88_deutsch_jozsa np_ord np_ord_orders (np_ord_last 2 ltac:(lia)) (SparseBackend S) 2 (fun x => (level x 0 =? 1) && (level x 1 =? 1)) [CTof [0; 1]%Z 2%Z 1%Z]
      [GTof [0; 1] 2 1] None OutPrint HB Hw) as [l [R [H _]]].
    + split; [constructor; [exact (@den_tof S [2; 2; 2] [0; 1] 2 1%Z) | constructor] | constructor; [ | constructor]]. simpl. split; [intros; lia|]. split; [lia|]. split; [lia|].
      intros [lo [_ [_ H]]]. pose proof (H 0 ltac:(simpl; lia)). pose proof (H 1 ltac:(simpl; lia)). pose proof (H 2 ltac:(simpl; lia)). lia.
    + intros g [<- | []]. exact I.
    + intros t V. apply three in V. unfold listed in V. decompose [or] V; subst; reflexivity.
    + exists l. split; [exact R|]. intros a. etransitivity; [exact (H a)|]. change (satisfying 2 _) with 1. split.
      * intros [_ ->]. apply C_ext; simpl; lra.
      * intros ->. split; [simpl; lia|]. apply C_ext; simpl; lra.
  - destruct (C88_deutsch_jozsa np_ord np_ord_orders (np_ord_last 2 ltac:(lia)) (SparseBackend S) 2 (fun x => xorb (level x 0 =? 1) (level x 1 =? 1)) [CCX [0; 2]%Z 1%Z; CCX [1; 2]%Z 1%Z]
      [GCX 0 2 1; GCX 1 2 1] None OutPrint HB Hw) as [l [R [H _]]].
    + split; [constructor; [apply (@den_cx _ _ 0 2) | constructor; [apply (@den_cx _ _ 1 2) | constructor]] | repeat constructor; simpl; lia].
    + intros g [<- | [<- | []]]; simpl; lia.
    + intros t V. apply three in V. unfold listed in V. decompose [or] V; subst; reflexivity.
    + exists l. split; [exact R|]. intros a X. apply H in X as [X _]. apply X. reflexivity.
  - destruct (C88_deutsch_jozsa np_ord np_ord_orders (np_ord_last 2 ltac:(lia)) (SparseBackend S) 2 (fun _ => true) [CX 2 None 1]%Z
      [GX 2 1] None OutPrint HB Hw) as [l [R [_ H]]].
    + split; [constructor; [apply (@den_x _ _ 2 None); left; reflexivity | constructor] | repeat constructor; simpl; lia].
    + intros g [<- | []]. exact I.
    + intros t V. apply three in V. unfold listed in V. decompose [or] V; subst; reflexivity.
    + rewrite (H true ltac:(reflexivity)) in R. exact R.
Qed.
End Examples.

Print Assumptions C88_deutsch_jozsa.
