(** * Props_Clifford: circuits of h, x, z and cx on qubits (C114).  [ord] is the
    order in which the root finder returns the roots of unity. *)
From Coq Require Import String Reals Lra.
From Verif Require Import Py Scalar Mat Utils Gates Circuit Spec Calls Complex ComplexSpec ComplexLib PermSpec StabRun Props_Run.
Local Notation length := List.length.

(** ** C114: such a circuit has 2^k outcomes, not more than 2 for each h; they
    all have the same amplitude up to its sign, and the sum modulo 2 of three of
    them is one of them. *)
Theorem C114_outcomes_of_h_x_z_cx_circuits :
  forall ord, orders ord -> one_last ord 2 -> forall (B : backend (Cscalar ord)) n levels out ty me ks prog,
  let dims := repeat 2 n in
  supported B -> line dims levels -> wants dims out ty me -> asks dims ks prog -> (forall g, In g prog -> clifford g) ->
  exists k l (neg : config -> bool),
    k <= length (filter is_h prog) /\ NoDup l /\ (forall s, In s l -> valid dims s) /\ length l = 2 ^ k /\
    (forall a b c, In a l -> In b l -> In c l -> In (xor a (xor b c)) l) /\
    simulate B (QList (map Z.of_nat dims)) (Some (map Z.of_nat levels)) out ks
    = Ok (map (fun s => (shown ty s, reported (S := Cscalar ord) me ((if neg s then - / sqrt (2 ^ k) else / sqrt (2 ^ k)), 0)%R)) l).
Proof.
  intros ord Hord H1 B n levels out ty me ks prog dims HB HL Hw Ha Hc.
  destruct (clifford_answer Hord H1 n (proj2 Ha) Hc (proj2 (proj2 (proj2 HL)))) as [k [l [neg [Hk [Hn [Hv [Hl [Hx E]]]]]]]].
  exists k, l, neg. split; [exact Hk|]. split; [exact Hn|]. split; [exact Hv|]. split; [exact Hl|]. split; [exact Hx|].
  rewrite (C01_run_applies_gates_in_order _ (Cscalar_laws Hord) B dims levels out ty me ks prog HB HL Hw Ha).
  unfold dims in *. rewrite E. unfold report. rewrite map_map. reflexivity.
Qed.

(** Asked for probabilities, such a circuit reports the same one for every
    outcome, and they add up to 1. *)
Theorem C114_outcomes_are_equally_likely :
  forall ord, orders ord -> one_last ord 2 -> forall (B : backend (Cscalar ord)) n levels out ty ks prog ans,
  let dims := repeat 2 n in
  supported B -> line dims levels -> wants dims out ty OutProbability -> asks dims ks prog -> (forall g, In g prog -> clifford g) ->
  simulate B (QList (map Z.of_nat dims)) (Some (map Z.of_nat levels)) out ks = Ok ans ->
  exists k, k <= n /\ length ans = 2 ^ k /\ forall lab p, In (lab, p) ans -> p = (/ INR (length ans), 0)%R.
Proof.
  intros ord Hord H1 B n levels out ty ks prog ans dims HB HL Hw Ha Hc Hans.
  destruct (C114_outcomes_of_h_x_z_cx_circuits ord Hord H1 B n levels out ty OutProbability ks prog HB HL Hw Ha Hc) as [k [l [neg [_ [Hn [Hv [Hl [_ E]]]]]]]].
  fold dims in E. rewrite Hans in E. injection E as ->. exists k. rewrite map_length, Hl. split; [|split; [reflexivity|]].
  - assert (X : length l <= length (all_configs (repeat 2 n))) by (apply NoDup_incl_length; [exact Hn | intros s Hs; apply Lib.in_all_configs, Hv, Hs]).
    rewrite Hl, Lib.all_configs_length in X. assert (Y : prodn (repeat 2 n) = 2 ^ n) by (clear; induction n as [|n IH]; [reflexivity | change (prodn (repeat 2 (S n))) with (2 * prodn (repeat 2 n)); rewrite IH; symmetry; apply Nat.pow_succ_r']).
    rewrite Y in X. apply (Nat.pow_le_mono_r_iff 2 k n); [repeat constructor | exact X].
  - intros lab p Hp. apply in_map_iff in Hp as [s [Es _]]. injection Es as _ <-. rewrite pow_INR. change (INR 2) with 2%R.
    assert (P : (0 < 2 ^ k)%R) by (apply pow_lt; lra). assert (Q : (/ sqrt (2 ^ k) * / sqrt (2 ^ k) = / 2 ^ k)%R) by (rewrite <- Rinv_mult, sqrt_sqrt by lra; reflexivity).
    unfold reported, Cscalar. cbn [smul]. apply C_ext; cbn [Cmul fst snd]; destruct (neg s); unfold Cmul; cbn [fst snd]; lra.
Qed.

(** ** Concrete cases *)
Section Examples.

(** A pair of qubits in the same level, with a sign. *)
Example ex_C114_pair : forall ord,
  let ks := [CH 0 None; CCX [0; 1] 1; CZ 1 None]%Z : list (call (Cscalar ord)) in
  let prog := [GH 0; GCX 0 1 1; GZ 1] : list (gate (Cscalar ord)) in
  asks (repeat 2 2) ks prog /\ (forall g, In g prog -> clifford g) /\ line (repeat 2 2) [] /\
  length (filter is_h prog) = 1.
Proof.
  intros ord ks prog. split; [split|split; [|split]].
  - constructor; [exact (@den_h _ [2; 2] 0 None (or_introl eq_refl))|]. constructor; [exact (@den_cx _ [2; 2] 0 1 1%Z)|].
    constructor; [exact (@den_z _ [2; 2] 1 None (or_introl eq_refl)) | constructor].
  - repeat (constructor; [cbn; lia|]). constructor.
  - intros g [<-|[<-|[<-|[]]]]; cbn; auto.
  - split; [discriminate|]. split; [intros d Hd; apply repeat_spec in Hd; subst; lia|]. split; [cbn; lia | repeat constructor].
  - reflexivity.
Qed.

(** The same circuit with integers for amplitudes (h is not scaled): the two
    outcomes 00 and 11 with opposite signs. *)
Example ex_C114_pair_run :
  simulate (NumpyBackend Zscalar) (QList [2; 2]%Z) (Some []) None [CH 0 None; CCX [0; 1] 1; CZ 1 None]%Z
  = Ok [(LStr "|00>"%string, (-1)%Z); (LStr "|11>"%string, 1%Z)].
Proof. vm_compute. reflexivity. Qed.

(** Neither statement holds with toffoli: the sum of the last three outcomes is
    not one of the four, and another h makes the outcomes unequal. *)
Example ex_C114_toffoli :
  let ks := [CH 0 None; CH 1 None; CTof [0; 1] 2 1]%Z : list (call Zscalar) in
  simulate (NumpyBackend Zscalar) (QList [2; 2; 2]%Z) (Some []) None ks
  = Ok (map (fun t => (LStr t, 1%Z)) ["|000>"; "|010>"; "|100>"; "|111>"]%string) /\
  ~ In (xor [0; 1; 0] (xor [1; 0; 0] [1; 1; 1])) [[0; 0; 0]; [0; 1; 0]; [1; 0; 0]; [1; 1; 1]] /\
  simulate (NumpyBackend Zscalar) (QList [2; 2; 2]%Z) (Some []) None (ks ++ [CH 0 None]%Z)
  = Ok [(LStr "|000>", 2%Z); (LStr "|010>", 1%Z); (LStr "|011>", 1%Z); (LStr "|110>", 1%Z); (LStr "|111>", (-1)%Z)]%string.
Proof.
  cbv zeta. split; [vm_compute; reflexivity|]. split; [|vm_compute; reflexivity].
  vm_compute. intros [X|[X|[X|[X|[]]]]]; discriminate.
Qed.
End Examples.

Print Assumptions C114_outcomes_of_h_x_z_cx_circuits.
Print Assumptions C114_outcomes_are_equally_likely.
