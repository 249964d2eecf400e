(** * GroverRun: x gates and a toffoli that recognise one bit pattern. *)
From Verif Require Import Py Scalar Mat Utils Gates Circuit Spec Calls Lib Flow Layers Blocks Refine Run Reversible Parts Moved Local Product Algo Jozsa Grover GateTof.
Set Implicit Arguments.

Section Pattern.
Variable S : scalar.
Notation gate := (gate S).

Definition unset (n : nat) (w : config) : list nat := filter (fun r => Nat.eqb (level w r) 0) (seq 0 n).
Definition xs (l : list nat) : list gate := map (fun r => GX r 1) l.
Definition recognise (n : nat) (w : config) : list gate := xs (unset n w) ++ [GTof (seq 0 n) n 1] ++ xs (unset n w).

Lemma moves_app' : forall dims (p q : list gate) s, moves dims (p ++ q) s = moves dims q (moves dims p s).
Proof. intros dims p; induction p as [|g p IH]; intros q s; [reflexivity|]. simpl. apply IH. Qed.

Lemma xs_ok : forall N l, (forall r, In r l -> r < N) -> Forall (gate_ok (qubits N)) (xs l).
Proof.
  intros N l H. apply Forall_forall. intros g Hg. apply in_map_iff in Hg as [r [<- Hr]]. specialize (H r Hr). cbn [gate_ok].
  rewrite len_qubits, nth_qubits by exact H. lia.
Qed.
Lemma xs_level : forall N l s q, NoDup l -> (forall r, In r l -> r < N) -> valid (qubits N) s ->
  level (moves (qubits N) (xs l) s) q = if existsb (Nat.eqb q) l then 1 - level s q else level s q.
Proof.
  intros N l; induction l as [|r l IH]; intros s q Nd Hl Hs; [reflexivity|]. cbn [xs map moves existsb]. fold (xs l).
  apply NoDup_cons_iff in Nd as [Nr Nd]. assert (Hr : r < N) by (apply Hl; left; reflexivity).
  assert (Ok : gate_ok (qubits N) (GX (S := S) r 1)) by (simpl; rewrite len_qubits, nth_qubits by exact Hr; lia).
  rewrite IH; [| exact Nd | intros x Hx; apply Hl; right; exact Hx | apply move_valid; assumption].
  cbn [move]. rewrite level_move_x by (rewrite ?len_qubits; assumption). rewrite nth_qubits by exact Hr.
  pose proof (valid_level Hs (r := r) ltac:(rewrite len_qubits; exact Hr)) as V. rewrite nth_qubits in V by exact Hr. rewrite shift_2 by exact V.
  destruct (Nat.eqb_spec q r) as [->|Nq]; cbn [orb]; [|reflexivity].
  destruct (existsb (Nat.eqb r) l) eqn:E; [|reflexivity]. exfalso. apply existsb_exists in E as [y [Hy E]]. apply Nat.eqb_eq in E. subst. contradiction.
Qed.

Lemma unset_in : forall n w q, existsb (Nat.eqb q) (unset n w) = (q <? n) && (level w q =? 0).
Proof.
  intros n w q. apply eq_true_iff_eq. rewrite existsb_exists, andb_true_iff, Nat.ltb_lt. unfold unset. split.
  - intros [y [Hy E]]. apply Nat.eqb_eq in E. subst y. apply filter_In in Hy as [Hy E]. apply in_seq in Hy. split; [lia | exact E].
  - intros [Hq E]. exists q. rewrite Nat.eqb_refl. split; [|reflexivity]. apply filter_In. split; [apply in_seq; lia | exact E].
Qed.
Lemma unset_small : forall n w r, In r (unset n w) -> r < n.
Proof. intros n w r H. apply filter_In in H as [H _]. apply in_seq in H. lia. Qed.
Lemma unset_NoDup : forall n w, NoDup (unset n w).
Proof. intros. apply NoDup_filter, seq_NoDup. Qed.

Lemma recognise_ok : forall n w, 2 <= n -> Forall (gate_ok (qubits (n + 1))) (recognise n w).
Proof.
  intros n w Hn. assert (X : Forall (gate_ok (qubits (n + 1))) (xs (unset n w))) by (apply xs_ok; intros r Hr; apply unset_small in Hr; lia).
  apply Forall_app. split; [exact X|]. apply Forall_app. split; [|exact X]. constructor; [|constructor].
  cbn [gate_ok]. rewrite len_qubits. split; [intros c Hc; apply in_seq in Hc; lia|]. split; [lia|]. split; [intros Hc; apply in_seq in Hc; lia|].
  intros [lo [_ [_ H]]].
  assert (I0 : In 0 (seq 0 n)) by (apply in_seq; lia). assert (I1 : In 1 (seq 0 n)) by (apply in_seq; lia).
  pose proof (H n (or_introl eq_refl)). pose proof (H 0 (or_intror I0)). pose proof (H 1 (or_intror I1)). lia.
Qed.
Lemma recognise_reversible : forall n w g, In g (recognise n w) -> reversible g.
Proof.
  intros n w g H. unfold recognise in H. rewrite !in_app_iff in H.
  destruct H as [H | [[<- | []] | H]]; [| exact I |]; apply in_map_iff in H as [r [<- _]]; exact I.
Qed.

Lemma recognise_moves : forall n w s, 2 <= n -> valid (qubits n) w -> valid (qubits (n + 1)) s ->
  moves (qubits (n + 1)) (recognise n w) s = turned n (config_eqb w) s.
Proof.
  intros n w s Hn Hw Hs. unfold recognise. rewrite !moves_app'. cbn [moves].
  set (N := n + 1) in *. set (u := unset n w). assert (Hu : forall r, In r u -> r < N) by (intros r Hr; apply unset_small in Hr; unfold N; lia).
  pose proof (unset_NoDup n w) as Nd. fold u in Nd.
  set (s' := moves (qubits N) (xs u) s).
  assert (Vs' : valid (qubits N) s') by (apply moves_valid; [apply xs_ok; exact Hu | exact Hs]).
  assert (Tok : gate_ok (qubits N) (GTof (S := S) (seq 0 n) n 1)) by (pose proof (recognise_ok w Hn) as F; apply Forall_app in F as [_ F]; inversion F; assumption).
  assert (Vm : valid (qubits N) (move (qubits N) (GTof (S := S) (seq 0 n) n 1) s')) by (apply move_valid; assumption).
  destruct (last_bit n Hs) as [B Ls]. pose proof (valid_length Vs') as Ls'. rewrite len_qubits in Ls'.
  assert (Lv : forall q, q < n -> level s q < 2 /\ level w q < 2).
  { intros q Hq. pose proof (valid_level Hs (r := q) ltac:(rewrite len_qubits; unfold N; lia)) as V1. pose proof (valid_level Hw (r := q) ltac:(rewrite len_qubits; exact Hq)) as V2.
    rewrite nth_qubits in V1, V2 by (unfold N; lia). auto. }
  assert (Fire : forallb (top (qubits N) s') (seq 0 n) = config_eqb w (firstn n s)).
  { apply eq_true_iff_eq. rewrite forallb_forall, config_eqb_eq. split.
    - intros H. apply nth_ext with (d := 0) (d' := 0); [rewrite (valid_length Hw), len_qubits, firstn_length; unfold N in Ls; lia|].
      intros q Hq. rewrite (valid_length Hw), len_qubits in Hq. specialize (H q ltac:(apply in_seq; lia)). unfold top in H. apply Nat.eqb_eq in H.
      rewrite nth_qubits in H by (unfold N; lia). unfold s' in H. rewrite xs_level in H by assumption. unfold u in H. rewrite unset_in, (proj2 (Nat.ltb_lt _ _) Hq) in H.
      destruct (Lv q Hq) as [A1 A2]. rewrite nth_firstn' by exact Hq.
      fold (level w q). fold (level s q). cbn [andb] in H. destruct (Nat.eqb_spec (level w q) 0); lia.
    - intros E q Hq. apply in_seq in Hq. unfold top. apply Nat.eqb_eq. rewrite nth_qubits by (unfold N; lia). unfold s'. rewrite xs_level by assumption.
      unfold u. rewrite unset_in, (proj2 (Nat.ltb_lt q n)) by lia. cbn [andb]. destruct (Lv q ltac:(lia)) as [A1 A2].
      assert (level w q = level s q) by (rewrite E; unfold level; apply nth_firstn'; lia). destruct (Nat.eqb_spec (level w q) 0); lia. }
  apply nth_ext with (d := 0) (d' := 0).
  - pose proof (valid_length (moves_valid (xs_ok u Hu) Vm)) as E1. pose proof (valid_length (turned_valid n (config_eqb w) Hs)) as E2. fold N in E2. congruence.
  - intros q Hq. pose proof (valid_length (moves_valid (xs_ok u Hu) Vm)) as E1. rewrite E1, len_qubits in Hq. clear E1.
    change (level (moves (qubits N) (xs u) (move (qubits N) (GTof (S := S) (seq 0 n) n 1) s')) q = level (turned n (config_eqb w) s) q).
    rewrite xs_level by assumption. unfold turned. rewrite level_put by (unfold N in Ls; lia). cbn [move]. unfold move_tof. rewrite Fire.
    assert (Sn : level s' n = level s n).
    { unfold s'. rewrite xs_level by assumption. unfold u. rewrite unset_in, Nat.ltb_irrefl. reflexivity. }
    assert (Lm : forall r, level (if config_eqb w (firstn n s) then move_x (qubits N) n 1 s' else s') r
                 = if r =? n then (if config_eqb w (firstn n s) then 1 - level s n else level s n) else level s' r).
    { intros r. destruct (config_eqb w (firstn n s)).
      - rewrite level_move_x by (rewrite ?len_qubits; unfold N; try assumption; lia). rewrite nth_qubits by (unfold N; lia). rewrite Sn, shift_2 by exact B. reflexivity.
      - destruct (Nat.eqb_spec r n) as [->|]; [exact Sn | reflexivity]. }
    rewrite Lm. unfold u. rewrite unset_in.
    destruct (Nat.eqb_spec q n) as [->|Nq]; [rewrite Nat.ltb_irrefl; reflexivity|].
    unfold s'. rewrite xs_level by assumption. unfold u. rewrite unset_in. rewrite (proj2 (Nat.ltb_lt q n)) by (unfold N in Hq; lia). cbn [andb].
    destruct (level w q =? 0); [|reflexivity]. destruct (Lv q ltac:(unfold N in Hq; lia)) as [A1 _]. lia.
Qed.
End Pattern.
