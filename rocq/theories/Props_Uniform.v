(** * Props_Uniform: h gates from any start levels (C87). *)
From Coq Require Import Reals Lra String Permutation.
From Verif Require Import Py Scalar Mat Utils Gates Circuit Spec Calls Complex ComplexSpec ComplexLib Lib Refine Local ComplexRun Props_Run Props_Complex Uniform.
Local Notation length := List.length.
Open Scope list_scope.
Open Scope nat_scope.

(** ** C87: one h on each of some registers of any dimensions.  The outcomes are
    all configurations that have the start levels on the other registers, in the
    order of their indices; all have the same probability. *)
Theorem C87_h_gates_spread_evenly :
  forall ord, orders ord -> forall (B : backend (Cscalar ord)) dims levels out ty (rs : list nat),
  supported B -> line dims levels -> wants dims out ty OutAmplitude -> NoDup rs -> (forall r, In r rs -> r < length dims) ->
  exists l, simulate B (QList (map Z.of_nat dims)) (Some (map Z.of_nat levels)) out (map (fun r => CH (Z.of_nat r) None) rs) = Ok l /\
    map fst l = map (shown ty) (filter (same_off rs (start dims levels)) (all_configs dims)) /\
    forall x, In x l -> prob (snd x) = (/ INR (prodn (map (fun r => nth r dims 0%nat) rs)))%R.
Proof.
  intros ord Hord B dims levels out ty rs HB HL Hw Hn Hr.
  assert (HA : asks dims (map (fun r => CH (S := Cscalar ord) (Z.of_nat r) None) rs) (map (fun r => GH r) rs)).
  { clear -Hr. induction rs as [|r rs IH]; [split; constructor|]. destruct IH as [I1 I2]; [intros; apply Hr; right; assumption|].
    split; constructor; try assumption; [apply den_h; left; reflexivity | apply Hr; left; reflexivity]. }
  eexists. split; [exact (C01_run_applies_gates_in_order _ (Cscalar_laws Hord) B dims levels out ty OutAmplitude _ _ HB HL Hw HA)|].
  destruct HL as [_ [Hd [_ Hv]]]. set (b := start dims levels) in *. set (psi := final dims _ (basis _ b)).
  assert (P : forall t, valid dims t -> prob (psi t) = if same_off rs b t then (/ INR (prodn (map (fun r => nth r dims 0%nat) rs)))%R else 0%R).
  { intros t Ht. apply (@spread_probs ord Hord); assumption. }
  assert (N0 : (/ INR (prodn (map (fun r => nth r dims 0%nat) rs)))%R <> 0%R).
  { apply Rinv_neq_0_compat, not_0_INR. apply (share_pos dims rs Hd Hr). }
  assert (F : filter (fun s => negb (seqb (psi s) s0)) (all_configs dims) = filter (same_off rs b) (all_configs dims)).
  { apply filter_ext_in. intros t Ht. apply in_all_configs in Ht. specialize (P t Ht).
    change (seqb (psi t) s0) with (Ceqb (psi t) C0). destruct (same_off rs b t), (Ceqb (psi t) C0) eqn:E; try reflexivity; exfalso.
    - apply Ceqb_eq in E. apply N0. rewrite <- P. apply prob_0. exact E.
    - apply prob_0 in P. rewrite (proj2 (Ceqb_eq (psi t) C0) P) in E. discriminate. }
  unfold report, answer. rewrite F. split.
  - rewrite !map_map. reflexivity.
  - intros x Hx. apply in_map_iff in Hx as [[t a] [<- Hx]]. apply in_map_iff in Hx as [t' [E Ht]]. injection E as -> <-.
    apply filter_In in Ht as [Ht Hs]. apply in_all_configs in Ht. cbn [snd reported]. rewrite P by exact Ht. rewrite Hs. reflexivity.
Qed.

(** A ququart at level 3, a qubit and a qutrit at level 1; h on the first and the
    last: twelve outcomes. *)
Example ex_C87 :
  exists l, simulate (NumpyBackend (Cscalar np_ord)) (QList [4; 2; 3]%Z) (Some [3; 1; 1]%Z) None [CH 2 None; CH 0 None]%Z = Ok l /\
  map fst l = map LStr ["|010>"; "|011>"; "|012>"; "|110>"; "|111>"; "|112>"; "|210>"; "|211>"; "|212>"; "|310>"; "|311>"; "|312>"]%string /\
  forall x, In x l -> prob (snd x) = (/ 12)%R.
Proof.
  destruct (C87_h_gates_spread_evenly np_ord np_ord_orders (NumpyBackend _) [4; 2; 3] [3; 1; 1] None OutPrint [2; 0]) as [l [H1 [H2 H3]]].
  - left; reflexivity.
  - split; [discriminate|]. split; [simpl; intros; lia|]. split; [simpl; lia|]. repeat (constructor; [simpl; lia|]). constructor.
  - right; auto.
  - repeat constructor; simpl; intuition lia.
  - simpl; intros; lia.
  - exists l. split; [exact H1|]. split; [rewrite H2; vm_compute; reflexivity|].
    intros x Hx. rewrite (H3 x Hx). simpl. f_equal. lra.
Qed.

Print Assumptions C87_h_gates_spread_evenly.
