(** * Props_Debug: the description of a layer (C93). *)
From Coq Require Import String.
From Verif Require Import Py Scalar Mat Gates Circuit Info Spec Calls Lib Kern GateMat BackendEq HistSpec ExLib Props_Run.
Local Notation length := List.length.
Open Scope list_scope.
Open Scope nat_scope.

(** The class of an operation with a matrix, and the shape of that matrix. *)
Inductive described {S} : op S -> string * (nat * nat) -> Prop :=
| de_init : forall d s q v, described (OInit d s q v) ("InitState"%string, (mr v, mc v))
| de_i : forall q d, described (OI q (Z.of_nat d)) ("IGate"%string, (d, d))
| de_h : forall q d, 1 <= d -> described (OH q (Z.of_nat d)) ("HGate"%string, (d, d))
| de_x : forall q d p, (- Z.of_nat d <= p < Z.of_nat d)%Z -> described (OX q (Z.of_nat d) p) ("XGate"%string, (d, d))
| de_z : forall q d, described (OZ q (Z.of_nat d)) ("ZGate"%string, (d, d))
| de_cx : forall ds c t p n, (forall d, In d ds -> 0 < d) -> length ds = n ->
    Z.of_nat n = (Z.abs (c - t) + 1)%Z -> c <> t ->
    described (OCX (map Z.of_nat ds) [c; t] p) ("CXGate"%string, (fold_right Nat.mul 1 ds, fold_right Nat.mul 1 ds))
| de_tof : forall cs t p ds l u n, is_unitary u = true -> 3 <= length ds -> mr u = n -> mc u = n ->
    described (OTof cs t p ds l u) ("Toffoli"%string, (n, n)).

Lemma described_sparse : forall S (L : scalar_laws S) (o : op S) name r c M,
  unitary (NumpyBackend S) o = Ok M -> mr M = r -> mc M = c -> class_name o = name -> is_meas o = false ->
  (if is_meas o then Err AttributeError
   else u <- unitary (SparseBackend S) o ;; let a := b_toarray u in Ok (class_name o, (mr a, mc a))) = Ok (name, (r, c)).
Proof.
  intros S L o name r c M E Er Ec En Em. rewrite Em. pose proof (same_unitary L o) as H. rewrite E in H.
  inversion H as [a b HR Ea Eb|]; subst. destruct HR as [H1 H2 _ _]. cbn [bind]. cbv zeta.
  change (mr (b_toarray (b := SparseBackend S) b)) with (cr b). change (mc (b_toarray (b := SparseBackend S) b)) with (cc b).
  rewrite H1, H2. reflexivity.
Qed.

(** ** C93 *)
Theorem C93_layers_are_described :
  forall S (L : scalar_laws S) (m : moment S) l,
  Forall2 described (m_operations m) l -> moment_to_repr (SparseBackend S) m = Ok l.
Proof.
  intros S L m l H. unfold moment_to_repr. induction H as [|o x os xs Ho HF IH]; [reflexivity|]. cbn [mapM].
  rewrite IH. clear IH HF. inversion Ho; subst; clear Ho.
  - erewrite (described_sparse S L _ _ _ _ v); reflexivity.
  - erewrite (described_sparse S L _ _ d d (deye S d d)); try reflexivity. cbn [unitary]. rewrite Nat2Z.id. reflexivity.
  - destruct (h_unitary_spec L H) as [M [E [E1 [E2 _]]]].
    erewrite (described_sparse S L _ _ d d M); try reflexivity; try assumption. cbn [unitary]. rewrite E. reflexivity.
  - destruct (x_unitary_spec S d H) as [M [E [E1 [E2 _]]]].
    erewrite (described_sparse S L _ _ d d M); try reflexivity; try assumption. cbn [unitary]. rewrite E. reflexivity.
  - destruct (z_unitary_spec L d) as [M [E [E1 [E2 _]]]].
    erewrite (described_sparse S L _ _ d d M); try reflexivity; try assumption. cbn [unitary]. rewrite E. reflexivity.
  - set (si := Z.to_nat (if (c <? t)%Z then 0 else c - t)%Z). set (ti := Z.to_nat (if (c <? t)%Z then t - c else 0)%Z).
    destruct (@repr_cx S L ds c t p si ti) as [M [E [E1 E2 _]]].
    + exact H.
    + unfold si. destruct (Z.ltb_spec c t); lia.
    + unfold ti. destruct (Z.ltb_spec c t); lia.
    + unfold si. destruct (Z.ltb_spec c t); lia.
    + unfold ti. destruct (Z.ltb_spec c t); lia.
    + erewrite (described_sparse S L _ _ _ _ M); try reflexivity; assumption.
  - erewrite (described_sparse S L _ _ (mr u) (mr u) u); try reflexivity; try assumption.
    cbn [unitary]. unfold arb_unitary. rewrite H. destruct ds as [|? [|? [|? ds]]]; simpl in *; try lia; reflexivity.
Qed.

(** A measurement has no matrix: a layer that holds one after described
    operations has no description. *)
Theorem C93_measurements_have_no_description :
  forall S (L : scalar_laws S) (m : moment S) before q after l,
  m_operations m = before ++ OMeas q :: after -> Forall2 described before l ->
  moment_to_repr (SparseBackend S) m = Err AttributeError.
Proof.
  intros S L m before q after l E H.
  pose proof (C93_layers_are_described S L {| m_name := m_name m; m_operations := before; m_list := m_list m;
    m_prev := m_prev m; m_next := m_next m |} l H) as X.
  unfold moment_to_repr in *. rewrite E. cbn [m_operations] in X. clear E H. revert l X.
  induction before as [|o os IH]; intros l X; [reflexivity|]. cbn [app mapM] in *.
  destruct (if is_meas o then _ else _) as [y|e]; [|discriminate]. cbn [bind] in *.
  apply bind_ok in X as [ys [X1 X2]]. rewrite (IH _ X1). reflexivity.
Qed.

Section Examples.
Open Scope Z_scope.
Let S := Zscalar.
Let c : circuit S := after (forced (mk_circuit S (QList [2; 3; 2]) (Some [1]) None)) [CX 1 None 1; CX 0 None 1; CCX [2; 1] 1; CTof [0; 2] 1 1].

(** The x on register 0 joined the layer later and does not show. *)
Example ex_C93 : map (moment_to_repr (SparseBackend S)) (f_list (c_flow c))
  = [Ok [("InitState", (2, 1)); ("InitState", (3, 1)); ("InitState", (2, 1))]%nat%string;
     Ok [("IGate", (2, 2)); ("XGate", (3, 3)); ("IGate", (2, 2))]%nat%string;
     Ok [("IGate", (2, 2)); ("CXGate", (6, 6))]%nat%string;
     Ok [("Toffoli", (12, 12))]%nat%string].
Proof. vm_compute. reflexivity. Qed.
End Examples.

Print Assumptions C93_layers_are_described.
Print Assumptions C93_measurements_have_no_description.
