(** * Props_NumDims: circuits whose dimensions are numpy integers (C132). *)
From Coq Require Import List Arith ZArith Lia Bool.
From Verif Require Import Py Scalar Mat Utils Gates Circuit Spec Calls HistSpec InfoSpec CallSpec ShapeSpec RaiseSpec Lib History BackendEq Run Props_Run RunsIff NumArgs NumDims NumDimsThm WrongSize.
Import ListNotations.
Set Implicit Arguments.

(** The call with all numbers as [int]. *)
Definition in_ints {S} (k : dcall S) : call S :=
  match k with
  | DCall k => k
  | DGate u q d => CGate u (RInt q) (Some d)
  | DList u l d => CGate u (RList l) (Some d)
  end.

(** The matrices of gate() on one register are square, with the dimension the
    gate gets: the dims argument, or that of the register if there is none.
    On a list this is asked of a dims argument that is a numpy integer.
    Nothing is asked of a gate that gets its dimension as an [int] argument. *)
Definition own_size {S} (ds : list number) (k : dcall S) : Prop :=
  let has (u : mat S) d := Z.of_nat (mr u) = d /\ Z.of_nat (mc u) = d in
  match k with
  | DCall (CGate u (RInt q) None) | DCall (CGate u (RInt q) (Some 0%Z)) | DGate u q 0%Z =>
      forall d, py_get (map value ds) q = Ok d -> has u d
  | DGate u _ d => has u d
  | DList u _ d => d <> 0%Z -> has u d
  | _ => True
  end.

(** gate() on register [r] for a matrix [u], where the dimension it gets is a
    numpy integer: that of the register, or a dims argument that is not larger. *)
Inductive unchecked {S} (ds : list number) (u : mat S) (r : nat) : dcall S -> Prop :=
| un_reg : forall dm z, r < length ds -> nth r ds (PyInt 0) = NumInt z -> dm = None \/ dm = Some 0%Z ->
    unchecked ds u r (DCall (CGate u (RInt (Z.of_nat r)) dm))
| un_dims : forall d, r < length ds -> d <> 0%Z -> (d <= value (nth r ds (PyInt 0)))%Z ->
    unchecked ds u r (DGate u (Z.of_nat r) d).

Lemma own_reads : forall S ds (k : dcall S), own_size ds k -> reads_as ds k (in_ints k).
Proof.
  intros S ds k H.
  assert (G : forall q z, py_get ds q = Ok (NumInt z) -> py_get (map value ds) q = Ok z) by (intros q z E; rewrite get_value, E; reflexivity).
  destruct k as [k|u q d|u l d]; cbn [in_ints]; [| |apply ra_list; exact H].
  - destruct k as [| | | | |u [q|l] dm| |]; try (apply ra_call; discriminate). apply ra_int. intros z Hz. cbn [own_size] in H.
    destruct dm as [[|p|p]|]; cbn in Hz; try discriminate; apply H, G; exact Hz.
  - apply ra_num. intros z Hz. destruct d as [|p|p]; cbn in Hz; [apply H, G; exact Hz | |]; injection Hz as <-; exact H.
Qed.

Lemma unchecked_reads : forall S ds (u : mat S) r k, unchecked ds u r k ->
  reads_as ds k (CGate u (RList [Z.of_nat r; Z.of_nat r; Z.of_nat r]) None).
Proof.
  intros S ds u r k [dm z Hr Hn Hdm|d Hr Hd Hle].
  - assert (E : py_get ds (Z.of_nat r) = Ok (NumInt z)) by (rewrite (@Lib.py_get_nat _ ds r (PyInt 0) Hr), Hn; reflexivity).
    apply ra_int3; [exact Hr | | exists z; destruct Hdm; subst dm; exact E].
    intros d Hd H0. destruct Hdm; subst dm; [discriminate|]. injection Hd as <-. contradiction.
  - apply ra_num3; [exact Hr | exact Hle |]. exists d. unfold given. cbn [value]. rewrite (proj2 (Z.eqb_neq d 0) Hd). reflexivity.
Qed.

Lemma all_own : forall S ds (ks : list (dcall S)), Forall (own_size ds) ks -> Forall2 (reads_as ds) ks (map in_ints ks).
Proof. intros S ds ks H. induction H; constructor; [apply own_reads; assumption | assumption]. Qed.

Lemma asks_own : forall S ds dims (k : call S) g, map value ds = map Z.of_nat dims -> denotes dims k g -> gate_ok dims g -> own_size ds (DCall k).
Proof.
  intros S ds dims k g E D G. destruct D; try exact I. destruct G as [Hr _].
  assert (X : forall d, py_get (map value ds) (Z.of_nat r) = Ok d -> Z.of_nat (mr M) = d /\ Z.of_nat (mc M) = d).
  { intros d. rewrite E, (@Lib.py_get_nat _ _ r 0%Z) by (rewrite map_length; exact Hr). rewrite GateTof.nth_map_Z. intros X. injection X as <-. lia. }
  cbn [own_size]. destruct dm as [[|p|p]|]; try exact I; exact X.
Qed.

Lemma asks_all_own : forall S ds dims (ks : list (call S)) prog, map value ds = map Z.of_nat dims -> asks dims ks prog -> Forall (own_size ds) (map DCall ks).
Proof.
  intros S ds dims ks prog E [F O]. induction F as [|k g ks prog D F IH]; [constructor|]. inversion O; subst.
  constructor; [eapply asks_own; eassumption | apply IH; assumption].
Qed.

Lemma in_ints_calls : forall S (ks : list (call S)), map in_ints (map DCall ks) = ks.
Proof. intros S ks. rewrite map_map. cbn [in_ints]. apply map_id. Qed.

(** ** C132: dimensions that are numpy integers do what ints do, as long as the
    matrices given to gate() for one register have the size of the register. *)
Theorem C132_numpy_dimensions_are_numbers :
  forall S (B : backend S) ds init out ks, Forall (own_size ds) ks ->
  dims_simulate B ds init out ks = simulate B (QList (map value ds)) init out (map in_ints ks).
Proof. intros S B ds init out ks H. apply simulate_reads, all_own, H. Qed.

(** So a valid program has the same answer. *)
Theorem C132_valid_programs_run :
  forall S (L : scalar_laws S) (B : backend S) ds dims levels out ty me ks prog,
  supported B -> line dims levels -> wants dims out ty me -> asks dims ks prog -> map value ds = map Z.of_nat dims ->
  dims_simulate B ds (Some (map Z.of_nat levels)) out (map DCall ks)
  = Ok (report ty me (answer dims (final dims prog (basis S (start dims levels))))).
Proof.
  intros S L B ds dims levels out ty me ks prog HB Hl Hw Ha E.
  rewrite C132_numpy_dimensions_are_numbers by (eapply asks_all_own; eassumption).
  rewrite E, in_ints_calls. apply C01_run_applies_gates_in_order; assumption.
Qed.

(** A gate() that gets its dimension as a numpy integer does, with any matrix,
    what it does with ints on the list of the same register three times over:
    the shape of the matrix is not checked. *)
Theorem C132_the_shape_is_not_checked :
  forall S (B : backend S) ds init out ks1 ks2 u r k, Forall (own_size ds) ks1 -> Forall (own_size ds) ks2 -> unchecked ds u r k ->
  dims_simulate B ds init out (ks1 ++ k :: ks2) =
  simulate B (QList (map value ds)) init out
    (map in_ints ks1 ++ CGate u (RList [Z.of_nat r; Z.of_nat r; Z.of_nat r]) None :: map in_ints ks2).
Proof.
  intros S B ds init out ks1 ks2 u r k H1 H2 Hk. apply simulate_reads. apply Forall2_app; [apply all_own; exact H1|].
  constructor; [apply unchecked_reads; exact Hk | apply all_own; exact H2].
Qed.

(** A unitary matrix of the wrong size in an otherwise valid program is then
    accepted, and run() raises ValueError when it multiplies the layers; with
    ints run() raises too (C32), but AssertionError in the cases below. *)
Theorem C132_a_wrong_size_is_a_ValueError :
  forall S (L : scalar_laws S) (B : backend S) ds dims levels out ty me ks1 prog1 ks2 prog2 u r k,
  supported B -> line dims levels -> wants dims out ty me -> asks dims ks1 prog1 -> asks dims ks2 prog2 ->
  map value ds = map Z.of_nat dims -> unchecked ds u r k ->
  mr u = mc u -> orthonormal u = true -> mr u <> nth r dims 0 ->
  dims_simulate B ds (Some (map Z.of_nat levels)) out (map DCall ks1 ++ k :: map DCall ks2) = Err ValueError.
Proof.
  intros S L B ds dims levels out ty me ks1 prog1 ks2 prog2 u r k HB [H1 [H2 [H3 H4]]] Hw A1 A2 E Hk Hsq Hu Hne.
  rewrite (@C132_the_shape_is_not_checked S B ds _ _ _ _ u r k (asks_all_own ds E A1) (asks_all_own ds E A2) Hk). rewrite E, !in_ints_calls.
  assert (Hr : r < length dims) by (rewrite <- (map_length Z.of_nat dims), <- E, map_length; destruct Hk; assumption).
  assert (AG : forall (ks : list (call S)) prog, asks dims ks prog -> Forall (asks_gate dims) ks).
  { clear. intros ks prog [F O]. induction F as [|k g ks prog D F IH]; [constructor|]. inversion O; subst. constructor; [exists g; auto | auto]. }
  pose proof (@wrong_size S L dims levels out ty me H1 H2 H3 H4 Hw ks1 ks2 r u (AG _ _ A1) (AG _ _ A2) Hr Hsq Hu Hne) as W.
  rewrite <- W. unfold simulate. destruct (mk_circuit _ _ _ _); [|reflexivity]. cbn [bind]. destruct (script _ _); [|reflexivity]. cbn [bind].
  apply supported_run; assumption.
Qed.

(** gate() on a list of registers with a numpy integer as dims argument, not
    above any of their dimensions, does what it does with ints on the list
    written three times, without dims. *)
Theorem C132_a_list_with_numpy_dims :
  forall S (B : backend S) ds init out ks1 ks2 u l d, Forall (own_size ds) ks1 -> Forall (own_size ds) ks2 ->
  l <> [] -> d <> 0%Z -> (forall r, In r l -> r < length ds /\ (d <= value (nth r ds (PyInt 0)))%Z) ->
  dims_simulate B ds init out (ks1 ++ DList u (map Z.of_nat l) d :: ks2) =
  simulate B (QList (map value ds)) init out
    (map in_ints ks1 ++ CGate u (RList (map Z.of_nat (l ++ l ++ l))) None :: map in_ints ks2).
Proof.
  intros S B ds init out ks1 ks2 u l d H1 H2 Hl Hd Hin. apply simulate_reads. apply Forall2_app; [apply all_own; exact H1|].
  constructor; [|apply all_own; exact H2]. rewrite !map_app. apply ra_list3; [destruct l; [contradiction | discriminate] | exact Hd |].
  intros q Hq. apply in_map_iff in Hq as [r [<- Hr]]. exists r. split; [reflexivity | apply Hin; exact Hr].
Qed.

(** So it works on two registers, where it is an AssertionError with ints, and
    on any other list: the gate acts on the span of the registers. *)
Theorem C132_gates_on_two_registers :
  forall S (L : scalar_laws S) (B : backend S) ds dims levels out ty me ks1 prog1 ks2 prog2 M u l r k d,
  supported B -> line dims levels -> wants dims out ty me -> asks dims ks1 prog1 -> asks dims ks2 prog2 ->
  map value ds = map Z.of_nat dims ->
  In r l -> In (r + k - 1) l -> (forall x, In x l -> r <= x < r + k) ->
  d <> 0%Z -> (forall x, In x l -> (d <= Z.of_nat (nth x dims 0%nat))%Z) ->
  holds_entries (span dims r k) M u -> gate_ok dims (GSpan r k u) ->
  dims_simulate B ds (Some (map Z.of_nat levels)) out (map DCall ks1 ++ DList M (map Z.of_nat l) d :: map DCall ks2)
  = Ok (report ty me (answer dims (final dims (prog1 ++ GSpan r k u :: prog2) (basis S (start dims levels))))).
Proof.
  intros S L B ds dims levels out ty me ks1 prog1 ks2 prog2 M u l r k d HB Hl Hw A1 A2 E I1 I2 I3 Hd Hle Hh G.
  assert (EL : length ds = length dims) by (rewrite <- (map_length value ds), E, map_length; reflexivity).
  assert (EV : forall x, value (nth x ds (PyInt 0)) = Z.of_nat (nth x dims 0%nat)).
  { intros x. rewrite <- (map_nth value), E. change (value (PyInt 0)) with (Z.of_nat 0). apply map_nth. }
  pose proof G as [Gk [Gb _]].
  rewrite C132_a_list_with_numpy_dims; [| exact (asks_all_own ds E A1) | exact (asks_all_own ds E A2) | intros ->; contradiction | exact Hd |].
  - rewrite E, !in_ints_calls. apply C01_run_applies_gates_in_order; try assumption.
    destruct A1 as [F1 O1]. destruct A2 as [F2 O2]. split.
    + apply Forall2_app; [exact F1|]. constructor; [|exact F2]. apply den_span.
      * left; reflexivity.
      * apply in_or_app; left; exact I1.
      * apply in_or_app; left; exact I2.
      * intros x Hx. apply I3. apply in_app_or in Hx as [Hx|Hx]; [exact Hx|]. apply in_app_or in Hx as [Hx|Hx]; exact Hx.
      * right. rewrite !app_length. destruct l; [contradiction | simpl; lia].
      * exact Hh.
    + apply Forall_app. split; [exact O1|]. constructor; assumption.
  - intros x Hx. specialize (I3 x Hx). rewrite EV, EL. split; [lia | apply Hle; exact Hx].
Qed.

(** A square unitary matrix of another size than the span of the registers, in
    an otherwise valid program: the call is accepted and run() raises
    ValueError.  This holds for lists with a numpy dims, and with ints for lists
    of three or more registers, whose matrices are not checked either. *)
Theorem C132_a_wrong_size_on_a_list :
  forall S (L : scalar_laws S) (B : backend S) ds dims levels out ty me ks1 prog1 ks2 prog2 u l r k,
  supported B -> line dims levels -> wants dims out ty me -> asks dims ks1 prog1 -> asks dims ks2 prog2 ->
  map value ds = map Z.of_nat dims ->
  1 <= k -> r + k <= length dims -> In r l -> In (r + k - 1) l -> (forall x, In x l -> r <= x < r + k) ->
  mr u = mc u -> orthonormal u = true -> mr u <> length (all_configs (span dims r k)) ->
  (forall d, d <> 0%Z -> (forall x, In x l -> (d <= Z.of_nat (nth x dims 0%nat))%Z) ->
     dims_simulate B ds (Some (map Z.of_nat levels)) out (map DCall ks1 ++ DList u (map Z.of_nat l) d :: map DCall ks2) = Err ValueError) /\
  (2 < length l ->
     simulate B (QList (map Z.of_nat dims)) (Some (map Z.of_nat levels)) out (ks1 ++ CGate u (RList (map Z.of_nat l)) None :: ks2) = Err ValueError).
Proof.
  intros S L B ds dims levels out ty me ks1 prog1 ks2 prog2 u l r k HB [H1 [H2 [H3 H4]]] Hw A1 A2 E Hk Hr I1 I2 I3 Hsq Hu Hne.
  assert (EL : length ds = length dims) by (rewrite <- (map_length value ds), E, map_length; reflexivity).
  assert (EV : forall x, value (nth x ds (PyInt 0)) = Z.of_nat (nth x dims 0%nat)).
  { intros x. rewrite <- (map_nth value), E. change (value (PyInt 0)) with (Z.of_nat 0). apply map_nth. }
  assert (AG : forall (ks : list (call S)) prog, asks dims ks prog -> Forall (asks_gate dims) ks).
  { clear. intros ks prog [F O]. induction F as [|k g ks prog D F IH]; [constructor|]. inversion O; subst. constructor; [exists g; auto | auto]. }
  rewrite all_configs_length in Hne.
  assert (W : forall l', 2 < length l' -> In r l' -> In (r + k - 1) l' -> (forall x, In x l' -> r <= x < r + k) ->
    simulate B (QList (map Z.of_nat dims)) (Some (map Z.of_nat levels)) out (ks1 ++ CGate u (RList (map Z.of_nat l')) None :: ks2) = Err ValueError).
  { intros l' J1 J2 J3 J4.
    pose proof (@wrong_size_list S L dims levels out ty me H1 H2 H3 H4 Hw ks1 ks2 l' r k u (AG _ _ A1) (AG _ _ A2) J1 Hk Hr J2 J3 J4 Hsq Hu Hne) as W.
    rewrite <- W. unfold simulate. destruct (mk_circuit _ _ _ _); [|reflexivity]. cbn [bind]. destruct (script _ _); [|reflexivity]. cbn [bind].
    apply supported_run; assumption. }
  split; [|intros H; apply W; assumption]. intros d Hd Hle.
  rewrite C132_a_list_with_numpy_dims; [| exact (asks_all_own ds E A1) | exact (asks_all_own ds E A2) | intros ->; contradiction | exact Hd |].
  - rewrite E, !in_ints_calls. apply W.
    + rewrite !app_length. destruct l; [contradiction | simpl; lia].
    + apply in_or_app; left; exact I1.
    + apply in_or_app; left; exact I2.
    + intros x Hx. apply I3. apply in_app_or in Hx as [Hx|Hx]; [exact Hx|]. apply in_app_or in Hx as [Hx|Hx]; exact Hx.
  - intros x Hx. specialize (I3 x Hx). rewrite EV, EL. split; [lia | apply Hle; exact Hx].
Qed.

(** A tuple (n, d) with a numpy integer d: the same on the circuit made from the
    tuple of ints, for matrices of the right size and for unchecked ones. *)
Theorem C132_tuples :
  forall S (B : backend S) n d init out ks1 ks2, (0 <= n)%Z ->
  let ds := repeat d (Z.to_nat n) in
  Forall (own_size ds) ks1 -> Forall (own_size ds) ks2 ->
  tuple_simulate B n d init out ks1 = simulate B (QTuple [n; value d]) init out (map in_ints ks1) /\
  forall u r k, unchecked ds u r k ->
  tuple_simulate B n d init out (ks1 ++ k :: ks2) =
  simulate B (QTuple [n; value d]) init out
    (map in_ints ks1 ++ CGate u (RList [Z.of_nat r; Z.of_nat r; Z.of_nat r]) None :: map in_ints ks2).
Proof.
  intros S B n d init out ks1 ks2 Hn ds H1 H2. split; [apply tuple_reads; [exact Hn | apply all_own; exact H1]|].
  intros u r k Hk. apply tuple_reads; [exact Hn|]. apply Forall2_app; [apply all_own; exact H1|].
  constructor; [apply unchecked_reads; exact Hk | apply all_own; exact H2].
Qed.

(** ** Concrete cases *)
Section Examples.
Open Scope Z_scope.
Let S := Zscalar.
Let ds := [NumInt 2; PyInt 2; NumInt 3].
Let dims : list nat := [2; 2; 3]%nat.
Let swap2 : mat S := mkmat 2 2 (fun i j => (if Nat.eqb i j then 0 else 1) : S).
Let one3 : mat S := deye S 3 3.

Example ex_C132_own : Forall (own_size ds) [DCall (CX 0 None 1); DCall (CGate swap2 (RInt 0) None); DGate one3 2 3; DCall (CCX [0; 2] 1)].
Proof.
  apply Forall_forall. intros k [<-|[<-|[<-|[<-|[]]]]]; cbn [own_size]; [exact I | | split; reflexivity | exact I].
  intros d E. vm_compute in E. injection E as <-. split; reflexivity.
Qed.

Example ex_C132_unchecked : unchecked ds one3 0 (DCall (CGate one3 (RInt 0) None)) /\ unchecked ds one3 1 (DGate one3 1 2) /\
  mr one3 = mc one3 /\ orthonormal one3 = true /\ mr one3 <> nth 0 dims 0%nat /\ mr one3 <> nth 1 dims 0%nat.
Proof.
  split; [apply un_reg with (z := 2); [simpl; lia | reflexivity | left; reflexivity]|].
  split; [apply (@un_dims S ds one3 1 2); [simpl; lia | lia | cbn; lia]|].
  split; [reflexivity|]. split; [vm_compute; reflexivity|]. split; discriminate.
Qed.

(** The gate is accepted in both cases; only the exception of run() differs.
    The register with an int dimension still has its check. *)
Example ex_C132_exceptions :
  dims_simulate (NumpyBackend S) ds None None [DCall (CX 1 None 1); DCall (CGate one3 (RInt 0) None)] = Err ValueError /\
  simulate (NumpyBackend S) (QList [2; 2; 3]) None None [CX 1 None 1; CGate one3 (RInt 0) None] = Err AssertionError /\
  dims_simulate (NumpyBackend S) ds None None [DCall (CGate one3 (RInt 1) None)] = Err AssertionError /\
  dims_simulate (NumpyBackend S) ds None None [DCall (CGate one3 (RInt 0) (Some 2))] = Err AssertionError /\
  dims_simulate (NumpyBackend S) ds None None [DGate one3 1 2] = Err ValueError.
Proof. do 4 (split; [vm_compute; reflexivity|]). vm_compute; reflexivity. Qed.

(** A two-register gate: cx as a matrix, by ints and by a numpy dims. *)
Let cx2 : mat S := mkmat 4 4 (fun i j => (if Nat.eqb j (match i with 2 => 3 | 3 => 2 | _ => i end)%nat then 1 else 0) : S).
Example ex_C132_two :
  dims_simulate (NumpyBackend S) ds None None [DCall (CX 0 None 1); DList cx2 [0; 1] 2] =
  simulate (NumpyBackend S) (QList [2; 2; 3]) None None [CX 0 None 1; CCX [0; 1] 1] /\
  simulate (NumpyBackend S) (QList [2; 2; 3]) None None [CX 0 None 1; CGate cx2 (RList [0; 1]) None] = Err AssertionError /\
  simulate (NumpyBackend S) (QList [2; 2; 3]) None None [CX 0 None 1; CGate cx2 (RList [0; 1]) (Some 2)] = Err AssertionError /\
  dims_simulate (NumpyBackend S) ds None None [DCall (CX 0 None 1); DList cx2 [0; 1] 0] = Err AssertionError /\
  holds_entries (span dims 0 2) cx2 (entries [2; 2]%nat cx2) /\ orthonormal cx2 = true.
Proof.
  do 4 (split; [vm_compute; reflexivity|]). split; [|vm_compute; reflexivity]. apply (@holds_own S [2; 2]%nat cx2); reflexivity.
Qed.
Example ex_C132_list_size :
  dims_simulate (NumpyBackend S) ds None None [DCall (CX 0 None 1); DList one3 [0; 1] 2] = Err ValueError /\
  dims_simulate (NumpyBackend S) ds None None [DCall (CX 0 None 1); DList (deye S 6 6) [1; 0] 1] = Err ValueError /\
  simulate (NumpyBackend S) (QList [2; 2; 3]) None None [CGate cx2 (RList [0; 1; 2]) None; CX 2 None 1] = Err ValueError /\
  orthonormal one3 = true /\ length (all_configs (span dims 0 2)) = 4%nat.
Proof. do 4 (split; [vm_compute; reflexivity|]). reflexivity. Qed.
Example ex_C132_two_ok : gate_ok dims (GSpan 0 2 (entries [2; 2]%nat cx2)).
Proof.
  split; [lia|]. split; [simpl; lia|]. apply (@entries_ok S [2; 2]%nat cx2); vm_compute; reflexivity.
Qed.

(** A tuple with its own output: [swap2] fits, [one3] is not checked. *)
Example ex_C132_tuple :
  let o := Some {| o_base := [2; 2]; o_type := OutState; o_method := OutAmplitude |} in
  tuple_simulate (NumpyBackend S) 2 (NumInt 2) None o [DCall (CGate swap2 (RInt 1) None)] =
  simulate (NumpyBackend S) (QList [2; 2]) None o [CX 1 None 1] /\
  tuple_simulate (NumpyBackend S) 2 (NumInt 2) None o [DCall (CX 0 None 1); DCall (CGate one3 (RInt 1) None)] = Err ValueError /\
  tuple_simulate (NumpyBackend S) 2 (PyInt 2) None o [DCall (CX 0 None 1); DCall (CGate one3 (RInt 1) None)] = Err AssertionError.
Proof. do 2 (split; [vm_compute; reflexivity|]). vm_compute; reflexivity. Qed.

Example ex_C132_runs :
  dims_simulate (NumpyBackend S) ds None None [DCall (CGate swap2 (RInt 0) None); DCall (CX 2 None 2)] =
  simulate (NumpyBackend S) (QList [2; 2; 3]) None None [CX 0 None 1; CX 2 None 2].
Proof. vm_compute; reflexivity. Qed.
End Examples.

Print Assumptions C132_numpy_dimensions_are_numbers.
Print Assumptions C132_valid_programs_run.
Print Assumptions C132_the_shape_is_not_checked.
Print Assumptions C132_a_wrong_size_is_a_ValueError.
Print Assumptions C132_a_list_with_numpy_dims.
Print Assumptions C132_gates_on_two_registers.
Print Assumptions C132_a_wrong_size_on_a_list.
Print Assumptions C132_tuples.
