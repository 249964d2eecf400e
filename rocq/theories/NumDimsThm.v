(** * NumDimsThm: facts about dims_api. *)
From Verif Require Import Py Scalar Mat Utils Gates Circuit Spec Calls HistSpec CallSpec ShapeSpec InfoSpec Lib Kern GateMat GateTof Flow Layers Blocks Refine History Merge Errors Construct Relate Ignored BadGates Reject Shapes InfoLib Exact OneList ListRegs ListThm NumArgs NumDims.
Set Implicit Arguments.

Section NumDimsThm.
Variable S : scalar.
Notation op := (op S).
Notation mat := (mat S).
Notation circuit := (circuit S).
Notation call := (call S).
Notation dcall := (dcall S).

(** An arbitrary gate that is not checked, and one with the same matrix. *)
Inductive Rd : op -> op -> Prop :=
| rd_refl : forall o, Rd o o
| rd_fit : forall q d u, (Z.of_nat (mr u) = d)%Z -> (Z.of_nat (mc u) = d)%Z ->
    Rd (OArb (RInt q) (RList []) u) (OArb (RInt q) (RInt d) u)
| rd_thrice : forall q x y z u, Rd (OArb (RInt q) (RList []) u) (OArb (RList [q; q; q]) (RList [x; y; z]) u)
| rd_list : forall l d u, (Z.of_nat (mr u) = d)%Z -> (Z.of_nat (mc u) = d)%Z ->
    Rd (OArb (RList l) (RList []) u) (OArb (RList l) (RInt d) u)
| rd_lists : forall l ds u, 3 <= length ds -> Rd (OArb (RList l) (RList []) u) (OArb (RList (l ++ l ++ l)) (RList ds) u).

Lemma Rd_alike : forall o o', Rd o o' -> alike o o'.
Proof.
  intros o o' H. destruct H as [o|q d u H1 H2|q x y z u|l d u H1 H2|l ds u H]; [apply alike_refl| | | |]; unfold alike; cbn [is_igate is_hxz is_meas qreg_of acting_members]; repeat split; constructor.
  - reflexivity.
  - intros r. unfold zmem. cbn [existsb]. destruct (r =? q)%Z; reflexivity.
  - reflexivity.
  - intros r. unfold zmem. rewrite !existsb_app. destruct (existsb _ l); reflexivity.
Qed.

Lemma Rd_same : forall (B : backend S) o o', Rd o o' -> unitary B o = unitary B o'.
Proof.
  intros B o o' H. destruct H as [o|q d u H1 H2|q x y z u|l d u H1 H2|l ds u H]; [reflexivity| | | |]; cbn [unitary]; unfold arb_unitary; destruct (is_unitary u); try reflexivity.
  - rewrite H1, H2, Z.eqb_refl. reflexivity.
  - rewrite H1, H2, Z.eqb_refl. reflexivity.
  - destruct ds as [|x [|y [|z ds]]]; simpl in H; try lia. reflexivity.
Qed.

Notation crel := (crel Rd).
Notation arel := (arel Rd).

Definition laid (ds : list number) (c : circuit) : Prop := c_dims c = map value ds /\ c_len c = Z.of_nat (length ds).

Lemma laid_set : forall ds (c : circuit) f, laid ds c -> laid ds (set_flow c f).
Proof. intros ds c f H. exact H. Qed.

Lemma add_moment_laid : forall ds (c c' : circuit) q g b, laid ds c -> add_moment c q g = Ok (c', b) -> laid ds c'.
Proof.
  intros ds c c' q g b H E. unfold add_moment in E. apply bind_ok in E as [d [_ E]]. apply bind_ok in E as [[f x] [_ E]]. injection E as <- _. exact H.
Qed.

Lemma user_laid : forall ds (c c' : circuit) u q dm b, laid ds c -> user_dims ds c u q dm = Ok (c', b) -> laid ds c'.
Proof.
  intros ds c c' u q dm b H E. unfold user_dims in E. apply bind_ok in E as [? [_ E]]. apply bind_ok in E as [? [_ E]]. eapply add_moment_laid; eassumption.
Qed.

Lemma list_laid : forall ds (c c' : circuit) u l d b, laid ds c -> list_dims c u l d = Ok (c', b) -> laid ds c'.
Proof.
  intros ds c c' u l d b H E. unfold list_dims in E. apply bind_ok in E as [? [_ E]]. apply bind_ok in E as [? [_ E]]. eapply add_moment_laid; eassumption.
Qed.

Lemma api_laid : forall ds (c c' : circuit) k b, laid ds c -> api c k = Ok (c', b) -> laid ds c'.
Proof.
  intros ds c c' k b H E. destruct k; cbn [api] in E;
  repeat match goal with
  | E : add_moment _ _ _ = Ok _ |- _ => eapply add_moment_laid; eassumption
  | E : Err _ = Ok _ |- _ => discriminate
  | E : Ok _ = Ok _ |- _ => injection E; intros; subst; exact H
  | E : bind (add_moment _ _ _) _ = Ok _ |- _ => apply bind_ok in E as [[? ?] [? E]]; injection E; intros; subst
  | E : bind _ _ = Ok _ |- _ => apply bind_ok in E as [? [_ E]]
  | E : context[match ?x with _ => _ end] |- _ => destruct x
  end.
Qed.

Lemma get_value : forall (ds : list number) q, py_get (map value ds) q = match py_get ds q with Ok d => Ok (value d) | Err e => Err e end.
Proof.
  intros ds q. unfold py_get. rewrite map_length. destruct (py_index (length ds) q) as [k|]; [|reflexivity].
  rewrite nth_error_map. destruct (nth_error ds k); reflexivity.
Qed.

(** What [dims or self._reg_dims[qreg]] comes to. *)
Definition given (ds : list number) (q : Z) (dm : option number) : res number :=
  match dm with
  | Some v => if (value v =? 0)%Z then py_get ds q else Ok v
  | None => py_get ds q
  end.

Lemma user_fit : forall ds (c c' : circuit) u q dm, laid ds c -> crel c c' ->
  (forall z, given ds q dm = Ok (NumInt z) -> Z.of_nat (mr u) = z /\ Z.of_nat (mc u) = z) ->
  res_rel arel (user_dims ds c u q dm) (api c' (CGate u (RInt q) (option_map value dm))).
Proof.
  intros ds c c' u q dm [L1 L2] Hc HF. unfold user_dims. cbn [api validate].
  assert (V : validate1 c' q (option_map value dm) = validate1 c q (option_map value dm)).
  { unfold validate1. rewrite <- (cr_len Hc), <- (cr_dims Hc). reflexivity. }
  rewrite V. destruct (validate1 c q _); [|constructor]. cbn [bind].
  assert (D : dims_or c' (option_map value dm) q = match given ds q dm with Ok d => Ok (value d) | Err e => Err e end).
  { unfold dims_or, given. rewrite <- (cr_dims Hc), L1. destruct dm as [v|]; cbn [option_map]; [|apply get_value].
    destruct (value v =? 0)%Z; [apply get_value | reflexivity]. }
  rewrite D. fold (given ds q dm). destruct (given ds q dm) as [d|e] eqn:E; [|constructor]. cbn [bind].
  apply add_moment_rel; [exact rd_refl | exact Rd_alike | exact Hc | reflexivity |].
  destruct d as [z|z]; cbn [checked value]; [constructor|]. destruct (HF z eq_refl). constructor; assumption.
Qed.

Lemma layer_rel : forall dims q (g g' : op) k, Rd g g' -> Forall2 Rd (layer_int dims q g k) (layer_int dims q g' k).
Proof.
  intros dims q g g' k H. unfold layer_int. induction (seq 0 k) as [|i l IH]; constructor; [|exact IH].
  destruct (Z.of_nat i =? q)%Z; [exact H | constructor].
Qed.

Lemma laid_ok : forall ds (c : circuit), laid ds c -> len_ok c.
Proof.
  intros ds c [L1 L2]. unfold len_ok, zrange. rewrite L1, L2, map_length. rewrite Z.sub_0_r, Nat2Z.id. apply map_ext. intros i. lia.
Qed.

Lemma thrice_data : forall (c : circuit) q (g : op), len_ok c -> (0 <= q)%Z -> moment_data c (RList [q; q; q]) g = moment_data c (RInt q) g.
Proof.
  intros c q g Hl Hq. rewrite (moment_data_int _ _ Hl).
  assert (E : py_min [q; q; q] = Ok q /\ py_max [q; q; q] = Ok q).
  { split; unfold py_min, py_max; cbn [fold_left]; rewrite ?Z.min_id, ?Z.max_id; reflexivity. }
  destruct E as [E1 E2]. rewrite (@moment_data_list S c [q; q; q] g q q Hl E1 E2). rewrite layer_int_list. reflexivity.
Qed.

(** An unchecked gate is a gate on the same register three times over. *)
Lemma user_thrice : forall ds (c c' : circuit) u r dm, laid ds c -> crel c c' -> r < length ds ->
  (forall v, dm = Some v -> value v <> 0%Z -> (value v <= value (nth r ds (PyInt 0)))%Z) ->
  (exists z, given ds (Z.of_nat r) dm = Ok (NumInt z)) ->
  res_rel arel (user_dims ds c u (Z.of_nat r) dm) (api c' (CGate u (RList [Z.of_nat r; Z.of_nat r; Z.of_nat r]) None)).
Proof.
  intros ds c c' u r dm Hl Hc Hr Hdm [z Hz]. pose proof (laid_ok Hl) as Hk. destruct Hl as [L1 L2].
  assert (G : py_get (c_dims c) (Z.of_nat r) = Ok (value (nth r ds (PyInt 0)))).
  { rewrite L1, get_value, (@Lib.py_get_nat _ ds r (PyInt 0) Hr). reflexivity. }
  unfold user_dims. cbn [api validate mapM].
  assert (V : validate1 c (Z.of_nat r) (option_map value dm) = Ok tt).
  { unfold validate1. rewrite L2. destruct (Z.ltb_spec (Z.of_nat (length ds) - 1) (Z.of_nat r)); [lia|].
    destruct dm as [v|]; [|reflexivity]. cbn [option_map]. destruct (Z.eqb_spec (value v) 0) as [|Hv0]; [reflexivity|]. rewrite G. cbn [bind].
    specialize (Hdm v eq_refl Hv0). destruct (Z.ltb_spec (value (nth r ds (PyInt 0))) (value v)); [lia | reflexivity]. }
  assert (V' : validate1 c' (Z.of_nat r) None = Ok tt).
  { unfold validate1. rewrite <- (cr_len Hc), L2. destruct (Z.ltb_spec (Z.of_nat (length ds) - 1) (Z.of_nat r)); [lia | reflexivity]. }
  rewrite V, V'. fold (given ds (Z.of_nat r) dm). rewrite Hz. cbn [bind]. rewrite <- (cr_dims Hc), G. cbn [bind checked].
  assert (Hk' : len_ok c') by (unfold len_ok in *; rewrite <- (cr_len Hc), <- (cr_dims Hc); exact Hk).
  unfold add_moment. rewrite thrice_data by (assumption || lia). rewrite !moment_data_int by assumption. cbn [bind].
  assert (El : length (f_list (c_flow c)) = length (f_list (c_flow c'))).
  { pose proof (cr_list Hc) as X. clear - X. induction X; simpl; auto. }
  eapply rr_bind.
  - apply (@populate_rel S Rd); [exact Rd_alike | apply crel_flow; exact Hc |].
    rewrite El. unfold mk_moment, mrel. cbn [m_name m_prev m_next m_list]. repeat split.
    rewrite <- (cr_dims Hc). apply layer_rel. constructor.
  - intros [f b] [f' b'] [X Y]. cbn in *. constructor. split; [apply crel_set; assumption | exact Y].
Qed.

(** Lists of registers *)
Lemma list_fit : forall (c c' : circuit) u l d, crel c c' ->
  (d <> 0%Z -> Z.of_nat (mr u) = d /\ Z.of_nat (mc u) = d) ->
  res_rel arel (list_dims c u l d) (api c' (CGate u (RList l) (Some d))).
Proof.
  intros c c' u l d Hc HF. unfold list_dims. cbn [api].
  assert (V : validate c' (RList l) (Some d) = validate c (RList l) (Some d)).
  { unfold validate, validate1. rewrite <- (cr_len Hc), <- (cr_dims Hc). reflexivity. }
  rewrite V. destruct (validate c (RList l) (Some d)); [|constructor]. cbn [bind]. rewrite <- (cr_dims Hc).
  destruct (Z.eqb_spec d 0) as [->|Hd].
  - destruct (mapM _ l); [|constructor]. cbn [bind]. apply add_moment_rel; [exact rd_refl | exact Rd_alike | exact Hc | apply same_extent_refl | constructor].
  - cbn [bind checked]. destruct (HF Hd). apply add_moment_rel; [exact rd_refl | exact Rd_alike | exact Hc | apply same_extent_refl | constructor; assumption].
Qed.

Lemma list_thrice : forall ds (c c' : circuit) u l d, laid ds c -> crel c c' -> l <> [] -> d <> 0%Z ->
  (forall q, In q l -> exists r, q = Z.of_nat r /\ r < length ds /\ (d <= value (nth r ds (PyInt 0)))%Z) ->
  res_rel arel (list_dims c u l d) (api c' (CGate u (RList (l ++ l ++ l)) None)).
Proof.
  intros ds c c' u l d [L1 L2] Hc Hl Hd Hin. unfold list_dims. cbn [api].
  assert (G : forall r, r < length ds -> py_get (c_dims c) (Z.of_nat r) = Ok (value (nth r ds (PyInt 0)))).
  { intros r Hr. rewrite L1, get_value, (@Lib.py_get_nat _ ds r (PyInt 0) Hr). reflexivity. }
  assert (V : validate c (RList l) (Some d) = Ok tt).
  { cbn [validate]. assert (X : exists us, mapM (fun q => validate1 c q (Some d)) l = Ok us).
    { clear Hl. induction l as [|q l IH]; [eexists; reflexivity|]. destruct IH as [us E]; [intros; apply Hin; right; assumption|].
      destruct (Hin q (or_introl eq_refl)) as [r [-> [Hr Hle]]]. cbn [mapM]. unfold validate1 at 1. rewrite L2.
      destruct (Z.ltb_spec (Z.of_nat (length ds) - 1) (Z.of_nat r)); [lia|]. rewrite (proj2 (Z.eqb_neq d 0) Hd), G by exact Hr. cbn [bind].
      destruct (Z.ltb_spec (value (nth r ds (PyInt 0))) d); [lia|]. cbn [bind]. rewrite E. eexists; reflexivity. }
    destruct X as [us ->]. reflexivity. }
  assert (Hin3 : forall q, In q (l ++ l ++ l) -> In q l) by (intros q Hq; apply in_app_or in Hq as [Hq|Hq]; [|apply in_app_or in Hq as [Hq|Hq]]; assumption).
  assert (V' : validate c' (RList (l ++ l ++ l)) None = Ok tt).
  { cbn [validate]. assert (X : forall l', (forall q, In q l' -> In q l) -> exists us, mapM (fun q => validate1 c' q None) l' = Ok us).
    { intros l' H. induction l' as [|q l' IH]; [eexists; reflexivity|]. destruct IH as [us E]; [intros; apply H; right; assumption|].
      destruct (Hin q (H q (or_introl eq_refl))) as [r [-> [Hr _]]]. cbn [mapM]. unfold validate1 at 1. rewrite <- (cr_len Hc), L2.
      destruct (Z.ltb_spec (Z.of_nat (length ds) - 1) (Z.of_nat r)); [lia|]. cbn [bind]. rewrite E. eexists; reflexivity. }
    destruct (X _ Hin3) as [us ->]. reflexivity. }
  assert (D : forall l', (forall q, In q l' -> In q l) -> exists r, mapM (py_get (c_dims c')) l' = Ok r /\ length r = length l').
  { intros l' H. induction l' as [|q l' IH]; [eexists; split; reflexivity|]. destruct IH as [r' [E El]]; [intros; apply H; right; assumption|].
    destruct (Hin q (H q (or_introl eq_refl))) as [r [-> [Hr _]]]. cbn [mapM]. rewrite <- (cr_dims Hc), G, (cr_dims Hc) by exact Hr. cbn [bind]. rewrite E.
    eexists. split; [reflexivity|]. simpl. congruence. }
  destruct (D _ Hin3) as [r [Er Elr]]. rewrite V, V', (proj2 (Z.eqb_neq d 0) Hd). cbn [bind checked]. rewrite Er. cbn [bind].
  apply add_moment_rel; [exact rd_refl | exact Rd_alike | exact Hc | |].
  - cbn [same_extent].
    assert (M : (exists a, py_min l = Ok a /\ In a l /\ forall y, In y l -> (a <= y)%Z) /\ exists b, py_max l = Ok b /\ In b l /\ forall y, In y l -> (y <= b)%Z).
    { destruct l as [|x l']; [contradiction|]. split; [apply py_min_ex | apply py_max_ex]. }
    destruct M as [[a [Ea [A1 A2]]] [b [Eb [B1 B2]]]]. rewrite Ea, Eb.
    split; symmetry; [apply py_min_unique | apply py_max_unique]; try (apply in_or_app; left; assumption); intros y Hy; auto.
  - apply rd_lists. rewrite Elr, !app_length. destruct l; [contradiction | simpl; lia].
Qed.

(** ** Whole scripts *)
Inductive reads_as (ds : list number) : dcall -> call -> Prop :=
| ra_call : forall k, (forall u q dm, k <> CGate u (RInt q) dm) -> reads_as ds (DCall k) k
| ra_int : forall u q dm, (forall z, given ds q (option_map PyInt dm) = Ok (NumInt z) -> Z.of_nat (mr u) = z /\ Z.of_nat (mc u) = z) ->
    reads_as ds (DCall (CGate u (RInt q) dm)) (CGate u (RInt q) dm)
| ra_num : forall u q d, (forall z, given ds q (Some (NumInt d)) = Ok (NumInt z) -> Z.of_nat (mr u) = z /\ Z.of_nat (mc u) = z) ->
    reads_as ds (DGate u q d) (CGate u (RInt q) (Some d))
| ra_int3 : forall u r dm, r < length ds -> (forall d, dm = Some d -> d <> 0%Z -> (d <= value (nth r ds (PyInt 0)))%Z) ->
    (exists z, given ds (Z.of_nat r) (option_map PyInt dm) = Ok (NumInt z)) ->
    reads_as ds (DCall (CGate u (RInt (Z.of_nat r)) dm)) (CGate u (RList [Z.of_nat r; Z.of_nat r; Z.of_nat r]) None)
| ra_num3 : forall u r d, r < length ds -> (d <= value (nth r ds (PyInt 0)))%Z ->
    (exists z, given ds (Z.of_nat r) (Some (NumInt d)) = Ok (NumInt z)) ->
    reads_as ds (DGate u (Z.of_nat r) d) (CGate u (RList [Z.of_nat r; Z.of_nat r; Z.of_nat r]) None)
| ra_list : forall u l d, (d <> 0%Z -> Z.of_nat (mr u) = d /\ Z.of_nat (mc u) = d) ->
    reads_as ds (DList u l d) (CGate u (RList l) (Some d))
| ra_list3 : forall u l d, l <> [] -> d <> 0%Z ->
    (forall q, In q l -> exists r, q = Z.of_nat r /\ r < length ds /\ (d <= value (nth r ds (PyInt 0)))%Z) ->
    reads_as ds (DList u l d) (CGate u (RList (l ++ l ++ l)) None).

Lemma call_reads : forall ds k k' (c c' : circuit), reads_as ds k k' -> laid ds c -> crel c c' ->
  res_rel arel (dims_api ds c k) (api c' k').
Proof.
  intros ds k k' c c' H Hl Hc. destruct H as [k Hk|u q dm HF|u q d HF|u r dm Hr Hd Hz|u r d Hr Hd Hz|u l d HF|u l d Hl' Hd Hin].
  - assert (E : dims_api ds c (DCall k) = api c k).
    { destruct k as [| | | | |u [q|l] dm| |]; try reflexivity. exfalso. exact (Hk _ _ _ eq_refl). }
    rewrite E. apply api_rel; [exact rd_refl | exact Rd_alike | exact Hc].
  - cbn [dims_api]. replace dm with (option_map value (option_map PyInt dm)) at 2 by (destruct dm; reflexivity). apply user_fit; assumption.
  - cbn [dims_api]. apply (@user_fit ds c c' u q (Some (NumInt d))); assumption.
  - cbn [dims_api]. apply user_thrice; try assumption. intros v Hv. destruct dm as [d|]; [|discriminate]. injection Hv as <-. exact (Hd d eq_refl).
  - cbn [dims_api]. apply user_thrice; try assumption. intros v Hv _. injection Hv as <-. exact Hd.
  - cbn [dims_api]. apply list_fit; assumption.
  - cbn [dims_api]. eapply list_thrice; eassumption.
Qed.

Lemma dims_api_laid : forall ds (c c' : circuit) k b, laid ds c -> dims_api ds c k = Ok (c', b) -> laid ds c'.
Proof.
  intros ds c c' k b H E. destruct k as [k|u q d|u l d]; [|eapply user_laid; eassumption | eapply list_laid; eassumption].
  destruct k as [| | | | |u [q|l] dm| |]; cbn [dims_api] in E; try (eapply api_laid; eassumption). eapply user_laid; eassumption.
Qed.

Lemma script_reads : forall ds ks ks', Forall2 (reads_as ds) ks ks' -> forall c c' : circuit, laid ds c -> crel c c' ->
  res_rel crel (dims_script ds c ks) (script c' ks').
Proof.
  intros ds ks ks' H. induction H as [|k k' ks ks' Hk H IH]; intros c c' Hl Hc; [constructor; exact Hc|].
  cbn [dims_script script]. pose proof (call_reads Hk Hl Hc) as X. destruct (dims_api ds c k) as [[x b]|e] eqn:E; inversion X as [? y Hx|]; subst; cbn [bind].
  - destruct y as [y b']. destruct Hx as [Hx _]. apply IH; [eapply dims_api_laid; eassumption | exact Hx].
  - constructor.
Qed.

Theorem simulate_reads : forall (B : backend S) ds init out ks ks', Forall2 (reads_as ds) ks ks' ->
  dims_simulate B ds init out ks = simulate B (QList (map value ds)) init out ks'.
Proof.
  intros B ds init out ks ks' H. unfold dims_simulate, simulate.
  destruct (mk_circuit S (QList (map value ds)) init out) as [c|e] eqn:E; [|reflexivity]. cbn [bind].
  destruct (new_layout _ _ _ E) as [_ [L2 [L1 _]]]. rewrite map_length in L2.
  assert (X : res_rel crel (dims_script ds c (ks ++ [DCall CMeasureAll])) (script c (ks' ++ [CMeasureAll]))).
  { apply script_reads; [|split; assumption | apply crel_refl; exact rd_refl].
    apply Forall2_app; [exact H|]. constructor; [|constructor]. constructor. discriminate. }
  destruct X as [x y X|e]; cbn [bind]; [|reflexivity]. apply (@run_same S Rd B); [intros; apply Rd_same; assumption | exact X].
Qed.

Theorem tuple_reads : forall (B : backend S) n d init out ks ks', (0 <= n)%Z -> Forall2 (reads_as (zrepeat n d)) ks ks' ->
  tuple_simulate B n d init out ks = simulate B (QTuple [n; value d]) init out ks'.
Proof.
  intros B n d init out ks ks' Hn H. unfold tuple_simulate, simulate.
  destruct (mk_circuit S (QTuple [n; value d]) init out) as [c|e] eqn:E; [|reflexivity]. cbn [bind].
  assert (Hl : laid (zrepeat n d) c).
  { unfold mk_circuit in E. apply bind_ok in E as [[len dims] [E1 E]]. unfold reg_layout in E1. cbn in E1. injection E1 as <- <-.
    apply bind_ok in E as [f [_ E]]. injection E as <-. unfold laid, zrepeat. simpl. rewrite repeat_length. split; [|lia].
    clear. induction (Z.to_nat n) as [|k IH]; [reflexivity | simpl; rewrite IH; reflexivity]. }
  assert (X : res_rel crel (dims_script (zrepeat n d) c (ks ++ [DCall CMeasureAll])) (script c (ks' ++ [CMeasureAll]))).
  { apply script_reads; [|exact Hl | apply crel_refl; exact rd_refl].
    apply Forall2_app; [exact H|]. constructor; [|constructor]. constructor. discriminate. }
  destruct X as [x y X|e]; cbn [bind]; [|reflexivity]. apply (@run_same S Rd B); [intros; apply Rd_same; assumption | exact X].
Qed.
End NumDimsThm.
