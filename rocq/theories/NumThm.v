(** * NumThm: facts about num_api. *)
From Verif Require Import Py Scalar Mat Utils Gates Circuit Spec Calls HistSpec CallSpec ShapeSpec InfoSpec Lib Kern GateMat GateTof Flow Layers Blocks Refine History Merge Errors Construct Relate Ignored BadGates Reject Shapes InfoLib Exact OneList ListRegs ListThm NumArgs.
Set Implicit Arguments.

Section NumThm.
Variable S : scalar.
Notation op := (op S).
Notation mat := (mat S).
Notation circuit := (circuit S).
Notation call := (call S).
Notation num_call := (num_call S).

(** ** One number *)
Lemma plain_single : forall (c : circuit) m q dm, api c (plainly (Single m q dm)) =
  (_ <- validate1 c (value q) dm ;; d <- dims_or c dm (value q) ;; add_moment c (RInt (value q)) (gate_of S m (value q) d)).
Proof. intros c [|p|] q dm; reflexivity. Qed.

Definition array_free (k : num_call) : Prop := match k with TofArray _ _ _ => False | _ => True end.

Lemma num_plain : forall (c : circuit) k x, array_free k -> num_api c k = Ok x -> api c (plainly k) = Ok x.
Proof.
  intros c k x Ha H. destruct k as [m [q|q] dm|u [q|q] dm|cs t p|k]; try exact H; [| |contradiction].
  - cbn [num_api] in H. rewrite plain_single. cbn [value]. unfold single_num in H.
    destruct (validate1 c q dm); [|discriminate]. cbn [bind] in *. destruct (dims_or c dm q) as [d|]; [|discriminate]. cbn [bind] in *.
    unfold add_moment. destruct (moment_data c (RInt q) _) as [data|]; [|discriminate]. cbn [bind] in *.
    unfold populate_num in H. destruct (rev (f_list (c_flow c))) as [|last before] eqn:Er; [exact H|].
    destruct (forallb _ (f_meas (c_flow c))) eqn:Em.
    + unfold populate_opflow. rewrite Er, Em. exact H.
    + destruct (find _ _); [discriminate | exact H].
  - cbn [num_api] in H. unfold user_num in H. destruct (validate1 c q dm); discriminate.
Qed.

Lemma num_script_plain : forall ks (c x : circuit), Forall array_free ks -> num_script false c ks = Ok x -> script c (map (@plainly S) ks) = Ok x.
Proof.
  intros ks; induction ks as [|k ks IH]; intros c x Ha H; [exact H|]. inversion Ha; subst. cbn [map num_script script] in *.
  destruct (num_api c k) as [[c' b]|] eqn:E; [|discriminate]. rewrite (num_plain _ _ H2 E). cbn [bind] in *. apply IH; [assumption|].
  destruct (Nat.eqb _ _); [exact H|]. destruct k; try exact H. contradiction.
Qed.

Section Hist.
Variables (dims : list nat) (init : option (list Z)) (out : option output) (ks : list call) (c : circuit).
Hypothesis H : history (QList (map Z.of_nat dims)) init out ks c.
Notation n := (length dims).

Lemma flow_nonempty : exists last before, rev (f_list (c_flow c)) = last :: before.
Proof.
  destruct (history_inv H) as [l0 [ls I]]. destruct (rev (f_list (c_flow c))) as [|last before] eqn:Er; [|eauto].
  exfalso. apply (f_equal (@rev _)) in Er. rewrite rev_involutive in Er. pose proof (i_list I) as El. unfold layers in El. rewrite Er in El. discriminate.
Qed.

Definition fits (r : nat) (dm : option Z) : Prop := forall d, dm = Some d -> (d <= Z.of_nat (nth r dims 0%nat))%Z.

Lemma fits_validate : forall r dm, r < n -> fits r dm -> validate1 c (Z.of_nat r) dm = Ok tt.
Proof.
  intros r dm Hr Hf. pose proof (hl_shaped dims H) as Hs. unfold validate1. rewrite (sh_len Hs).
  destruct (Z.ltb_spec (Z.of_nat n - 1) (Z.of_nat r)); [lia|]. destruct dm as [d|]; [|reflexivity].
  destruct (Z.eqb_spec d 0); [reflexivity|]. rewrite (sh_get Hs Hr). cbn [bind]. specialize (Hf d eq_refl).
  destruct (Z.ltb_spec (Z.of_nat (nth r dims 0)) d); [lia | reflexivity].
Qed.

Lemma inside_dims : forall r dm, r < n -> exists d, dims_or c dm (Z.of_nat r) = Ok d.
Proof.
  intros r dm Hr. pose proof (hl_shaped dims H) as Hs. unfold dims_or. rewrite (sh_get Hs Hr).
  destruct dm as [d|]; [destruct (d =? 0)%Z|]; eauto.
Qed.

Lemma has_gate : forall r g, r < n -> is_hxz g = true -> find (@is_hxz S) (layer_int (c_dims c) (Z.of_nat r) g (length (c_dims c))) <> None.
Proof.
  intros r g Hr Hg E. pose proof (hl_shaped dims H) as Hs.
  assert (Hin : In g (layer_int (c_dims c) (Z.of_nat r) g (length (c_dims c)))).
  { unfold layer_int. apply in_map_iff. exists r. rewrite Z.eqb_refl. split; [reflexivity|]. apply in_seq.
    rewrite (sh_dims Hs), map_length. lia. }
  pose proof (find_none _ _ E _ Hin). congruence.
Qed.

Lemma no_gate : forall q (g : op), (q < 0)%Z -> find (@is_hxz S) (layer_int (c_dims c) q g (length (c_dims c))) = None.
Proof.
  intros q g Hq. destruct (find _ _) as [o|] eqn:E; [|reflexivity]. apply find_some in E as [E1 E2].
  unfold layer_int in E1. apply in_map_iff in E1 as [k [<- _]].
  destruct (Z.eqb_spec (Z.of_nat k) q); [lia|]. discriminate.
Qed.

Theorem inside_refused : forall m r dm, ~ In CMeasureAll ks -> r < n -> fits r dm -> num_api c (Single m (NumInt (Z.of_nat r)) dm) = Err TypeError.
Proof.
  intros m r dm Hm Hr Hf. cbn [num_api]. unfold single_num. rewrite (fits_validate Hr Hf). cbn [bind].
  destruct (inside_dims dm Hr) as [d ->]. cbn [bind].
  destruct (history_inv H) as [l0 [ls I]]. rewrite (moment_data_int _ _ (i_len I)). cbn [bind].
  destruct flow_nonempty as [last [before Er]]. unfold populate_num. rewrite Er.
  assert (Em : forallb (fun b => b) (f_meas (c_flow c)) = false).
  { rewrite (hl_nregs dims) in I. rewrite (i_meas I), forallb_repeat.
    destruct (existsb (@is_measure_all S) ks) eqn:E; [apply measured_in in E; contradiction|].
    rewrite andb_false_r, orb_false_r. apply Nat.eqb_neq. lia. }
  rewrite Em. cbn [m_list mk_moment].
  destruct (find _ _) eqn:E; [reflexivity|]. destruct (has_gate _ Hr (gate_of_hxz S m (Z.of_nat r) d) E).
Qed.

Theorem inside_user : forall u r dm, r < n -> fits r dm -> num_api c (User u (NumInt (Z.of_nat r)) dm) = Err UnboundLocalError.
Proof. intros u r dm Hr Hf. cbn [num_api]. unfold user_num. rewrite (fits_validate Hr Hf). reflexivity. Qed.

Theorem past_num : forall m u q dm, (Z.of_nat n <= q)%Z ->
  num_api c (Single m (NumInt q) dm) = Err ValueError /\ num_api c (User u (NumInt q) dm) = Err ValueError.
Proof.
  intros m u q dm Hq. pose proof (hl_shaped dims H) as Hs. cbn [num_api]. unfold single_num, user_num, validate1. rewrite (sh_len Hs).
  destruct (Z.ltb_spec (Z.of_nat n - 1) q); [split; reflexivity | lia].
Qed.

Theorem negative_num : forall m q dm, (q < 0)%Z -> num_api c (Single m (NumInt q) dm) = api c (plainly (Single m (NumInt q) dm)).
Proof.
  intros m q dm Hq. rewrite plain_single. cbn [num_api value]. unfold single_num, add_moment.
  destruct (validate1 c q dm); [|reflexivity]. cbn [bind]. destruct (dims_or c dm q) as [d|]; [|reflexivity]. cbn [bind].
  destruct (history_inv H) as [l0 [ls I]]. rewrite (moment_data_int _ _ (i_len I)). cbn [bind].
  destruct flow_nonempty as [last [before Er]]. unfold populate_num. rewrite Er.
  destruct (forallb _ (f_meas (c_flow c))) eqn:Em.
  - unfold populate_opflow. rewrite Er, Em. reflexivity.
  - cbn [m_list mk_moment]. rewrite no_gate by exact Hq. reflexivity.
Qed.

Theorem measured_num : forall m r dm, In CMeasureAll ks -> r < n -> fits r dm -> num_api c (Single m (NumInt (Z.of_nat r)) dm) = Ok (c, false).
Proof.
  intros m r dm Hm Hr Hf. cbn [num_api]. unfold single_num. rewrite (fits_validate Hr Hf). cbn [bind].
  destruct (inside_dims dm Hr) as [d ->]. cbn [bind].
  destruct (history_inv H) as [l0 [ls I]]. rewrite (moment_data_int _ _ (i_len I)). cbn [bind].
  destruct flow_nonempty as [last [before Er]]. unfold populate_num. rewrite Er.
  rewrite (hl_nregs dims) in I. apply measured_in in Hm. rewrite Hm, andb_true_r in I.
  assert (Hn : 0 < n) by lia. rewrite (proj2 (Nat.ltb_lt 0 n) Hn) in I.
  rewrite (i_meas I), forallb_repeat, orb_true_r. cbn [bind]. destruct c; reflexivity.
Qed.
End Hist.

(** ** cx with an array *)
Lemma fold_stuck : forall (A X : Type) (f : res A -> X -> res A) l e, (forall x, f (Err e) x = Err e) -> fold_left f l (Err e) = Err e.
Proof. intros A X f l e H. induction l as [|x l IH]; [reflexivity|]. cbn [fold_left]. rewrite H. exact IH. Qed.

Section Pair.
Variables (dims : list nat) (init : option (list Z)) (out : option output) (ks : list call) (c : circuit).
Hypothesis H : history (QList (map Z.of_nat dims)) init out ks c.
Notation n := (length dims).
Variables (a b : nat) (p : Z).
Hypothesis Ha : a < n.
Hypothesis Hb : b < n.

Let lo := Nat.min a b.
Let hi := Nat.max a b.
Let Elo : py_min [Z.of_nat a; Z.of_nat b] = Ok (Z.of_nat lo).
Proof. unfold py_min, lo. cbn [fold_left]. f_equal. lia. Qed.
Let Ehi : py_max [Z.of_nat a; Z.of_nat b] = Ok (Z.of_nat hi).
Proof. unfold py_max, hi. cbn [fold_left]. f_equal. lia. Qed.

Lemma pair_member : forall k, zmem (Z.of_nat k) (zrange (Z.of_nat lo) (Z.of_nat hi + 1)) = ((lo <=? k) && (k <=? hi)).
Proof.
  intros k. apply eq_true_iff_eq. rewrite zmem_spec, in_zrange, andb_true_iff, !Nat.leb_le. lia.
Qed.

Theorem pair_inside : lo = 0 -> hi + 1 = n -> cx_array c (Z.of_nat a) (Z.of_nat b) p = api c (CCX [Z.of_nat a; Z.of_nat b] p).
Proof.
  intros L1 L2. pose proof (hl_shaped dims H) as Hs. cbn [api]. unfold cx_array.
  change (py_get [Z.of_nat a; Z.of_nat b] 0) with (Ok (Z.of_nat a)). change (py_get [Z.of_nat a; Z.of_nat b] 1) with (Ok (Z.of_nat b)). cbn [bind].
  unfold add_moment. set (g := OCX _ _ _).
  replace (moment_data_array c [Z.of_nat a; Z.of_nat b] g) with (moment_data c (RList [Z.of_nat a; Z.of_nat b]) g); [reflexivity|].
  unfold moment_data_array, moment_data. rewrite Elo, Ehi. cbn [bind]. f_equal.
  assert (Hk : forall x, In x (zrange 0 (c_len c)) -> zmem x (zrange (Z.of_nat lo) (Z.of_nat hi + 1)) = true).
  { intros x Hx. apply in_zrange in Hx. rewrite (sh_len Hs) in Hx. apply zmem_spec, in_zrange. lia. }
  revert Hk. generalize (zrange 0 (c_len c)) as l. generalize (Ok ([], false) : res (list op * bool)) as acc.
  intros acc l. revert acc. induction l as [|x l IH]; intros acc Hk; [reflexivity|]. cbn [fold_left].
  rewrite (Hk x (or_introl eq_refl)). apply IH. intros y Hy. apply Hk. right. exact Hy.
Qed.

Theorem pair_outside : lo <> 0 \/ hi + 1 <> n -> cx_array c (Z.of_nat a) (Z.of_nat b) p = Err ValueError.
Proof.
  intros Ho. pose proof (hl_shaped dims H) as Hs. unfold cx_array, moment_data_array. rewrite Elo, Ehi. cbn [bind].
  assert (Hx : exists x, In x (zrange 0 (c_len c)) /\ zmem x (zrange (Z.of_nat lo) (Z.of_nat hi + 1)) = false).
  { rewrite (sh_len Hs). destruct Ho as [Ho|Ho].
    - exists (Z.of_nat 0). split; [apply in_zrange; lia|]. rewrite pair_member. apply andb_false_iff. left. apply Nat.leb_gt. lia.
    - exists (Z.of_nat (hi + 1)). split; [apply in_zrange; unfold hi in *; lia|]. rewrite pair_member. apply andb_false_iff. right. apply Nat.leb_gt. lia. }
  match goal with |- bind (bind (fold_left ?f ?l _) _) _ = _ => set (F := f); assert (E : forall d, fold_left F l (Ok d) = Err ValueError) end.
  { assert (Hg : forall x, In x (zrange 0 (c_len c)) -> exists d, py_get (c_dims c) x = Ok d).
    { intros x Hx'. apply in_zrange in Hx'. rewrite (sh_len Hs) in Hx'. rewrite <- (Z2Nat.id x) by lia. rewrite (sh_get Hs) by lia. eauto. }
    destruct Hx as [x [Hx E]]. revert Hx Hg. generalize (zrange 0 (c_len c)) as l.
    induction l as [|y l IH]; intros Hx Hg d; [contradiction|]. cbn [fold_left]. unfold F at 2. cbn [bind]. destruct d as [d ad].
    destruct (zmem y (zrange (Z.of_nat lo) (Z.of_nat hi + 1))) eqn:Ey.
    - destruct Hx as [->|Hx]; [congruence|]. destruct ad; apply IH; auto; intros; apply Hg; right; assumption.
    - destruct (Hg y (or_introl eq_refl)) as [dy ->]. cbn [bind]. apply fold_stuck. intros z. reflexivity. }
  rewrite E. reflexivity.
Qed.
End Pair.

(** ** Controls in an array *)
Section Array.
Variables (dims : list nat) (cs : list nat) (t mx : nat).
Hypothesis H0 : In 0 cs.
Hypothesis Hmx : In mx cs.
Hypothesis Hle : forall x, In x cs -> x <= mx.
Hypothesis Ht1 : 1 <= t.
Hypothesis Hpred : In (t - 1) cs.
Hypothesis Htmx : t < mx.
Hypothesis Hend : t + mx < length dims.

(** The control taken for [x]. *)
Definition taken (x : nat) : nat := if x <? t then x + mx + 1 else x.

Lemma array_lb : py_min (map (fun x => x + Z.of_nat t)%Z (map Z.of_nat cs)) = Ok (Z.of_nat t) /\
  py_max (map (fun x => x + Z.of_nat t)%Z (map Z.of_nat cs)) = Ok (Z.of_nat (t + mx)).
Proof.
  clear Ht1 Hpred Htmx Hend. rewrite map_map. rewrite (map_ext _ (fun x => Z.of_nat (x + t))) by (intros; lia). rewrite <- (map_map (fun x => x + t) Z.of_nat). split.
  - apply py_min_nat; [apply in_map_iff; exists 0; auto|]. intros y Hy. apply in_map_iff in Hy as [x [<- _]]. lia.
  - apply py_max_nat; [apply in_map_iff; exists mx; split; [lia | exact Hmx]|]. intros y Hy. apply in_map_iff in Hy as [x [<- Hx]]. specialize (Hle _ Hx). lia.
Qed.

Lemma taken_bounds : forall x, In x cs -> t <= taken x <= t + mx.
Proof. intros x Hx. specialize (Hle _ Hx). unfold taken. destruct (Nat.ltb_spec x t); lia. Qed.

Lemma list_lb : py_min (map Z.of_nat (map taken cs) ++ [Z.of_nat t]) = Ok (Z.of_nat t) /\
  py_max (map Z.of_nat (map taken cs) ++ [Z.of_nat t]) = Ok (Z.of_nat (t + mx)).
Proof.
  change [Z.of_nat t] with (map Z.of_nat [t]). rewrite <- map_app. split.
  - apply py_min_nat; [apply in_or_app; right; left; reflexivity|]. intros y Hy. apply in_app_or in Hy as [Hy|[<-|[]]]; [|lia].
    apply in_map_iff in Hy as [x [<- Hx]]. apply taken_bounds, Hx.
  - apply py_max_nat.
    + apply in_or_app. left. apply in_map_iff. exists (t - 1). split; [|exact Hpred]. unfold taken. destruct (Nat.ltb_spec (t - 1) t); lia.
    + intros y Hy. apply in_app_or in Hy as [Hy|[<-|[]]]; [|lia]. apply in_map_iff in Hy as [x [<- Hx]]. apply taken_bounds, Hx.
Qed.

Lemma array_columns : forall w, w = mx + 1 -> forall l, incl l cs ->
  mapM (fun _c => column w (_c - Z.of_nat t)) (map Z.of_nat l) = Ok (map (fun x => taken x - t) l).
Proof.
  intros w Hw l. induction l as [|x l IH]; intros Hi; [reflexivity|]. cbn [map mapM].
  assert (E : column w (Z.of_nat x - Z.of_nat t) = Ok (taken x - t)).
  { pose proof (Hle _ (Hi x (or_introl eq_refl))) as Hx. unfold column, py_index, taken. subst w.
    destruct (Nat.ltb_spec x t).
    - destruct (Z.leb_spec 0 (Z.of_nat x - Z.of_nat t)); [lia|]. cbn [andb].
      destruct (Z.leb_spec (- Z.of_nat (mx + 1)) (Z.of_nat x - Z.of_nat t)); [|lia].
      destruct (Z.ltb_spec (Z.of_nat x - Z.of_nat t) 0); [|lia]. cbn [andb]. f_equal. lia.
    - destruct (Z.leb_spec 0 (Z.of_nat x - Z.of_nat t)); [|lia].
      destruct (Z.ltb_spec (Z.of_nat x - Z.of_nat t) (Z.of_nat (mx + 1))); [|lia]. cbn [andb]. f_equal. lia. }
  rewrite E. cbn [bind]. rewrite IH by (intros y Hy; apply Hi; right; exact Hy). reflexivity.
Qed.

Theorem array_matrix : forall plus,
  toffoli_dm_array S (map Z.of_nat cs) (Z.of_nat t) plus (map Z.of_nat dims)
  = toffoli_dm S (map Z.of_nat (map taken cs)) (Z.of_nat t) plus (map Z.of_nat dims).
Proof.
  intros plus. unfold toffoli_dm_array, toffoli_dm.
  destruct array_lb as [-> ->], list_lb as [-> ->]. cbn [bind].
  destruct (mapM (py_get (map Z.of_nat dims)) (zrange (Z.of_nat t) (Z.of_nat (t + mx) + 1))) as [span|e] eqn:Es; [|reflexivity]. cbn [bind].
  assert (El : length span = mx + 1).
  { apply mapM_forall2 in Es. 
    assert (E : length (zrange (Z.of_nat t) (Z.of_nat (t + mx) + 1)) = length span) by (clear - Es; induction Es; simpl; congruence).
    rewrite <- E. unfold zrange. rewrite map_length, seq_length. lia. }
  rewrite (array_columns El (fun x h => h)). cbn [bind].
  replace (column (length span) (Z.of_nat t - Z.of_nat t)) with (@Ok nat 0).
  2:{ unfold column, py_index. rewrite Z.sub_diag. destruct (Z.ltb_spec 0 (Z.of_nat (length span))); [reflexivity | lia]. }
  cbn [bind]. destruct (py_get (map Z.of_nat dims) (Z.of_nat t)) as [dt|]; [|reflexivity]. cbn [bind].
  replace (Z.to_nat (Z.of_nat t - Z.of_nat t)) with 0 by lia.
  match goal with |- bind (mapM ?f ?l) _ = bind (mapM ?g ?l) _ => assert (Ef : mapM f l = mapM g l) end.
  { apply mapM_ext. intros [idx x] _. 
    match goal with |- (if ?a then _ else _) = (if ?b then _ else _) => assert (Eb : a = b) end.
    { transitivity (forallb (fun x0 => Z.of_nat (nth (taken x0 - t) x 0%nat) =? nth (taken x0 - t) (map (fun d => d - 1) span) 0)%Z cs).
      - generalize cs as l. induction l as [|y l IH]; [reflexivity|]. cbn [map forallb]. f_equal. exact IH.
      - generalize cs as l. induction l as [|y l IH]; [reflexivity|]. cbn [map forallb].
        replace (Z.to_nat (Z.of_nat (taken y) - Z.of_nat t)) with (taken y - t) by lia. f_equal. exact IH. }
    rewrite Eb. reflexivity. }
  rewrite Ef. reflexivity.
Qed.

(** The two gates differ only in the controls they remember. *)
Definition same_but_controls (o o' : op) : Prop :=
  o = o' \/ exists a b q p ds l u, o = OTof a q p ds l u /\ o' = OTof b q p ds l u.

Lemma sbc_alike : forall o o', same_but_controls o o' -> alike o o'.
Proof.
  intros o o' [->|[a [b [q [p [ds [l [u [-> ->]]]]]]]]]; [apply alike_refl|].
  unfold alike. repeat split. constructor. reflexivity.
Qed.

Lemma sbc_unitary : forall (B : backend S) o o', same_but_controls o o' -> unitary B o = unitary B o'.
Proof. intros B o o' [->|[a [b [q [p [ds [l [u [-> ->]]]]]]]]]; reflexivity. Qed.

Theorem array_call : forall (c : circuit) plus, qregs_list (c_qregs c) = map Z.of_nat dims ->
  res_rel (arel same_but_controls) (toffoli_array c (map Z.of_nat cs) (Z.of_nat t) plus)
    (api c (CTof (map Z.of_nat (map taken cs)) (Z.of_nat t) plus)).
Proof.
  intros c plus Hq. unfold toffoli_array. cbn [api]. unfold mk_toffoli. rewrite Hq, array_matrix.
  destruct (toffoli_dm S (map Z.of_nat (map taken cs)) (Z.of_nat t) plus (map Z.of_nat dims)) as [[[u lb] ub]|e]; [|constructor]. cbn [bind].
  destruct (mapM (py_get (map Z.of_nat dims)) (zrange lb (ub + 1))) as [ds|e]; [|constructor]. cbn [bind].
  eapply rr_bind.
  - apply (@add_moment_rel S same_but_controls).
    + intros o; left; reflexivity.
    + exact sbc_alike.
    + apply crel_refl. intros o; left; reflexivity.
    + apply same_extent_refl.
    + right. exists (map Z.of_nat cs), (map Z.of_nat (map taken cs)). eauto 10.
  - intros [x b] [x' b'] [X _]. constructor. split; [exact X | reflexivity].
Qed.
End Array.

Lemma script_app_err : forall ks1 ks2 (c : circuit), script c (ks1 ++ ks2) = (c' <- script c ks1 ;; script c' ks2).
Proof.
  intros ks1 ks2; induction ks1 as [|k ks1 IH]; intros c; [reflexivity|]. cbn [app script].
  destruct (api c k) as [[c' b]|e]; [apply IH | reflexivity].
Qed.

Lemma num_script_rest : forall ks (c : circuit) l, num_script false c (map Rest ks ++ l) = (c' <- script c ks ;; num_script false c' l).
Proof.
  intros ks; induction ks as [|k ks IH]; intros c l; [reflexivity|]. cbn [map app num_script script num_api plainly with_array].
  destruct (api c k) as [[c' b]|e]; [|reflexivity]. cbn [bind]. destruct (Nat.eqb _ _); apply IH.
Qed.

(** ** The layer with the array *)
Definition is_tof (o : op) : bool := match o with OTof _ _ _ _ _ _ => true | _ => false end.
Definition plain_op (o : op) : bool := is_igate o || is_hxz o.

(** The last layer: identities, h, x and z; a Toffoli; anything, with
    identities only past [hi]. *)
Definition at_end (hi : Z) (f : opflow S) : Prop := exists last before pre o post,
  rev (f_list f) = last :: before /\ m_list last = pre ++ o :: post /\ is_tof o = true /\
  (forall x, In x pre -> plain_op x = true) /\ (forall x, In x post -> is_igate x = true -> (hi < qreg_of x)%Z).

Lemma plain_members : forall o, plain_op o = true -> acting_members o = Ok [qreg_of o] /\ array_members o = Ok [qreg_of o].
Proof. intros [] H; try discriminate; split; reflexivity. Qed.

Lemma search_same : forall pre rest k q, (forall x, In x pre -> plain_op x = true) -> (exists x, In x pre /\ qreg_of x = q) ->
  exists g i, get_qreg_array k (pre ++ rest) q = Ok (Some (g, k + i)) /\ get_qreg_moment_from k (pre ++ rest) q = Ok (Some (g, k + i)) /\ i < length pre.
Proof.
  intros pre rest; induction pre as [|o pre IH]; intros k q Hp [x [Hx E]]; [contradiction|]. cbn [app get_qreg_array get_qreg_moment_from].
  destruct (plain_members o (Hp o (or_introl eq_refl))) as [-> ->]. cbn [bind].
  destruct (zmem q [qreg_of o]) eqn:Eo.
  - exists o, 0. rewrite Nat.add_0_r. cbn [length]. split; [reflexivity|]. split; [reflexivity | lia].
  - destruct Hx as [->|Hx].
    { exfalso. assert (X : zmem q [qreg_of x] = true) by (apply zmem_spec; left; exact E). congruence. }
    destruct (IH (Datatypes.S k) q (fun y h => Hp y (or_intror h)) (ex_intro _ x (conj Hx E))) as [g [i [A [B C]]]].
    exists g, (Datatypes.S i). rewrite A, B. cbn [length]. replace (Datatypes.S k + i) with (k + Datatypes.S i) by lia.
    split; [reflexivity|]. split; [reflexivity | lia].
Qed.

Lemma idle_before : forall hi pre o post q, is_tof o = true -> (forall x, In x post -> is_igate x = true -> (hi < qreg_of x)%Z) -> (q <= hi)%Z ->
  zmem q (map (@qreg_of S) (filter (@is_igate S) (pre ++ o :: post))) = true -> exists x, In x pre /\ qreg_of x = q.
Proof.
  intros hi pre o post q Ho Hp Hq H. apply zmem_spec, in_map_iff in H as [x [E H]]. apply filter_In in H as [H1 H2].
  apply in_app_or in H1 as [H1|[->|H1]]; [eauto | destruct x; discriminate |]. specialize (Hp x H1 H2). lia.
Qed.

Lemma populate_same : forall hi f m, at_end hi f -> (forall g, find (@is_hxz S) (m_list m) = Some g -> (qreg_of g <= hi)%Z) ->
  populate_array f m = populate_opflow f m.
Proof.
  intros hi f m [last [before [pre [o [post [Er [El [Ho [Hpre Hpost]]]]]]]]] Hg. unfold populate_array, populate_opflow. rewrite Er.
  destruct (find (@is_hxz S) (m_list m)) as [g|]; [|reflexivity]. specialize (Hg g eq_refl).
  destruct (forallb _ _); [reflexivity|].
  destruct (zmem (qreg_of g) _) eqn:Ez; [|reflexivity]. unfold replace_igate. rewrite El in *.
  destruct (@search_same pre (o :: post) 0 (qreg_of g) Hpre (@idle_before hi pre o post (qreg_of g) Ho Hpost Hg Ez)) as [x [i [-> [-> Hi]]]]. cbn [bind].
  destruct (is_igate x); reflexivity.
Qed.

(** What [populate_opflow] does to such a layer. *)
Lemma populate_cases : forall hi f m f' b, at_end hi f -> forallb (fun b => b) (f_meas f) = false ->
  (forall g, find (@is_hxz S) (m_list m) = Some g -> (qreg_of g <= hi)%Z) -> populate_opflow f m = Ok (f', b) ->
  length (f_list f') = length (f_list f) + 1 \/
  length (f_list f') = length (f_list f) /\ at_end hi f' /\ f_meas f' = f_meas f /\ find (@is_hxz S) (m_list m) <> None.
Proof.
  intros hi f m f' b [last [before [pre [o [post [Er [El [Ho [Hpre Hpost]]]]]]]]] Hm Hg. unfold populate_opflow. rewrite Er, Hm.
  assert (Happ : forall meas, (forall A (x y : A), Ok x = Ok y -> x = y) ->
    (meas <- meas ;; Ok ({| f_list := append_moment (f_list f) m; f_meas := meas |}, true)) = Ok (f', b) -> length (f_list f') = length (f_list f) + 1).
  { intros [ms|e] _ E; [|discriminate]. cbn [bind] in E. injection E as <- _. cbn [f_list]. unfold append_moment. rewrite Er.
    rewrite <- (rev_length (f_list f)), Er. rewrite app_length, rev_length. simpl. lia. }
  destruct (find (@is_hxz S) (m_list m)) as [g|] eqn:Eg.
  2:{ cbn [bind]. intros E. left. revert E. apply Happ. intros A x y E; injection E; auto. }
  specialize (Hg g eq_refl).
  destruct (zmem (qreg_of g) _) eqn:Ez.
  2:{ cbn [bind]. intros E. left. revert E. apply Happ. intros A x y E; injection E; auto. }
  unfold replace_igate. rewrite El in *.
  destruct (@search_same pre (o :: post) 0 (qreg_of g) Hpre (@idle_before hi pre o post (qreg_of g) Ho Hpost Hg Ez)) as [x [i [_ [-> Hi]]]]. cbn [bind].
  destruct (is_igate x); cbn [bind].
  2:{ intros E. left. revert E. apply Happ. intros A y z E; injection E; auto. }
  intros E. injection E as <- _. right. cbn [f_list f_meas].
  split; [rewrite <- (rev_length (f_list f)), Er, app_length, rev_length; simpl; lia|]. split; [|split; [reflexivity | discriminate]].
  exists (set_list (upd (pre ++ o :: post) i g) last), before, (upd pre i g), o, post. cbn [f_list].
  split; [rewrite rev_app_distr, rev_involutive; reflexivity|].
  split; [cbn [m_list set_list]; rewrite upd_app1 by exact Hi; reflexivity|]. split; [exact Ho|]. split; [|exact Hpost].
  intros y Hy. clear - Hy Hpre Eg. apply find_some in Eg as [_ Eg]. revert i Hy; induction pre as [|z pre IH]; intros i Hy; [destruct i; contradiction|].
  destruct i as [|i]; cbn [upd] in Hy; destruct Hy as [<-|Hy].
  - unfold plain_op. rewrite Eg. apply orb_true_r.
  - apply Hpre. right. exact Hy.
  - apply Hpre. left. reflexivity.
  - apply (IH (fun w h => Hpre w (or_intror h)) i Hy).
Qed.

(** No call of the kind h, x or z on a register past [hi] before another kind
    of call. *)
Fixpoint quiet (hi : Z) (ks : list call) : Prop :=
  match ks with
  | [] => True
  | k :: ks' => (forall r, may_share k r -> (r <= hi)%Z) /\ ((exists r, may_share k r) -> quiet hi ks')
  end.

Lemma single_same : forall hi (c : circuit) m q dm, len_ok c -> at_end hi (c_flow c) -> (q <= hi)%Z ->
  single_array c m q dm = api c (plainly (Single m (PyInt q) dm)).
Proof.
  intros hi c m q dm Hl Ha Hq. rewrite plain_single. cbn [value]. unfold single_array, add_moment.
  destruct (validate1 c q dm); [|reflexivity]. cbn [bind]. destruct (dims_or c dm q) as [d|]; [|reflexivity]. cbn [bind].
  rewrite (moment_data_int _ _ Hl). cbn [bind]. rewrite (@populate_same hi); [reflexivity | exact Ha|].
  cbn [m_list mk_moment]. intros g Hg. rewrite layer_int_list, find_layer in Hg. destruct (_ <? _); [|discriminate]. rewrite gate_of_hxz in Hg. injection Hg as <-. destruct m; exact Hq.
Qed.

Lemma beside_same : forall hi (c : circuit) k, len_ok c -> at_end hi (c_flow c) -> (forall r, may_share k r -> (r <= hi)%Z) ->
  beside_array c (Rest k) = api c k.
Proof.
  intros hi c k Hl Ha Hk. destruct k; try reflexivity; cbn [beside_array]; specialize (Hk _ eq_refl); rewrite (@single_same hi) by assumption; reflexivity.
Qed.

Lemma beside_script : forall hi ks (c : circuit), len_ok c -> at_end hi (c_flow c) -> forallb (fun b => b) (f_meas (c_flow c)) = false ->
  quiet hi ks -> num_script true c (map Rest ks) = script c ks.
Proof.
  intros hi ks; induction ks as [|k ks IH]; intros c Hl Ha Hm Hq; [reflexivity|]. destruct Hq as [Q1 Q2]. cbn [map num_script script].
  rewrite (beside_same _ Hl Ha Q1). destruct (api c k) as [[c' b]|e] eqn:E; [|reflexivity]. cbn [bind with_array].
  assert (Hf : exists f m b', populate_opflow (c_flow c) m = Ok (f, b') /\ c' = set_flow c f /\
            (forall g, find (@is_hxz S) (m_list m) = Some g -> may_share k (qreg_of g))).
  { destruct k eqn:Ek.
    8:{ cbn [api] in E. apply bind_ok in E as [[f b'] [E1 E2]]. injection E2 as <- _. do 3 eexists. split; [exact E1|]. split; [reflexivity|].
        cbn [m_list mk_moment]. intros g Hg. exfalso. apply find_some in Hg as [H1 H2]. apply in_map_iff in H1 as [i [<- _]]. discriminate. }
    all: rewrite <- Ek in *; assert (Hk : k <> CMeasureAll) by (rewrite Ek; discriminate);
      destruct (api_gate Hl E Hk) as [g [lo [h [f [b' [Hi [_ [Hp [Ec _]]]]]]]]]; exists f; do 2 eexists; split; [exact Hp|]; split; [exact Ec|];
      unfold new_moment; cbn [m_list mk_moment]; intros g' Hg; rewrite find_layer in Hg; destruct (_ <? _) in Hg; [|discriminate];
      destruct (is_hxz g) eqn:Eb; [|discriminate]; injection Hg as <-; apply (issues_share _ Hi); split; [exact Eb | reflexivity]. }
  destruct Hf as [f [m [b' [Hp [-> Hs]]]]]. cbn [set_flow c_flow].
  destruct (@populate_cases hi _ _ _ _ Ha Hm (fun g h => Q1 _ (Hs g h)) Hp) as [El|[El [Ha' [Em Hx]]]].
  - rewrite El. replace (Nat.eqb _ _) with false by (symmetry; apply Nat.eqb_neq; lia).
    rewrite <- (app_nil_r (map Rest ks)), num_script_rest. cbn [num_script]. destruct (script (set_flow c f) ks); reflexivity.
  - rewrite El, Nat.eqb_refl. apply IH; [exact Hl | exact Ha' | cbn [set_flow c_flow]; rewrite Em; exact Hm|].
    apply Q2. destruct (find _ _) as [g|]; [|congruence]. eauto.
Qed.

Lemma quiet_end : forall hi ks, quiet hi ks -> quiet hi (ks ++ [CMeasureAll]).
Proof.
  intros hi ks; induction ks as [|k ks IH]; intros H; cbn [app quiet] in *.
  - split; [intros r X; contradiction | intros _; exact I].
  - destruct H as [H1 H2]. split; [exact H1|]. intros X. apply IH, H2, X.
Qed.

(** The layer just after the call with the array. *)
Lemma array_layer : forall (dims cs : list nat) (t mx : nat) (c x : circuit) p b, In 0 cs -> In mx cs -> (forall y, In y cs -> y <= mx) ->
  length (c_dims c) = length dims -> t + mx < length dims -> len_ok c ->
  f_list (c_flow c) <> [] -> toffoli_array c (map Z.of_nat cs) (Z.of_nat t) p = Ok (x, b) ->
  forallb (fun b => b) (f_meas (c_flow c)) = true /\ length (f_list (c_flow x)) = length (f_list (c_flow c)) \/
  len_ok x /\ c_dims x = c_dims c /\ c_len x = c_len c /\ f_list (c_flow x) <> [] /\
  forallb (fun b => b) (f_meas (c_flow c)) = false /\ f_meas (c_flow x) = f_meas (c_flow c) /\
  length (f_list (c_flow x)) = length (f_list (c_flow c)) + 1 /\
  exists last before ds acting u, rev (f_list (c_flow x)) = last :: before /\
    m_list last = map (idop S (c_dims c)) (seq 0 t) ++ OTof (map Z.of_nat cs) (Z.of_nat t) p ds acting u ::
                  map (idop S (c_dims c)) (seq (t + mx + 1) (length dims - (t + mx + 1))).
Proof.
  intros dims cs t mx c x p b H0 Hmx Hle Hd Hend Hl Hne E. unfold toffoli_array, toffoli_dm_array in E.
  destruct (@array_lb cs t mx H0 Hmx Hle) as [E1 E2]. rewrite E1, E2 in E. cbn [bind] in E.
  apply bind_ok in E as [[[u lb] ub] [E3 E]].
  assert (Hb : lb = Z.of_nat t /\ ub = Z.of_nat (t + mx)).
  { repeat (apply bind_ok in E3 as [? [? E3]]). injection E3 as _ <- <-. split; reflexivity. }
  destruct Hb as [-> ->]. apply bind_ok in E as [ds [_ E]]. apply bind_ok in E as [[x' b'] [E4 E]]. injection E as -> _.
  unfold add_moment in E4. apply bind_ok in E4 as [data [Edata E4]]. apply bind_ok in E4 as [[f b0] [Ep E4]]. injection E4 as <- _.
  apply (moment_data_list_ok _ _ Hl) in Edata as [lo [hi [L1 [L2 ->]]]].
  assert (Hz : zrange (Z.of_nat t) (Z.of_nat (t + mx) + 1) = map Z.of_nat (seq t (mx + 1))).
  { unfold zrange. replace (Z.to_nat (Z.of_nat (t + mx) + 1 - Z.of_nat t)) with (mx + 1) by lia. 
    replace (seq t (mx + 1)) with (seq (t + 0) (mx + 1)) by (rewrite Nat.add_0_r; reflexivity).
    generalize (mx + 1) as n. generalize 0 as a. intros a n; revert a. induction n as [|n IH]; intros a; [reflexivity|]. cbn [seq map]. rewrite <- Nat.add_succ_r.
    rewrite <- IH. f_equal. lia. }
  rewrite Hz in L1, L2.
  rewrite (@py_min_nat _ t) in L1; [|apply in_seq; lia | intros y Hy; apply in_seq in Hy; lia].
  rewrite (@py_max_nat _ (t + mx)) in L2; [|apply in_seq; lia | intros y Hy; apply in_seq in Hy; lia].
  injection L1 as <-. injection L2 as <-. cbn [set_flow c_flow c_dims c_len].
  assert (El : forall g, layer_list (c_dims c) (Z.of_nat t) (Z.of_nat (t + mx)) g (length (c_dims c)) =
     map (idop S (c_dims c)) (seq 0 t) ++ g :: map (idop S (c_dims c)) (seq (t + mx + 1) (length dims - (t + mx + 1)))).
  { intros g. rewrite layer_list_split, Hd.
    assert (A : lowr (length dims) (Z.of_nat t) = t) by (unfold lowr; lia).
    assert (B : highr (length dims) (Z.of_nat t) (Z.of_nat (t + mx)) = t + mx + 1) by (unfold highr; rewrite A; lia).
    rewrite A, B. destruct (Nat.ltb_spec t (t + mx + 1)); [reflexivity | lia]. }
  rewrite El in Ep. set (g := OTof _ _ _ _ _ _) in *.
  unfold populate_opflow in Ep. destruct (rev (f_list (c_flow c))) as [|last before] eqn:Er.
  { exfalso. apply Hne. apply (f_equal (@rev _)) in Er. rewrite rev_involutive in Er. exact Er. }
  destruct (forallb _ (f_meas (c_flow c))) eqn:Em; [injection Ep as <- _; left; split; reflexivity|]. right.
  assert (Fn : find (@is_hxz S) (layer_list (c_dims c) (Z.of_nat t) (Z.of_nat (t + mx)) g (length (c_dims c))) = None)
    by (rewrite find_layer; destruct (_ <? _); reflexivity).
  cbn [m_list mk_moment] in Ep. rewrite <- El, Fn in Ep.
  cbn [bind] in Ep. apply bind_ok in Ep as [ms [Ems Ep]]. injection Ep as <- _. cbn [f_list f_meas].
  assert (Hms : ms = f_meas (c_flow c)).
  { assert (Hn : forall o, In o (layer_list (c_dims c) (Z.of_nat t) (Z.of_nat (t + mx)) g (length (c_dims c))) -> is_meas o = false).
    { intros o Ho. apply layer_ops in Ho as [->|Ho]; [reflexivity | destruct o; try discriminate; reflexivity]. }
    revert Ems Hn. generalize (layer_list (c_dims c) (Z.of_nat t) (Z.of_nat (t + mx)) g (length (c_dims c))) as l. generalize 0 as k.
    intros k l; revert k. induction l as [|o l IH]; intros k Ed Hn; cbn [detect_measurement] in Ed; [injection Ed; auto|].
    rewrite (Hn o (or_introl eq_refl)) in Ed. cbn [bind] in Ed. apply (IH _ Ed). intros y Hy. apply Hn. right. exact Hy. }
  assert (Ea : forall m, append_moment (f_list (c_flow c)) m = rev before ++ [set_next (m_name m) last; set_prev (m_name last) m]) by (intros m; unfold append_moment; rewrite Er; reflexivity).
  rewrite Ea. split; [exact Hl|]. split; [reflexivity|]. split; [reflexivity|]. split; [destruct (rev before); discriminate|].
  split; [reflexivity|]. split; [exact Hms|]. split.
  { rewrite <- (rev_length (f_list (c_flow c))), Er, app_length, rev_length. simpl. lia. }
  eexists _, _, ds, _, u. split; [rewrite rev_app_distr; reflexivity|]. cbn [m_list set_prev mk_moment]. apply El.
Qed.

Theorem array_simulate : forall (B : backend S) dims levels out ks1 ks2 cs t mx p,
  In 0 cs -> In mx cs -> (forall x, In x cs -> x <= mx) -> 1 <= t -> In (t - 1) cs -> t < mx -> t + mx < length dims ->
  quiet (Z.of_nat (t + mx)) ks2 ->
  num_simulate B (QList (map Z.of_nat dims)) levels out (map Rest ks1 ++ TofArray (map Z.of_nat cs) (Z.of_nat t) p :: map Rest ks2)
  = simulate B (QList (map Z.of_nat dims)) levels out (ks1 ++ CTof (map Z.of_nat (map (taken t mx) cs)) (Z.of_nat t) p :: ks2).
Proof.
  intros B dims levels out ks1 ks2 cs t mx p A1 A2 A3 A4 A5 A6 A7 A8. unfold num_simulate, simulate.
  destruct (mk_circuit S (QList (map Z.of_nat dims)) levels out) as [c0|e] eqn:E0; [|reflexivity]. cbn [bind].
  rewrite <- !app_assoc. cbn [app]. rewrite num_script_rest, script_app_err.
  destruct (script c0 ks1) as [c|e] eqn:E1; [|reflexivity]. cbn [bind num_script script num_api].
  assert (Hh : history (QList (map Z.of_nat dims)) levels out ks1 c) by (exists c0; split; [exact E0 | symmetry; apply script_after; exact E1]).
  assert (Hq : qregs_list (c_qregs c) = map Z.of_nat dims) by (rewrite (history_qregs Hh); reflexivity).
  pose proof (@array_call dims cs t mx A1 A2 A3 A4 A5 A6 A7 c p Hq) as Hc.
  generalize dependent (api c (CTof (map Z.of_nat (map (taken t mx) cs)) (Z.of_nat t) p)). intros rc Hc.
  destruct (toffoli_array c (map Z.of_nat cs) (Z.of_nat t) p) as [[x b]|e] eqn:Et; inversion Hc as [a a' X Ea Eb|e' Ea Eb]; subst; [|reflexivity].
  destruct a' as [x' b']. destruct X as [X _]. cbn [fst] in X. cbn [bind].
  change [Rest CMeasureAll] with (map (@Rest S) [CMeasureAll]). rewrite <- map_app.
  assert (Es : num_script (if Nat.eqb (length (f_list (c_flow x))) (length (f_list (c_flow c))) then false else true) x (map Rest (ks2 ++ [CMeasureAll]))
               = script x (ks2 ++ [CMeasureAll])).
  { assert (Plain : num_script false x (map Rest (ks2 ++ [CMeasureAll])) = script x (ks2 ++ [CMeasureAll])).
    { rewrite <- (app_nil_r (map Rest _)), num_script_rest. cbn [num_script]. destruct (script x _); reflexivity. }
    destruct (history_inv Hh) as [l0 [ls I]].
    destruct (@array_layer dims cs t mx c x p b A1 A2 A3) as [[_ El]|[L1 [_ [_ [L2 [L3 [L4 [L5 [last [before [ds [acting [u [L6 L7]]]]]]]]]]]]]].
    - rewrite (i_dims I). apply (hl_nregs dims).
    - exact A7.
    - exact (i_len I).
    - intros Ef. pose proof (i_list I) as El. unfold layers in El. rewrite Ef in El. discriminate.
    - exact Et.
    - rewrite El, Nat.eqb_refl. exact Plain.
    - replace (Nat.eqb _ _) with false by (symmetry; apply Nat.eqb_neq; lia).
      apply (@beside_script (Z.of_nat (t + mx))); [exact L1 | | rewrite L4; exact L3 | apply quiet_end; exact A8].
      exists last, before. do 3 eexists. split; [exact L6|]. split; [exact L7|]. split; [reflexivity|]. split.
      + intros y Hy. apply in_map_iff in Hy as [i [<- _]]. reflexivity.
      + intros y Hy _. apply in_map_iff in Hy as [i [<- Hi]]. apply in_seq in Hi. cbn [idop qreg_of]. lia. }
  cbn [with_array]. rewrite Es.
  destruct (@script_rel S same_but_controls (fun o => or_introl eq_refl) sbc_alike (ks2 ++ [CMeasureAll]) x x' X) as [y y' Y|e]; [|reflexivity].
  cbn [bind]. apply (@run_same S same_but_controls B (sbc_unitary B) y y' Y).
Qed.

(** An h, x or z past the array. *)
Theorem array_then_past : forall (dims : list nat) init out ks (c x : circuit) cs t mx p b m r dm, history (QList (map Z.of_nat dims)) init out ks c ->
  ~ In CMeasureAll ks -> In 0 cs -> In mx cs -> (forall y, In y cs -> y <= mx) -> 0 < mx -> t + mx < r -> r < length dims -> fits dims r dm ->
  toffoli_array c (map Z.of_nat cs) (Z.of_nat t) p = Ok (x, b) ->
  length (f_list (c_flow x)) <> length (f_list (c_flow c)) /\ single_array x m (Z.of_nat r) dm = Err ValueError.
Proof.
  intros dims init out ks c x cs t mx p b m r dm H Hn H0 Hmx Hle Hpos Hr1 Hr2 Hf Et.
  destruct (history_inv H) as [l0 [ls I]].
  assert (Hd : length (c_dims c) = length dims) by (rewrite (i_dims I); apply (hl_nregs dims)).
  assert (Hne : f_list (c_flow c) <> []) by (intros Ef; pose proof (i_list I) as El; unfold layers in El; rewrite Ef in El; discriminate).
  assert (Em : forallb (fun b => b) (f_meas (c_flow c)) = false).
  { rewrite (hl_nregs dims) in I. rewrite (i_meas I), forallb_repeat.
    destruct (existsb (@is_measure_all S) ks) eqn:E; [apply measured_in in E; contradiction|].
    rewrite andb_false_r, orb_false_r. apply Nat.eqb_neq. lia. }
  destruct (@array_layer dims cs t mx c x p b H0 Hmx Hle Hd (Nat.lt_trans _ _ _ Hr1 Hr2) (i_len I) Hne Et) as [[X _]|[L1 [D1 [D2 [L2 [L3 [L4 [L5 [last [before [ds [acting [u [L6 L7]]]]]]]]]]]]]]; [congruence|].
  split; [lia|]. unfold single_array.
  assert (Ev : validate1 x (Z.of_nat r) dm = Ok tt) by (rewrite <- (fits_validate H Hr2 Hf); unfold validate1; rewrite D1, D2; reflexivity).
  rewrite Ev. cbn [bind]. destruct (@inside_dims dims init out ks c H r dm Hr2) as [d Ed].
  assert (Ed' : dims_or x dm (Z.of_nat r) = Ok d) by (rewrite <- Ed; unfold dims_or; rewrite D1; reflexivity).
  rewrite Ed'. cbn [bind]. rewrite (moment_data_int _ _ L1). cbn [bind]. unfold populate_array. rewrite L6. cbn [m_list mk_moment].
  rewrite layer_int_list, find_layer, gate_of_hxz, D1, Hd.
  assert (A : lowr (length dims) (Z.of_nat r) = r) by (unfold lowr; lia).
  assert (B : highr (length dims) (Z.of_nat r) (Z.of_nat r) = r + 1) by (unfold highr; rewrite A; lia).
  rewrite A, B. destruct (Nat.ltb_spec r (r + 1)); [|lia]. rewrite L4, L3.
  assert (Eg : qreg_of (gate_of S m (Z.of_nat r) d) = Z.of_nat r) by (destruct m; reflexivity). rewrite Eg.
  replace (zmem (Z.of_nat r) _) with true.
  2:{ symmetry. apply zmem_spec, in_map_iff. exists (idop S (c_dims c) r). split; [reflexivity|]. apply filter_In. split; [|reflexivity].
      rewrite L7. apply in_or_app. right. right. apply in_map_iff. exists r. split; [reflexivity|]. apply in_seq. lia. }
  assert (Es : forall k a n rest, a + n <= r -> get_qreg_array k (map (idop S (c_dims c)) (seq a n) ++ rest) (Z.of_nat r) = get_qreg_array (k + n) rest (Z.of_nat r)).
  { intros k a n rest. revert k a. induction n as [|n IH]; intros k a Ha; [rewrite Nat.add_0_r; reflexivity|]. cbn [seq map app get_qreg_array].
    cbn [idop array_members acting_members bind].
    replace (zmem (Z.of_nat r) [Z.of_nat a]) with false.
    - rewrite IH by lia. f_equal. lia.
    - symmetry. apply not_true_iff_false. rewrite zmem_spec. intros [X|[]]. lia. }
  rewrite L7, Es by lia. cbn [get_qreg_array array_members].
  assert (Hcs : exists y z l, map Z.of_nat cs = y :: z :: l).
  { destruct cs as [|y [|z l]]; [contradiction | | simpl; eauto]. exfalso. destruct H0 as [->|[]], Hmx as [Hmx|[]]. lia. }
  destruct Hcs as [y [z [l ->]]]. reflexivity.
Qed.
End NumThm.

(** ** Arrays out of range *)
Lemma mapM_one_err : forall A B (f : A -> res B) l x e, (forall y, In y l -> (exists b, f y = Ok b) \/ f y = Err e) ->
  In x l -> f x = Err e -> mapM f l = Err e.
Proof.
  intros A B f l x e. induction l as [|y l IH]; intros Hl Hx He; [contradiction|]. cbn [mapM].
  destruct (Hl y (or_introl eq_refl)) as [[b E]|E]; rewrite E; cbn [bind]; [|reflexivity].
  destruct Hx as [->|Hx]; [congruence|]. rewrite IH; [reflexivity | intros; apply Hl; right; assumption | exact Hx | exact He].
Qed.

Lemma column_or : forall n i, (exists k, column n i = Ok k) \/ column n i = Err IndexError.
Proof. intros n i. unfold column. destruct (py_index n i); eauto. Qed.

Lemma column_low : forall n i, (i < - Z.of_nat n)%Z -> column n i = Err IndexError.
Proof.
  intros n i H. unfold column, py_index. destruct (Z.leb_spec 0 i); [lia|]. cbn [andb].
  destruct (Z.leb_spec (- Z.of_nat n) i); [lia|]. reflexivity.
Qed.

Lemma get_or : forall (l : list Z) i, (exists k, py_get l i = Ok k) \/ py_get l i = Err IndexError.
Proof. intros l i. unfold py_get. destruct (py_index (length l) i); [destruct (nth_error l n)|]; eauto. Qed.

Lemma get_past : forall (l : list Z) i, (Z.of_nat (length l) <= i)%Z -> py_get l i = Err IndexError.
Proof.
  intros l i H. unfold py_get, py_index. destruct (Z.ltb_spec i (Z.of_nat (length l))); [lia|]. rewrite andb_false_r.
  destruct (Z.ltb_spec i 0); [lia|]. rewrite andb_false_r. reflexivity.
Qed.

Theorem array_range : forall S dims (c : circuit S) cs t mn mx p, qregs_list (c_qregs c) = map Z.of_nat dims ->
  In mn cs -> In mx cs -> (forall x, In x cs -> mn <= x <= mx) ->
  length dims <= t + mx \/ mx - mn + 1 < t \/ mx - mn + 1 < mn ->
  num_api c (TofArray (map Z.of_nat cs) (Z.of_nat t) p) = Err IndexError.
Proof.
  intros S dims c cs t mn mx p Hq Hmn Hmx Hb Ho. cbn [num_api]. unfold toffoli_array. rewrite Hq. unfold toffoli_dm_array.
  assert (E : map (fun x => x + Z.of_nat t)%Z (map Z.of_nat cs) = map Z.of_nat (map (fun x => x + t) cs)).
  { rewrite !map_map. apply map_ext. intros; lia. }
  rewrite E. rewrite (@py_min_nat _ (mn + t)); [|apply in_map_iff; exists mn; auto | intros y Hy; apply in_map_iff in Hy as [x [<- Hx]]; specialize (Hb x Hx); lia].
  rewrite (@py_max_nat _ (mx + t)); [|apply in_map_iff; exists mx; auto | intros y Hy; apply in_map_iff in Hy as [x [<- Hx]]; specialize (Hb x Hx); lia].
  cbn [bind]. pose proof (Hb mn Hmn) as Hlt.
  destruct (Nat.le_gt_cases (length dims) (t + mx)) as [A|A].
  - rewrite (@mapM_one_err _ _ (py_get (map Z.of_nat dims)) _ (Z.of_nat (mx + t)) IndexError); [reflexivity | intros; apply get_or | apply in_zrange; lia |].
    apply get_past. rewrite map_length. lia.
  - destruct (mapM (py_get (map Z.of_nat dims)) (zrange (Z.of_nat (mn + t)) (Z.of_nat (mx + t) + 1))) as [span|e] eqn:Es.
    2:{ cbn [bind]. apply mapM_err in Es as [x [_ Ex]]. cbn beta in Ex. destruct (get_or (map Z.of_nat dims) x) as [[k Ek]|Ek]; congruence. }
    cbn [bind].
    assert (El : length span = mx - mn + 1).
    { apply mapM_forall2 in Es.
      assert (El : length (zrange (Z.of_nat (mn + t)) (Z.of_nat (mx + t) + 1)) = length span) by (clear - Es; induction Es; simpl; congruence).
      rewrite <- El. unfold zrange. rewrite map_length, seq_length. lia. }
    destruct (Nat.lt_ge_cases (mx - mn + 1) t) as [A1|A1].
    + rewrite (@mapM_one_err _ _ (fun x => column (length span) (x - Z.of_nat (mn + t))) _ (Z.of_nat mn) IndexError); [reflexivity | intros; apply column_or | apply in_map; exact Hmn |].
      apply column_low. lia.
    + destruct (mapM (fun x => column (length span) (x - Z.of_nat (mn + t))) (map Z.of_nat cs)) as [rc|e] eqn:Er.
      2:{ cbn [bind]. apply mapM_err in Er as [x [_ Ex]]. cbn beta in Ex. destruct (column_or (length span) (x - Z.of_nat (mn + t))) as [[k Ek]|Ek]; congruence. }
      cbn [bind]. rewrite column_low by lia. reflexivity.
Qed.
