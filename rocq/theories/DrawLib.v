(** * DrawLib: proofs about the text drawing. *)
From Coq Require Import String.
From Verif Require Import Py Scalar Mat Utils Gates Circuit Spec Calls HistSpec CallSpec Lib GateMat Flow Layers History Info InfoSpec InfoLib Draw DrawSpec.
Set Implicit Arguments.
Local Notation length := List.length.

(** ** Strings *)
Lemma sapp_assoc : forall a b c : string, ((a ++ b) ++ c = a ++ b ++ c)%string.
Proof. intros a b c; induction a as [|x a IH]; simpl; congruence. Qed.
Lemma sapp_nil : forall a : string, (a ++ "" = a)%string.
Proof. intros a; induction a as [|x a IH]; simpl; congruence. Qed.
Lemma slen_app : forall a b : string, String.length (a ++ b) = String.length a + String.length b.
Proof. intros a b; induction a as [|x a IH]; simpl; congruence. Qed.
Lemma cat_app : forall l1 l2, cat (l1 ++ l2) = (cat l1 ++ cat l2)%string.
Proof. intros l1 l2; induction l1 as [|x l1 IH]; simpl; [reflexivity|]. unfold cat in *. simpl. rewrite IH, sapp_assoc. reflexivity. Qed.
Lemma fold_cat : forall A (f : A -> string) l acc,
  fold_left (fun acc x => (acc ++ f x)%string) l acc = (acc ++ cat (map f l))%string.
Proof.
  intros A f l; induction l as [|x l IH]; intros acc; simpl; [rewrite sapp_nil; reflexivity|].
  rewrite IH, sapp_assoc. reflexivity.
Qed.

Lemma pad_centred : forall s, (if (String.length s <? 5)%nat then pad (5 - String.length s) true s else s) = centred s.
Proof.
  intros s. unfold centred. destruct (Nat.ltb_spec (String.length s) 5) as [H|H].
  - destruct (String.length s) as [|[|[|[|[|l]]]]]; [..|lia]; cbn -[String.append]; rewrite ?sapp_nil, ?sapp_assoc; reflexivity.
  - replace ((6 - String.length s) / 2) with 0; [replace ((5 - String.length s) / 2) with 0|].
    + simpl. rewrite sapp_nil. reflexivity.
    + replace (5 - String.length s) with 0 by lia. reflexivity.
    + symmetry. apply Nat.div_small. lia.
Qed.

Lemma cell_text_some : forall s, cell_text (Some s) = centred s.
Proof. intros s. apply pad_centred. Qed.
Lemma cell_text_none : cell_text None = centred "". Proof. reflexivity. Qed.

(** ** The canvas *)
Definition shape (M : canvas) (n w : nat) : Prop := length M = n /\ forall r, r < n -> length (nth r M []) = w.
Definition at_ (M : canvas) (r j : nat) : cell := nth j (nth r M []) None.

Lemma py_index_in : forall n i, (0 <= i < Z.of_nat n)%Z -> py_index n i = Some (Z.to_nat i).
Proof.
  intros n i H. unfold py_index. replace ((0 <=? i) && (i <? Z.of_nat n))%Z with true; [reflexivity|].
  symmetry. apply andb_true_iff. rewrite Z.leb_le, Z.ltb_lt. exact H.
Qed.

Lemma upd_length' : forall A (l : list A) k v, length (upd l k v) = length l.
Proof. intros A l; induction l as [|x l IH]; intros [|k] v; simpl; auto. Qed.
Lemma nth_upd' : forall A (l : list A) k v j d, k < length l -> nth j (upd l k v) d = if j =? k then v else nth j l d.
Proof.
  intros A l; induction l as [|x l IH]; intros k v j d H; [simpl in H; lia|].
  destruct k as [|k]; destruct j as [|j]; simpl; try reflexivity. simpl in H. apply IH. lia.
Qed.

Lemma set_cell_ok : forall M n w i j s, shape M n w -> (0 <= i < Z.of_nat n)%Z -> j < w ->
  exists M', set_cell j M i s = Ok M' /\ shape M' n w /\
    forall r k, at_ M' r k = if (Z.of_nat r =? i)%Z && (k =? j) then Some s else at_ M r k.
Proof.
  intros M n w i j s [Hn Hw] Hi Hj. unfold set_cell, py_get, py_set. rewrite Hn, (@py_index_in n i Hi).
  assert (Hlt : Z.to_nat i < length M) by lia.
  rewrite (nth_error_nth' M [] Hlt). cbn [bind]. rewrite (Hw (Z.to_nat i)) by lia.
  rewrite (@py_index_in w (Z.of_nat j)) by lia. cbn [bind]. rewrite Nat2Z.id.
  eexists. split; [reflexivity|]. split.
  - split; [rewrite upd_length'; exact Hn|]. intros r Hr. rewrite nth_upd' by exact Hlt.
    destruct (Nat.eqb_spec r (Z.to_nat i)) as [->|]; [rewrite upd_length'|]; apply Hw; lia.
  - intros r k. unfold at_. rewrite nth_upd' by exact Hlt.
    destruct (Nat.eqb_spec r (Z.to_nat i)) as [->|Hne].
    + replace (Z.of_nat (Z.to_nat i) =? i)%Z with true by (symmetry; apply Z.eqb_eq; lia). cbn [andb].
      apply nth_upd'. rewrite Hw by lia. exact Hj.
    + replace (Z.of_nat r =? i)%Z with false by (symmetry; apply Z.eqb_neq; lia). reflexivity.
Qed.

(** The last text assigned to row [r]. *)
Definition last_for (r : nat) (l : list (Z * string)) (old : cell) : cell :=
  fold_left (fun acc '(i, s) => if (Z.of_nat r =? i)%Z then Some s else acc) l old.

Lemma set_cells_ok : forall l M n w j, shape M n w -> (forall i s, In (i, s) l -> (0 <= i < Z.of_nat n)%Z) -> j < w ->
  exists M', set_cells j M l = Ok M' /\ shape M' n w /\
    forall r k, at_ M' r k = if k =? j then last_for r l (at_ M r k) else at_ M r k.
Proof.
  intros l; induction l as [|[i s] l IH]; intros M n w j HM Hl Hj.
  - exists M. split; [reflexivity|]. split; [exact HM|]. intros r k. destruct (k =? j); reflexivity.
  - destruct (@set_cell_ok M n w i j s HM (Hl i s (or_introl eq_refl)) Hj) as [M1 [E1 [H1 A1]]].
    destruct (IH M1 n w j H1 (fun i s Hin => Hl i s (or_intror Hin)) Hj) as [M2 [E2 [H2 A2]]].
    exists M2. split; [|split; [exact H2|]].
    + unfold set_cells in *. cbn [fold_left bind]. rewrite E1. exact E2.
    + intros r k. rewrite A2, !A1. destruct (k =? j); [|rewrite andb_false_r; reflexivity].
      rewrite andb_true_r. reflexivity.
Qed.

Section DrawLib.
Variable S : scalar.
Notation op := (op S).
Notation moment := (moment S).
Notation circuit := (circuit S).
Notation call := (call S).

(** Operations that fit on the canvas. *)
Definition blank (o : op) : bool := match o with OI _ _ | OArb _ _ _ => true | _ => false end.
Definition fits (n : nat) (o : op) : Prop :=
  exists l, op_cells o = Ok l /\ (forall i s, In (i, s) l -> (0 <= i < Z.of_nat n)%Z) /\
    forall r old, last_for r l old = if covers o r && negb (blank o) then Some (symbol o (Z.of_nat r)) else old.

Lemma fold_ops : forall n w j ops M, shape M n w -> j < w -> (forall o, In o ops -> fits n o) ->
  exists M', fold_left (fun acc o => m <- acc ;; draw_op j m o) ops (Ok M) = Ok M' /\ shape M' n w /\
    forall r k, at_ M' r k = if k =? j
      then fold_left (fun old o => if covers o r && negb (blank o) then Some (symbol o (Z.of_nat r)) else old) ops (at_ M r k)
      else at_ M r k.
Proof.
  intros n w j ops; induction ops as [|o ops IH]; intros M HM Hj Hf.
  - exists M. split; [reflexivity|]. split; [exact HM|]. intros r k. destruct (k =? j); reflexivity.
  - destruct (Hf o (or_introl eq_refl)) as [l [El [Hl Hlast]]].
    destruct (set_cells_ok l HM Hl Hj) as [M1 [E1 [H1 A1]]].
    destruct (IH M1 H1 Hj (fun o Ho => Hf o (or_intror Ho))) as [M2 [E2 [H2 A2]]].
    exists M2. split; [|split; [exact H2|]].
    + cbn [fold_left bind]. unfold draw_op at 2. rewrite El. cbn [bind]. rewrite E1. exact E2.
    + intros r k. rewrite A2, A1. cbn [fold_left]. destruct (k =? j); [rewrite Hlast; reflexivity|reflexivity].
Qed.

(** The text of a column, given that one operation covers each register. *)
Definition column (ops : list op) (r : nat) : cell :=
  match find (fun o => covers o r) ops with
  | Some o => if blank o then None else Some (symbol o (Z.of_nat r))
  | None => None
  end.

Lemma fold_untouched : forall r (ops : list op) old, (forall o, In o ops -> covers o r = false) ->
  fold_left (fun old o => if covers o r && negb (blank o) then Some (symbol o (Z.of_nat r)) else old) ops old = old.
Proof.
  intros r ops; induction ops as [|o ops IH]; intros old H; [reflexivity|]. cbn [fold_left].
  rewrite (H o (or_introl eq_refl)). cbn [andb]. apply IH. intros; apply H; right; assumption.
Qed.

Lemma fold_column : forall n r ops, r < n -> NoDup (concat (map (occupies (S := S) n) ops)) ->
  fold_left (fun old o => if covers o r && negb (blank o) then Some (symbol o (Z.of_nat r)) else old) ops None = column ops r.
Proof.
  intros n r ops Hr; induction ops as [|o ops IH]; intros HN; [reflexivity|]. cbn [fold_left]. unfold column. cbn [find].
  cbn [map concat] in HN. destruct (covers o r) eqn:Ec; cbn [andb].
  - rewrite fold_untouched; [destruct (blank o); reflexivity|].
    intros o' Ho'. destruct (covers o' r) eqn:Ec'; [|reflexivity]. exfalso.
    assert (H1 : In r (occupies n o)) by (apply filter_In; split; [apply in_seq; lia|exact Ec]).
    assert (H2 : In r (concat (map (occupies (S := S) n) ops))).
    { apply in_concat. exists (occupies n o'). split; [apply in_map; exact Ho'|]. apply filter_In; split; [apply in_seq; lia|exact Ec']. }
    clear IH. induction (occupies n o) as [|x l IHl]; [contradiction|]. simpl in HN. inversion HN as [|? ? N1 N2]; subst.
    destruct H1 as [->|H1]; [apply N1; apply in_app_iff; right; exact H2|]. exact (IHl N2 H1).
  - apply IH. clear IH. induction (occupies n o) as [|x l IHl]; [exact HN|]. simpl in HN. inversion HN; subst. auto.
Qed.

Lemma column_text : forall ops r, cell_text (column ops r) = shows ops r.
Proof.
  intros ops r. unfold column, shows. destruct (find _ ops) as [o|]; [|reflexivity].
  destruct (blank o) eqn:E; [|apply cell_text_some]. destruct o; try discriminate; reflexivity.
Qed.

Lemma draw_layers_ok : forall n w ms k M, shape M n w -> k + length ms <= w ->
  (forall m, In m ms -> (forall o, In o (m_list m) -> fits n o) /\ NoDup (concat (map (occupies (S := S) n) (m_list m)))) ->
  (forall r j, k <= j -> at_ M r j = None) ->
  exists M', fold_left (fun acc '(j, mo) =>
               m <- acc ;; fold_left (fun acc o => m <- acc ;; draw_op j m o) (m_list mo) (Ok m))
            (combine (seq k (length ms)) ms) (Ok M) = Ok M' /\ shape M' n w /\
    forall r j, r < n -> at_ M' r j = if j <? k then at_ M r j
      else match nth_error ms (j - k) with Some m => column (m_list m) r | None => None end.
Proof.
  intros n w ms; induction ms as [|m ms IH]; intros k M HM Hk Hms HN.
  - exists M. split; [reflexivity|]. split; [exact HM|]. intros r j Hr. destruct (Nat.ltb_spec j k); [reflexivity|].
    rewrite HN by assumption. destruct (j - k); reflexivity.
  - destruct (Hms m (or_introl eq_refl)) as [Hf Hnd]. simpl length in *.
    destruct (@fold_ops n w k (m_list m) M HM ltac:(lia) Hf) as [M1 [E1 [H1 A1]]].
    destruct (IH (Datatypes.S k) M1 H1 ltac:(lia) (fun m Hm => Hms m (or_intror Hm))) as [M2 [E2 [H2 A2]]].
    { intros r j Hj. rewrite A1. rewrite (proj2 (Nat.eqb_neq j k)) by lia. apply HN. lia. }
    exists M2. split; [|split; [exact H2|]].
    + cbn [seq combine fold_left bind]. rewrite E1. exact E2.
    + intros r j Hr. rewrite A2 by exact Hr. destruct (Nat.ltb_spec j (Datatypes.S k)) as [Hlt|Hge].
      * rewrite A1. destruct (Nat.eqb_spec j k) as [->|Hne].
        -- rewrite Nat.ltb_irrefl, Nat.sub_diag. cbn [nth_error]. rewrite HN by lia. apply fold_column with (n := n); assumption.
        -- rewrite (proj2 (Nat.ltb_lt j k)) by lia. reflexivity.
      * rewrite (proj2 (Nat.ltb_ge j k)) by lia. replace (j - k) with (Datatypes.S (j - Datatypes.S k)) by lia. reflexivity.
Qed.

(** ** Which operations fit *)
Lemma last_for_one : forall r q s old, last_for r [(q, s)] old = if (Z.of_nat r =? q)%Z then Some s else old.
Proof. reflexivity. Qed.

Lemma last_for_map : forall r (f : Z -> string) l old,
  last_for r (map (fun x => (x, f x)) l) old = if zmem (Z.of_nat r) l then Some (f (Z.of_nat r)) else old.
Proof.
  intros r f l; induction l as [|x l IH]; intros old; [reflexivity|]. cbn [map]. unfold last_for in *. cbn [fold_left].
  rewrite IH. unfold zmem. cbn [existsb]. destruct (Z.eqb_spec (Z.of_nat r) x) as [<-|]; cbn [orb]; [|reflexivity].
  destruct (existsb _ l); reflexivity.
Qed.

Lemma zmem_zrange : forall x a b, zmem x (zrange a b) = ((a <=? x) && (x <? b))%Z.
Proof.
  intros x a b. apply eq_true_iff_eq. rewrite zmem_spec, in_zrange, andb_true_iff, Z.leb_le, Z.ltb_lt. reflexivity.
Qed.

Lemma covers_single : forall (o : op) q r, registers o = [q] -> covers o r = (Z.of_nat r =? q)%Z.
Proof.
  intros o q r E. unfold covers. rewrite E. cbn [existsb]. rewrite !orb_false_r. apply eq_true_iff_eq.
  rewrite andb_true_iff, !Z.leb_le, Z.eqb_eq. lia.
Qed.

Lemma fits_single : forall n (o : op) q s, registers o = [q] -> op_cells o = Ok [(q, s)] -> blank o = false ->
  (forall r, symbol o r = s) -> (0 <= q < Z.of_nat n)%Z -> fits n o.
Proof.
  intros n o q s Er Ec Eb Es Hq. exists [(q, s)]. split; [exact Ec|]. split.
  - intros i s' [H|[]]. injection H as <- _. exact Hq.
  - intros r old. rewrite last_for_one, (covers_single o r Er), Eb, Es, andb_true_r. reflexivity.
Qed.

Lemma fits_blank : forall n (o : op), blank o = true -> fits n o.
Proof.
  intros n o H. exists []. split; [destruct o; try discriminate; reflexivity|]. split; [intros i s []|].
  intros r old. rewrite H, andb_false_r. reflexivity.
Qed.

Lemma fits_cx : forall n ds s t p, (0 <= s < Z.of_nat n)%Z -> (0 <= t < Z.of_nat n)%Z -> fits n (OCX ds [s; t] p : op).
Proof.
  intros n ds s t p Hs Ht. eexists. split; [reflexivity|].
  split.
  - intros i x [H|[H|H]]; [injection H as <- _; exact Hs | injection H as <- _; exact Ht|].
    apply in_map_iff in H as [y [H Hy]]. injection H as <- _. apply in_zrange in Hy.
    destruct (Z.ltb_spec s t), (Z.ltb_spec t s); lia.
  - intros r old. change (last_for r ((s, "*"%string) :: (t, shift_text p) :: ?l) old)
      with (last_for r l (last_for r [(t, shift_text p)] (last_for r [(s, "*"%string)] old))).
    rewrite (last_for_map r (fun _ => "|"%string)), !last_for_one, zmem_zrange. unfold covers. cbn [registers existsb blank negb symbol nth].
    rewrite !orb_false_r, andb_true_r.
    destruct (Z.ltb_spec s t), (Z.ltb_spec t s), (Z.eqb_spec (Z.of_nat r) s), (Z.eqb_spec (Z.of_nat r) t); try lia;
    repeat match goal with
    | |- context [(?a <=? ?b)%Z] => destruct (Z.leb_spec a b)
    | |- context [(?a <? ?b)%Z] => destruct (Z.ltb_spec a b)
    end; cbn [andb orb]; try lia; try reflexivity.
Qed.

Lemma fits_tof : forall n cs t p ds lo hi u, ranges (OTof cs t p ds (zrange lo (hi + 1)) u : op) lo hi ->
  (0 <= lo)%Z -> (hi < Z.of_nat n)%Z -> fits n (OTof cs t p ds (zrange lo (hi + 1)) u : op).
Proof.
  intros n cs t p ds lo hi u Hr Hlo Hhi. eexists. split; [reflexivity|]. split.
  - intros i s H. apply in_map_iff in H as [y [H Hy]]. injection H as <- _. apply in_zrange in Hy. lia.
  - intros r old. rewrite (last_for_map r (fun dit => if zmem dit cs then "*"%string else if (dit =? t)%Z then shift_text p else "|"%string)).
    rewrite zmem_zrange, (Hr r). cbn [blank negb symbol]. rewrite andb_true_r.
    replace (Z.of_nat r <? hi + 1)%Z with (Z.of_nat r <=? hi)%Z; [reflexivity|].
    apply eq_true_iff_eq. rewrite Z.leb_le, Z.ltb_lt. lia.
Qed.

Lemma in_range_of_tiles : forall n l (o : op) q, tiles n l -> In o l -> registers o = [q] -> (0 <= q < Z.of_nat n)%Z.
Proof.
  intros n l o q [_ T] Ho E. specialize (T _ Ho). rewrite (occupies_ranges n (ranges_single o E)) in T.
  destruct (highr n q q - lowr n q)%nat eqn:D; [exfalso; apply T; reflexivity|]. unfold highr, lowr in D. lia.
Qed.

Lemma gate_fits : forall n (c : circuit) l o, n = length (c_dims c) -> tiles n l -> In o l -> from_calls c (drawable (S := S) n) o -> fits n o.
Proof.
  intros n c l o En HT Ho [[i [Hi ->]]|[k [Hk Hi]]].
  - apply fits_blank. reflexivity.
  - pose proof (fun q => @in_range_of_tiles n l o q HT Ho) as R. destruct Hi; cbn [drawable] in Hk.
    + eapply fits_single; [reflexivity..|]. apply R; reflexivity.
    + eapply fits_single; [reflexivity..|]. apply R; reflexivity.
    + eapply fits_single; [reflexivity..|]. apply R; reflexivity.
    + destruct Hk as [s [t [-> [Hs Ht]]]]. apply fits_cx; assumption.
    + apply mk_toffoli_shape in H as [lb [ub [ds' [u' [E1 [E2 E]]]]]]. injection E as -> -> ->.
      assert (Hin : In lb (cs ++ [t]) /\ In ub (cs ++ [t])).
      { destruct (cs ++ [t]) as [|x xs] eqn:X; [discriminate|].
        destruct (py_min_ex x xs) as [m [Em [Im _]]]. destruct (py_max_ex x xs) as [M [EM [IM _]]].
        rewrite Em in E1. rewrite EM in E2. injection E1 as <-. injection E2 as <-. auto. }
      destruct Hin as [I1 I2]. apply in_snoc_cons in I1, I2.
      apply fits_tof; [|apply (Hk lb I1)|apply (Hk ub I2)].
      eapply ranges_list; [reflexivity| |].
      * eapply py_min_perm; [|exact E1]. intros x. apply in_snoc_cons.
      * eapply py_max_perm; [|exact E2]. intros x. apply in_snoc_cons.
    + apply fits_blank. reflexivity.
    + apply fits_blank. reflexivity.
Qed.

(** ** The drawing *)
Lemma list_nth_seq : forall A (l : list A) d, l = map (fun i => nth i l d) (seq 0 (length l)).
Proof.
  intros A l d. induction l as [|x l IH]; [reflexivity|]. simpl length. cbn [seq map nth]. f_equal.
  rewrite <- seq_shift, map_map. exact IH.
Qed.

Lemma canvas_rows : forall M n w, shape M n w -> M = map (fun r => map (at_ M r) (seq 0 w)) (seq 0 n).
Proof.
  intros M n w [Hn Hw]. etransitivity; [exact (list_nth_seq M [])|]. rewrite Hn. apply map_ext_in. intros r Hr.
  apply in_seq in Hr. etransitivity; [exact (list_nth_seq (nth r M []) None)|]. rewrite Hw by lia. reflexivity.
Qed.

Lemma map_nth_error_seq : forall A B (f : A -> B) d l, map (fun j => match nth_error l j with Some x => f x | None => d end) (seq 0 (length l)) = map f l.
Proof.
  intros A B f d l. induction l as [|x l IH]; [reflexivity|]. simpl length. cbn [seq map nth_error]. f_equal.
  rewrite <- seq_shift, map_map. exact IH.
Qed.

Lemma fold_rows : forall (g : list cell -> string) (M : canvas) acc,
  fold_left (fun acc row => fold_left (fun acc ch => (acc ++ cell_text ch)%string) row acc ++ nl)%string M acc
  = (acc ++ cat (map (fun row => cat (map cell_text row) ++ nl) M))%string.
Proof.
  intros g M; induction M as [|row M IH]; intros acc; simpl; [rewrite sapp_nil; reflexivity|].
  rewrite IH, fold_cat, !sapp_assoc. reflexivity.
Qed.

Lemma concat_occ_init : forall n l, map (@qreg_of S) l = map Z.of_nat (seq 0 n) -> forallb (@is_init S) l = true ->
  concat (map (occupies (S := S) n) l) = seq 0 n.
Proof.
  intros n l E H.
  assert (G : forall l k m, map (@qreg_of S) l = map Z.of_nat (seq k m) -> forallb (@is_init S) l = true -> k + m <= n ->
    concat (map (occupies (S := S) n) l) = seq k m).
  { clear. intros l; induction l as [|o l IH]; intros k m E H Hle; destruct m; try discriminate; [reflexivity|].
    cbn [seq map] in E. injection E as E1 E2. simpl forallb in H. apply andb_true_iff in H as [H1 H2].
    cbn [map concat seq]. rewrite (@occupies_single S n o k); [|destruct o; try discriminate; simpl in *; congruence|lia].
    rewrite (IH (Datatypes.S k) m E2 H2) by lia. reflexivity. }
  apply G; [exact E|exact H|lia].
Qed.

Lemma concat_occ_meas : forall n, concat (map (occupies (S := S) n) (meas_layer S n)) = seq 0 n.
Proof.
  intros n.
  assert (G : forall m k, k + m <= n -> concat (map (occupies (S := S) n) (map (fun i => OMeas (Z.of_nat i)) (seq k m))) = seq k m).
  { intros m; induction m as [|m IH]; intros k Hk; [reflexivity|]. cbn [seq map concat].
    rewrite (@occupies_single S n (OMeas (Z.of_nat k)) k eq_refl) by lia. rewrite IH by lia. reflexivity. }
  apply G. lia.
Qed.

Theorem drawing : forall l init out ks (c : circuit), history (QList l) init out ks c -> l <> [] ->
  Forall (drawable (S := S) (length l)) ks ->
  circuit_str c = Ok (picture (existsb (@is_measure_all S) ks) c (length l)).
Proof.
  intros l init out ks c H Hl HD.
  assert (Hn : 0 < length l) by (destruct l; [congruence|simpl; lia]).
  destruct (history_full H HD) as [l0 [ls [I HF]]]. cbn [nregs] in I.
  destruct (history_minv H) as [l0' [ls' I']]. cbn [nregs] in I'.
  assert (Els : ls' = ls /\ l0' = l0).
  { pose proof (i_list I) as A. pose proof (i_list (proj1 I')) as B. rewrite A in B. injection B as -> B.
    apply app_inv_tail in B. auto. }
  destruct Els as [-> ->]. rewrite (proj2 (Nat.ltb_lt _ _) Hn) in *. cbn [andb] in *.
  set (md := existsb (@is_measure_all S) ks) in *. clearbody md. set (n := length l) in *.
  unfold circuit_str. rewrite (minv_config I'), (history_qregs H). cbn [bind qregs_list]. fold n.
  set (w := length ls + 2). replace (Z.to_nat (Z.of_nat (length ls) + 2)) with w by (unfold w; lia).
  assert (HM0 : shape (repeat (repeat None w) n) n w).
  { split; [apply repeat_length|]. intros r Hr. rewrite nth_repeat_lt by exact Hr. apply repeat_length. }
  pose proof (i_list I) as EL. unfold layers in EL. set (ms := f_list (c_flow c)) in *.
  assert (Elen : length ms = 1 + length ls + (if md then 1 else 0)).
  { rewrite <- (map_length (@m_list S)), EL. cbn [length]. rewrite app_length. destruct md; cbn [length]; lia. }
  assert (Hms : forall m, In m ms -> (forall o, In o (m_list m) -> fits n o) /\ NoDup (concat (map (occupies (S := S) n) (m_list m)))).
  { intros m Hm. apply (in_map (@m_list S)) in Hm. fold ms in EL. rewrite EL in Hm. destruct Hm as [E|Hm].
    - rewrite <- E. destruct (i_m0 I) as [A B]. rewrite (concat_occ_init _ _ B A). split; [|apply seq_NoDup].
      intros o Ho. rewrite forallb_forall in A. specialize (A o Ho). apply (in_map (@qreg_of S)) in Ho. rewrite B in Ho.
      apply in_map_iff in Ho as [i [Ei Hi]]. apply in_seq in Hi. destruct o; try discriminate. cbn [qreg_of] in Ei. subst qreg.
      eapply fits_single; [reflexivity..|]. lia.
    - apply in_app_iff in Hm as [Hm|Hm].
      + pose proof (i_tile I) as T. rewrite Forall_forall in T. specialize (T _ Hm). split.
        * intros o Ho. eapply gate_fits; [symmetry; exact (i_dims I) | exact T | exact Ho |].
          apply HF. unfold gate_ops. apply in_concat. eauto.
        * rewrite (proj1 T). apply seq_NoDup.
      + destruct md; [|contradiction]. destruct Hm as [<-|[]]. rewrite concat_occ_meas. split; [|apply seq_NoDup].
        intros o Ho. apply in_map_iff in Ho as [i [<- Hi]]. apply in_seq in Hi.
        eapply fits_single; [reflexivity..|]. lia. }
  assert (HN0 : forall r j, 0 <= j -> at_ (repeat (repeat None w) n) r j = None).
  { intros r j _. unfold at_. destruct (le_lt_dec n r) as [Hr|Hr].
    - etransitivity; [apply (f_equal (fun row => nth j row None)); apply nth_overflow; rewrite repeat_length; exact Hr|].
      destruct j; reflexivity.
    - etransitivity; [apply (f_equal (fun row => nth j row None)); apply nth_repeat_lt; exact Hr|]. apply nth_repeat. }
  destruct (@draw_layers_ok n w ms 0 _ HM0) as [M [EM [HM AM]]]; [unfold w; destruct md; lia | exact Hms | exact HN0 |].
  unfold draw_layers. rewrite EM. cbn [bind]. f_equal. unfold picture.
  rewrite (minv_gate_layers I' Hn). rewrite (fold_rows (fun _ => ""%string)). cbn [String.append width_text config_width].
  unfold config_width. rewrite (history_qregs H). cbn [width_text]. fold n. change nl with newline. f_equal.
  rewrite (canvas_rows HM), map_map. f_equal. apply map_ext_in. intros r Hr. apply in_seq in Hr. f_equal. unfold line.
  unfold layers_of. fold ms. rewrite (map_map (@m_list S) (fun l1 => shows l1 r) ms).
  assert (Ecol : map cell_text (map (at_ M r) (seq 0 w)) = map (fun m => shows (m_list m) r) ms ++ (if md then [] else ["-----"%string])).
  { rewrite map_map.
    rewrite (map_ext_in _ (fun j => match nth_error ms j with Some m => shows (m_list m) r | None => "-----"%string end)).
    - replace w with (length ms + (if md then 0 else 1)) by (unfold w; destruct md; lia).
      rewrite seq_app, map_app, map_nth_error_seq. f_equal. destruct md; [reflexivity|]. cbn [seq map].
      rewrite (proj2 (nth_error_None ms _)) by lia. reflexivity.
    - intros j Hj. rewrite AM by lia. cbn [Nat.ltb Nat.leb]. rewrite Nat.sub_0_r.
      destruct (nth_error ms j) as [m|]; [apply column_text | reflexivity]. }
  rewrite Ecol, cat_app. f_equal. destruct md; reflexivity.
Qed.

(** ** Alignment *)
Lemma dashes_length : forall k, String.length (dashes k) = k.
Proof. intros k; induction k as [|k IH]; [reflexivity|]. unfold dashes, cat in *. cbn [repeat fold_right]. rewrite slen_app, IH. reflexivity. Qed.

Lemma centred_length : forall s, String.length (centred s) = Nat.max 5 (String.length s).
Proof.
  intros s. unfold centred. rewrite !slen_app, !dashes_length.
  destruct (String.length s) as [|[|[|[|[|l]]]]]; try reflexivity.
  replace (6 - (Datatypes.S (Datatypes.S (Datatypes.S (Datatypes.S (Datatypes.S l)))))) with (1 - l) by lia.
  replace (5 - (Datatypes.S (Datatypes.S (Datatypes.S (Datatypes.S (Datatypes.S l)))))) with 0 by lia.
  replace ((1 - l) / 2) with 0; [change (0 / 2) with 0; lia|]. symmetry. apply Nat.div_small. lia.
Qed.

Lemma str_one : forall z, (0 <= z <= 9)%Z -> String.length (str_of_Z z) = 1.
Proof.
  intros z H. assert (A : forallb (fun x => Nat.eqb (String.length (str_of_Z x)) 1) (zrange 0 10) = true) by (vm_compute; reflexivity).
  rewrite forallb_forall in A. apply Nat.eqb_eq, A, in_zrange. lia.
Qed.
Lemma str_two : forall z, (-9 <= z <= 99)%Z -> String.length (str_of_Z z) <= 2.
Proof.
  intros z H. assert (A : forallb (fun x => Nat.leb (String.length (str_of_Z x)) 2) (zrange (-9) 100) = true) by (vm_compute; reflexivity).
  rewrite forallb_forall in A. apply Nat.leb_le, A, in_zrange. lia.
Qed.

Lemma shift_length : forall p, (-9 <= p <= 99)%Z -> String.length ("X(" ++ str_of_Z p ++ ")") <= 5.
Proof. intros p H. rewrite !slen_app. apply str_two in H. simpl String.length at 1 3. lia. Qed.

Lemma symbol_length : forall (c : circuit) o r, from_calls c (@short_plus S) o -> String.length (symbol o r) <= 5.
Proof.
  intros c o r [[i [_ ->]]|[k [Hk Hi]]]; [simpl; lia|].
  destruct Hi; cbn [short_plus symbol] in *; try (simpl; lia); try (apply shift_length; assumption).
  - destruct (r =? nth 1 a 0)%Z; [apply shift_length; assumption|]. destruct (r =? nth 0 a 0)%Z; simpl; lia.
  - destruct (existsb _ cs); [simpl; lia|]. destruct (r =? t)%Z; [apply shift_length; assumption|simpl; lia].
Qed.

Lemma mapM_in : forall A B (f : A -> res B) l l', mapM f l = Ok l' -> forall y, In y l' -> exists x, In x l /\ f x = Ok y.
Proof.
  intros A B f l; induction l as [|a l IH]; intros l' H y Hy; simpl in H; [injection H as <-; contradiction|].
  apply bind_ok in H as [b [E1 H]]. apply bind_ok in H as [bs [E2 H]]. injection H as <-.
  destruct Hy as [<-|Hy]; [exists a; split; [left; reflexivity|exact E1]|].
  destruct (IH _ E2 _ Hy) as [x [Hx Ex]]. exists x. split; [right; exact Hx|exact Ex].
Qed.

Lemma py_get_in : forall A (l : list A) i x, py_get l i = Ok x -> In x l.
Proof.
  intros A l i x H. unfold py_get in H. destruct (py_index _ _) as [k|]; [|discriminate].
  destruct (nth_error l k) as [y|] eqn:E; [|discriminate]. injection H as <-. eapply nth_error_In; eauto.
Qed.

(** The first layer of a new circuit. *)
Lemma new_first : forall l init out (c : circuit), mk_circuit S (QList l) init out = Ok c ->
  exists l0, layers c = [l0] /\ forall o, In o l0 -> exists d e q v, o = OInit d e q v /\ In d l /\
    (e = 0%Z \/ exists i, init = Some i /\ In e i) /\ (e <= d)%Z.
Proof.
  intros l init out c H. unfold mk_circuit in H. cbn [reg_layout bind] in H. apply bind_ok in H as [f [Hf H]]. injection H as <-.
  unfold initialize_states in Hf. apply bind_ok in Hf as [gs [Hg Hf]]. apply bind_ok in Hf as [[f' b] [Hp Hf]]. injection Hf as ->.
  unfold populate_opflow in Hp. cbn [opflow0 f_list rev] in Hp. apply bind_ok in Hp as [ms [_ Hp]]. injection Hp as <- _.
  exists gs. split; [reflexivity|]. intros o Ho. destruct (mapM_in _ _ Hg _ Ho) as [[i e] [Hin He]].
  apply bind_ok in He as [d [Hd He]]. apply py_get_in in Hd. unfold init_state in He.
  destruct ((d <? e)%Z || (d <? 2)%Z) eqn:Ed; [discriminate|]. destruct (py_index _ _) as [k|]; [|discriminate]. injection He as <-.
  exists d, e, (Z.of_nat i). eexists. split; [reflexivity|]. split; [exact Hd|]. split.
  - apply in_combine_r in Hin. unfold pad_init in Hin.
    assert (Hz : forall m, In e (zrepeat m 0%Z) -> e = 0%Z) by (intros m Hm; apply repeat_spec in Hm; exact Hm).
    destruct (_ <? _)%Z; [apply in_app_iff in Hin as [Hin|Hin]; [|left; eapply Hz; exact Hin]|];
      (destruct init as [i0|]; [right; eauto | destruct Hin]).
  - apply orb_false_iff in Ed as [Ed _]. apply Z.ltb_ge in Ed. exact Ed.
Qed.

Lemma cat_length : forall l k, (forall s, In s l -> String.length s = k) -> String.length (cat l) = k * length l.
Proof.
  intros l k; induction l as [|s l IH]; intros H; [simpl; lia|]. unfold cat in *. cbn [fold_right length].
  rewrite slen_app, IH by (intros; apply H; right; assumption). rewrite (H s) by (left; reflexivity). lia.
Qed.

Theorem aligned : forall l init out ks (c : circuit), history (QList l) init out ks c ->
  Forall (fun d => d <= 9)%Z l -> (forall i, init = Some i -> Forall (fun e => 0 <= e)%Z i) ->
  Forall (@short_plus S) ks ->
  forall r, r < length l ->
  String.length (line (existsb (@is_measure_all S) ks) c r) = 6 + 5 * (gate_layers c + 1).
Proof.
  intros l init out ks c H Hd Hi HD r Hr.
  assert (Hn : 0 < length l) by lia.
  assert (H0 : exists l0, (exists ls, inv (length l) c ((0 <? length l) && existsb (@is_measure_all S) ks) l0 ls /\
      (forall o, In o (gate_ops ls) -> from_calls c (@short_plus S) o)) /\
      forall o, In o l0 -> exists d e q v, o = OInit d e q v /\ In d l /\
    (e = 0%Z \/ exists i, init = Some i /\ In e i) /\ (e <= d)%Z).
  { destruct H as [c0 [H ->]]. destruct (inv_new _ _ _ H) as [l0 I].
    destruct (@after_full S (@short_plus S) _ ks _ _ _ _ I HD ltac:(simpl; tauto)) as [ls [I' [_ [HF _]]]].
    destruct (new_first _ _ _ H) as [l0' [E F]]. pose proof (i_list I) as E'. rewrite E in E'. injection E' as ->.
    exists l0. split; [|exact F]. exists ls. split; [exact I'|exact HF]. }
  destruct H0 as [l0 [[ls [I HF]] F]].
  destruct (history_minv H) as [l0' [ls' I']]. cbn [nregs] in I'.
  assert (Els : ls' = ls).
  { pose proof (i_list I) as A. pose proof (i_list (proj1 I')) as B. rewrite A in B. injection B as _ B.
    apply app_inv_tail in B. auto. }
  subst ls'. rewrite (minv_gate_layers I' Hn). rewrite (proj2 (Nat.ltb_lt _ _) Hn) in I. cbn [andb] in I.
  set (md := existsb (@is_measure_all S) ks) in *. clearbody md.
  unfold line. change (layers_of c) with (layers c). rewrite (i_list I). cbn [map]. rewrite slen_app.
  change (cat (?x :: ?t)) with (x ++ cat t)%string. rewrite slen_app, map_app, cat_app, slen_app.
  assert (E0 : String.length (shows l0 r) = 6).
  { destruct (i_m0 I) as [A B]. unfold shows. destruct (find _ l0) as [o|] eqn:Ef.
    - apply find_some in Ef as [Ho _]. destruct (F o Ho) as [d [e [q [v [-> [Hd' [He Hle]]]]]]].
      rewrite Forall_forall in Hd. specialize (Hd _ Hd'). rewrite centred_length. cbn [symbol]. rewrite !slen_app.
      assert (0 <= e)%Z by (destruct He as [->|[i [Ei Hin]]]; [lia|]; specialize (Hi i Ei); rewrite Forall_forall in Hi; auto).
      rewrite !str_one by lia. reflexivity.
    - exfalso. assert (Hin : In r (concat (map (occupies (S := S) (length l)) l0))).
      { rewrite (concat_occ_init _ _ B A). apply in_seq. lia. }
      apply in_concat in Hin as [x [Hx Hin]]. apply in_map_iff in Hx as [o [<- Ho]].
      apply filter_In in Hin as [_ Hc]. rewrite (find_none _ _ Ef o Ho) in Hc. discriminate. }
  rewrite E0. rewrite (@cat_length (map (fun l => shows l r) ls) 5).
  - rewrite map_length. destruct md.
    + assert (E5 : String.length (shows (meas_layer S (length l)) r) = 5).
      { unfold shows. destruct (find _ _) as [o|] eqn:Ef; [|reflexivity]. apply find_some in Ef as [Ho _].
        apply in_map_iff in Ho as [i [<- _]]. reflexivity. }
      cbn [map]. change (cat [?x]) with (x ++ "")%string. rewrite slen_app, E5. simpl String.length. lia.
    + simpl String.length. lia.
  - intros s Hs. apply in_map_iff in Hs as [x [<- Hx]]. unfold shows. destruct (find _ x) as [o|] eqn:Ef; [|reflexivity].
    apply find_some in Ef as [Ho _]. rewrite centred_length.
    assert (Hs : String.length (symbol o (Z.of_nat r)) <= 5).
    { eapply symbol_length. apply HF. unfold gate_ops. apply in_concat. eauto. }
    lia.
Qed.
End DrawLib.
