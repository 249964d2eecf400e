(** * DrawFail: the text drawing of arbitrary circuits. *)
From Coq Require Import List Arith ZArith Lia String Bool.
From Verif Require Import Py Scalar Mat Utils Gates Circuit Spec Calls HistSpec CallSpec Lib GateMat Flow Layers History Info InfoSpec InfoLib Draw DrawSpec DrawLib DrawFailSpec.
Import ListNotations.
Set Implicit Arguments.
Local Notation length := List.length.

Lemma names_row_spec : forall n r, names_row n r = true <-> (- Z.of_nat n <= r < Z.of_nat n)%Z.
Proof. intros n r. unfold names_row. rewrite andb_true_iff, Z.leb_le, Z.ltb_lt. reflexivity. Qed.

Lemma py_index_row : forall n r, if names_row n r then exists k, k < n /\ py_index n r = Some k else py_index n r = None.
Proof.
  intros n r. unfold names_row, py_index.
  destruct (Z.leb_spec (- Z.of_nat n) r), (Z.ltb_spec r (Z.of_nat n)), (Z.leb_spec 0 r), (Z.ltb_spec r 0); cbn [andb]; try reflexivity; try lia.
  - exists (Z.to_nat r). split; [lia | reflexivity].
  - exists (Z.to_nat (r + Z.of_nat n)). split; [lia | reflexivity].
Qed.

Lemma set_cell_any : forall M n w i j s, shape M n w -> j < w ->
  if names_row n i then exists M', set_cell j M i s = Ok M' /\ shape M' n w else set_cell j M i s = Err IndexError.
Proof.
  intros M n w i j s [Hn Hw] Hj. pose proof (py_index_row n i) as E. unfold set_cell, py_get. rewrite Hn.
  destruct (names_row n i); [|rewrite E; reflexivity]. destruct E as [k [Hk E]]. rewrite E.
  rewrite (nth_error_nth' M []) by lia. cbn [bind]. unfold py_set at 1. rewrite (Hw k Hk).
  rewrite (@py_index_in w (Z.of_nat j)) by lia. cbn [bind]. unfold py_set. rewrite Hn, E. eexists. split; [reflexivity|].
  split; [rewrite upd_length'; exact Hn|]. intros r Hr. rewrite nth_upd' by lia.
  destruct (Nat.eqb r k); [rewrite upd_length'; apply Hw; lia | apply Hw; exact Hr].
Qed.

Lemma set_cells_err : forall l j e, fold_left (fun acc '(i, s) => m <- acc ;; set_cell j m i s) l (Err e) = Err e.
Proof. induction l as [|[i s] l IH]; intros j e; [reflexivity|]. cbn [fold_left bind]. apply IH. Qed.

Lemma set_cells_any : forall l M n w j, shape M n w -> j < w ->
  if forallb (fun c => names_row n (fst c)) l then exists M', set_cells j M l = Ok M' /\ shape M' n w
  else set_cells j M l = Err IndexError.
Proof.
  intros l; induction l as [|[i s] l IH]; intros M n w j HM Hj; [exists M; split; [reflexivity | exact HM]|].
  cbn [forallb fst]. pose proof (@set_cell_any M n w i j s HM Hj) as E. unfold set_cells. cbn [fold_left bind].
  destruct (names_row n i); cbn [andb].
  - destruct E as [M1 [E1 H1]]. rewrite E1. apply (IH M1 n w j H1 Hj).
  - rewrite E. apply set_cells_err.
Qed.

Section DrawFail.
Variable S : scalar.
Notation op := (op S).
Notation circuit := (circuit S).
Notation moment := (moment S).

(** The operation is drawn, or raises as told. *)
Definition behaves (n : nat) (o : op) : Prop := forall j M w, shape M n w -> j < w ->
  match trouble n o with
  | None => exists M', draw_op j M o = Ok M' /\ shape M' n w
  | Some e => draw_op j M o = Err e
  end.

Lemma behaves_cells : forall n (o : op) l, op_cells o = Ok l -> trouble n o = None ->
  (forall c, In c l -> names_row n (fst c) = true) -> behaves n o.
Proof.
  intros n o l E Et Hl j M w HM Hj. rewrite Et. unfold draw_op. rewrite E. cbn [bind].
  pose proof (set_cells_any l HM Hj) as A. rewrite (proj2 (forallb_forall _ _) Hl) in A. exact A.
Qed.

Lemma behaves_cx : forall n qr a p, behaves n (OCX qr a p).
Proof.
  intros n qr a p j M w HM Hj. destruct a as [|c [|t [|x a]]]; try reflexivity. cbn [trouble].
  unfold draw_op. cbn [op_cells bind].
  match goal with |- context [set_cells j M ?l] => set (cells := l) end. pose proof (set_cells_any cells HM Hj) as A.
  assert (E : forallb (fun c => names_row n (fst c)) cells = names_row n c && names_row n t).
  { unfold cells. cbn [forallb fst]. destruct (names_row n c) eqn:Ec; [|reflexivity]. destruct (names_row n t) eqn:Et; [|reflexivity].
    cbn [andb]. apply forallb_forall. intros x Hx. apply in_map_iff in Hx as [y [<- Hy]]. cbn [fst]. apply in_zrange in Hy.
    apply names_row_spec in Ec, Et. apply names_row_spec. destruct (Z.ltb_spec t c), (Z.ltb_spec c t); lia. }
  rewrite E in A. destruct (names_row n c && names_row n t); exact A.
Qed.

Lemma mapM_get_rows : forall (l : list Z) rs ds, mapM (py_get l) rs = Ok ds -> forall r, In r rs -> names_row (length l) r = true.
Proof.
  intros l rs; induction rs as [|x rs IH]; intros ds E r Hr; [contradiction|]. cbn [mapM] in E.
  apply bind_ok in E as [y [E1 E2]]. apply bind_ok in E2 as [ys [E2 _]]. destruct Hr as [<-|Hr]; [|exact (IH ys E2 r Hr)].
  unfold py_get in E1. pose proof (py_index_row (length l) x) as A. destruct (names_row (length l) x); [reflexivity|]. rewrite A in E1. discriminate.
Qed.

Lemma in_row : forall n q, (0 <= q < Z.of_nat n)%Z -> names_row n q = true.
Proof. intros n q H. apply names_row_spec. lia. Qed.

Lemma gate_behaves : forall n (c : circuit) l o, n = length (c_dims c) -> n = length (qregs_list (c_qregs c)) -> tiles n l -> In o l ->
  from_calls c (fun _ => True) o -> behaves n o.
Proof.
  intros n c l o En En' HT Ho [[i [Hi ->]]|[k [_ Hi]]].
  - eapply behaves_cells; [reflexivity | reflexivity | intros x []].
  - pose proof (fun q => @in_range_of_tiles S n l o q HT Ho) as R. destruct Hi.
    + eapply behaves_cells; [reflexivity | reflexivity|]. intros x [<-|[]]. apply in_row, R. reflexivity.
    + eapply behaves_cells; [reflexivity | reflexivity|]. intros x [<-|[]]. apply in_row, R. reflexivity.
    + eapply behaves_cells; [reflexivity | reflexivity|]. intros x [<-|[]]. apply in_row, R. reflexivity.
    + apply behaves_cx.
    + unfold mk_toffoli in H. apply bind_ok in H as [[[u' lb] ub] [H1 H2]]. apply bind_ok in H2 as [ds' [H2 H3]]. injection H3 as <- <- <-.
      eapply behaves_cells; [reflexivity | reflexivity|]. intros x Hx. apply in_map_iff in Hx as [y [<- Hy]]. cbn [fst].
      rewrite En'. exact (mapM_get_rows _ _ H2 y Hy).
    + eapply behaves_cells; [reflexivity | reflexivity | intros x []].
    + eapply behaves_cells; [reflexivity | reflexivity | intros x []].
Qed.

Lemma fold_ops_err : forall j (ops : list op) e, fold_left (fun acc o => m <- acc ;; draw_op j m o) ops (Err e) = Err e.
Proof. intros j ops; induction ops as [|o ops IH]; intros e; [reflexivity|]. cbn [fold_left bind]. apply IH. Qed.

Lemma fold_ops_any : forall n w j (ops : list op) M, shape M n w -> j < w -> (forall o, In o ops -> behaves n o) ->
  match first_some (trouble n) ops with
  | None => exists M', fold_left (fun acc o => m <- acc ;; draw_op j m o) ops (Ok M) = Ok M' /\ shape M' n w
  | Some e => fold_left (fun acc o => m <- acc ;; draw_op j m o) ops (Ok M) = Err e
  end.
Proof.
  intros n w j ops; induction ops as [|o ops IH]; intros M HM Hj Hb; [exists M; split; [reflexivity | exact HM]|].
  cbn [first_some fold_left bind]. pose proof (Hb o (or_introl eq_refl) j M w HM Hj) as E. destruct (trouble n o) as [e|].
  - rewrite E. apply fold_ops_err.
  - destruct E as [M1 [E1 H1]]. rewrite E1. apply (IH M1 H1 Hj). intros o' Ho'. apply Hb. right; exact Ho'.
Qed.

Lemma first_some_app : forall A B (f : A -> option B) l1 l2,
  first_some f (l1 ++ l2) = match first_some f l1 with Some y => Some y | None => first_some f l2 end.
Proof. intros A B f l1 l2; induction l1 as [|x l1 IH]; [reflexivity|]. cbn [app first_some]. destruct (f x); [reflexivity | exact IH]. Qed.

Lemma layers_err : forall (l : list (nat * moment)) e,
  fold_left (fun acc '(j, mo) => m <- acc ;; fold_left (fun acc o => m <- acc ;; draw_op j m o) (m_list mo) (Ok m)) l (Err e) = Err e.
Proof. induction l as [|[j mo] l IH]; intros e; [reflexivity|]. cbn [fold_left bind]. apply IH. Qed.

Lemma draw_layers_any : forall n w (ms : list moment) k M, shape M n w -> k + length ms <= w ->
  (forall m, In m ms -> forall o, In o (m_list m) -> behaves n o) ->
  match first_some (trouble n) (concat (map (@m_list S) ms)) with
  | None => exists M', fold_left (fun acc '(j, mo) => m <- acc ;; fold_left (fun acc o => m <- acc ;; draw_op j m o) (m_list mo) (Ok m))
              (combine (seq k (length ms)) ms) (Ok M) = Ok M'
  | Some e => fold_left (fun acc '(j, mo) => m <- acc ;; fold_left (fun acc o => m <- acc ;; draw_op j m o) (m_list mo) (Ok m))
              (combine (seq k (length ms)) ms) (Ok M) = Err e
  end.
Proof.
  intros n w ms; induction ms as [|mo ms IH]; intros k M HM Hk Hb; [exists M; reflexivity|].
  cbn [map concat length seq combine fold_left bind]. rewrite first_some_app. cbn [length] in Hk.
  pose proof (@fold_ops_any n w k (m_list mo) M HM ltac:(lia) (Hb mo (or_introl eq_refl))) as E.
  destruct (first_some (trouble n) (m_list mo)) as [e|].
  - rewrite E. apply layers_err.
  - destruct E as [M1 [E1 H1]]. rewrite E1. apply (IH _ M1 H1); [lia|]. intros m Hm. apply Hb. right; exact Hm.
Qed.

Theorem drawing_any : forall l init out ks (c : circuit), history (QList l) init out ks c -> l <> [] ->
  match first_some (trouble (length l)) (concat (layers_of c)) with
  | None => exists s, circuit_str c = Ok s
  | Some e => circuit_str c = Err e
  end.
Proof.
  intros l init out ks c H Hl.
  assert (Hn : 0 < length l) by (destruct l; [congruence|simpl; lia]).
  destruct (@history_full S (fun _ => True) _ _ _ _ _ H ltac:(apply Forall_forall; auto)) as [l0 [ls [I HF]]]. cbn [nregs] in I.
  destruct (history_minv H) as [l0' [ls' I']]. cbn [nregs] in I'.
  assert (Els : ls' = ls /\ l0' = l0).
  { pose proof (i_list I) as A. pose proof (i_list (proj1 I')) as B. rewrite A in B. injection B as -> B.
    apply app_inv_tail in B. auto. }
  destruct Els as [-> ->]. rewrite (proj2 (Nat.ltb_lt _ _) Hn) in *. cbn [andb] in *.
  set (md := existsb (@is_measure_all S) ks) in *. clearbody md. set (n := length l) in *.
  unfold circuit_str. rewrite (minv_config I'), (history_qregs H). cbn [bind qregs_list]. fold n.
  set (w := length ls + 2). replace (Z.to_nat (Z.of_nat (length ls) + 2)) with w by (unfold w; lia).
  assert (HM0 : shape (repeat (repeat None w) n) n w).
  { split; [apply repeat_length|]. intros r Hr. rewrite nth_repeat_lt by exact Hr. apply repeat_length. }
  pose proof (i_list I) as EL. unfold layers in EL. unfold layers_of. set (ms := f_list (c_flow c)) in *.
  assert (Elen : length ms = 1 + length ls + (if md then 1 else 0)).
  { rewrite <- (map_length (@m_list S)), EL. cbn [length]. rewrite app_length. destruct md; cbn [length]; lia. }
  assert (Hms : forall m, In m ms -> forall o, In o (m_list m) -> behaves n o).
  { intros m Hm o Ho. apply (in_map (@m_list S)) in Hm. fold ms in EL. rewrite EL in Hm. destruct Hm as [E|Hm].
    - rewrite <- E in Ho. destruct (i_m0 I) as [A B]. rewrite forallb_forall in A. specialize (A o Ho). apply (in_map (@qreg_of S)) in Ho. rewrite B in Ho.
      apply in_map_iff in Ho as [i [Ei Hi]]. apply in_seq in Hi. destruct o; try discriminate. cbn [qreg_of] in Ei. subst qreg.
      eapply behaves_cells; [reflexivity | reflexivity|]. intros x [<-|[]]. apply in_row. cbn [fst]. lia.
    - apply in_app_iff in Hm as [Hm|Hm].
      + pose proof (i_tile I) as T. rewrite Forall_forall in T. specialize (T _ Hm).
        eapply gate_behaves; [symmetry; exact (i_dims I) | rewrite (history_qregs H); reflexivity | exact T | exact Ho |].
        apply HF. unfold gate_ops. apply in_concat. eauto.
      + destruct md; [|contradiction]. destruct Hm as [Em|[]]. rewrite <- Em in Ho.
        apply in_map_iff in Ho as [i [<- Hi]]. apply in_seq in Hi.
        eapply behaves_cells; [reflexivity | reflexivity|]. intros x [<-|[]]. apply in_row. cbn [fst]. lia. }
  pose proof (@draw_layers_any n w ms 0 _ HM0 ltac:(unfold w; destruct md; lia) Hms) as E. unfold draw_layers.
  destruct (first_some (trouble n) (concat (map (@m_list S) ms))) as [e|].
  - rewrite E. reflexivity.
  - destruct E as [M E]. rewrite E. cbn [bind]. eexists. reflexivity.
Qed.

End DrawFail.
