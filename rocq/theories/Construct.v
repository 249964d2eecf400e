(** * Construct: the constructor. *)
From Verif Require Import Py Scalar Mat Utils Gates Circuit Spec Calls HistSpec Lib Flow History Errors Relate.
Set Implicit Arguments.

Section Construct.
Variable S : scalar.
Notation op := (op S).
Notation circuit := (circuit S).
Notation call := (call S).

Definition given (init : option (list Z)) : list Z := match init with Some l => l | None => [] end.

(** The level asked for at register [i]. *)
Definition level_at (init : option (list Z)) (i : nat) : Z := nth i (given init) 0%Z.

(** Position [i] of the register line is acceptable. *)
Definition fine (L : list Z) (init : option (list Z)) (i : nat) : Prop :=
  exists d, nth_error L i = Some d /\ (2 <= d)%Z /\ (- d <= level_at init i < d)%Z.

Lemma mapM_first : forall A B (f : A -> res B) l e, mapM f l = Err e ->
  exists l1 x l2, l = l1 ++ x :: l2 /\ f x = Err e /\ Forall (fun y => exists b, f y = Ok b) l1.
Proof.
  intros A B f l; induction l as [|x l IH]; intros e H; simpl in H; [discriminate|].
  destruct (f x) as [y|e'] eqn:E; simpl in H.
  - destruct (mapM f l) as [ys|e2]; [discriminate|]. injection H as ->.
    destruct (IH e eq_refl) as [l1 [z [l2 [-> [Hz HF]]]]].
    exists (x :: l1), z, l2. split; [reflexivity|]. split; [exact Hz|]. constructor; eauto.
  - injection H as ->. exists [], x, l. auto.
Qed.

Lemma mapM_all : forall A B (f : A -> res B) l, (forall x, In x l -> exists b, f x = Ok b) -> exists l', mapM f l = Ok l'.
Proof.
  intros A B f l; induction l as [|x l IH]; intros H; simpl; [eauto|].
  destruct (H x (or_introl eq_refl)) as [b ->]. destruct IH as [l' ->]; [intros; apply H; right; assumption|].
  simpl. eauto.
Qed.

Lemma combine_seq_app : forall A (l : list A) k l1 i x l2, combine (seq k (length l)) l = l1 ++ (i, x) :: l2 ->
  i = k + length l1 /\ nth_error l (length l1) = Some x /\
  forall j y, nth_error l1 j = Some y -> y = (k + j, nth j l x).
Proof.
  intros A l; induction l as [|a l IH]; intros k l1 i x l2 H; simpl in H; [destruct l1; discriminate|].
  destruct l1 as [|b l1]; simpl in H.
  - injection H as -> -> _. split; [simpl; lia|]. split; [reflexivity|]. intros [|j]; discriminate.
  - injection H as <- H. apply IH in H as [-> [H1 H2]]. split; [simpl; lia|]. split; [exact H1|].
    intros [|j] y Hy; simpl in Hy; [injection Hy as <-; simpl; f_equal; lia|].
    rewrite (H2 j y Hy). simpl. f_equal. lia.
Qed.

Lemma combine_seq_in : forall A (l : list A) k i x, In (i, x) (combine (seq k (length l)) l) ->
  k <= i /\ nth_error l (i - k) = Some x.
Proof.
  intros A l; induction l as [|a l IH]; intros k i x H; simpl in H; [contradiction|].
  destruct H as [H|H].
  - injection H as -> ->. rewrite Nat.sub_diag. simpl. auto.
  - apply IH in H as [H1 H2]. split; [lia|]. replace (i - k) with (Datatypes.S (i - Datatypes.S k)) by lia. exact H2.
Qed.

Lemma pad_length : forall n (l : list Z), length (pad_init (Z.of_nat n) l) = Nat.max n (length l).
Proof.
  intros n l. unfold pad_init. destruct (Z.ltb_spec (Z.of_nat (length l)) (Z.of_nat n)).
  - rewrite app_length. unfold zrepeat. rewrite repeat_length. lia.
  - lia.
Qed.

Lemma pad_nth : forall n (l : list Z) i x, nth_error (pad_init (Z.of_nat n) l) i = Some x -> x = nth i l 0%Z.
Proof.
  intros n l i x H. unfold pad_init in H. destruct (Z.of_nat (length l) <? Z.of_nat n)%Z.
  - destruct (Nat.lt_ge_cases i (length l)) as [Hi|Hi].
    + rewrite nth_error_app1 in H by exact Hi. symmetry. apply nth_error_nth; exact H.
    + rewrite nth_error_app2 in H by exact Hi. apply nth_error_In in H. apply repeat_spec in H.
      rewrite nth_overflow by exact Hi. exact H.
  - symmetry. apply nth_error_nth; exact H.
Qed.

Lemma py_get_nat : forall A (l : list A) i, py_get l (Z.of_nat i) =
  match nth_error l i with Some x => Ok x | None => Err IndexError end.
Proof.
  intros A l i. unfold py_get, py_index. destruct (Z.leb_spec 0 (Z.of_nat i)); [|lia].
  destruct (Z.ltb_spec (Z.of_nat i) (Z.of_nat (length l))); cbn [andb].
  - rewrite Nat2Z.id. reflexivity.
  - replace (Z.of_nat i <? 0)%Z with false by (symmetry; apply Z.ltb_ge; lia). rewrite andb_false_r.
    rewrite (proj2 (nth_error_None l i)) by lia. reflexivity.
Qed.

(** What [init_state] accepts. *)
Lemma init_state_cases : forall d s q,
  match init_state S d s q with
  | Ok (OInit d' s' q' v) => (2 <= d /\ - d <= s < d)%Z /\ d' = d /\ s' = s /\ q' = q /\
      v = mkmat (Z.to_nat d) 1 (fun i _ => if Nat.eqb i (Z.to_nat (s mod d)) then s1 else s0)
  | Ok _ => False
  | Err e => (d < 2 \/ d < s)%Z /\ e = ValueError \/ ((2 <= d)%Z /\ (s = d \/ s < - d)%Z /\ e = IndexError)
  end.
Proof.
  intros d s q. unfold init_state.
  destruct (Z.ltb_spec d s) as [H1|H1]; cbn [orb]; [left; auto|].
  destruct (Z.ltb_spec d 2) as [H2|H2]; [left; auto|].
  unfold py_index. rewrite Z2Nat.id by lia.
  destruct (Z.leb_spec 0 s) as [H3|H3]; cbn [andb].
  - destruct (Z.ltb_spec s d) as [H4|H4]; cbn [andb].
    + split; [lia|]. repeat split. rewrite Z.mod_small by lia. reflexivity.
    + replace (s <? 0)%Z with false by (symmetry; apply Z.ltb_ge; lia). rewrite andb_false_r.
      right. split; [lia|]. split; [lia | reflexivity].
  - destruct (Z.leb_spec (- d) s) as [H4|H4]; cbn [andb].
    + replace (s <? 0)%Z with true by (symmetry; apply Z.ltb_lt; lia).
      split; [lia|]. repeat split. replace (s mod d)%Z with (s + d)%Z; [reflexivity|].
      apply Z.mod_unique with (-1)%Z; lia.
    + right. split; [lia|]. split; [lia | reflexivity].
Qed.

Lemma populate_first : forall gates : list op, exists f,
  populate_opflow (opflow0 S) (mk_moment 0 gates) = Ok (f, true) \/
  exists e, populate_opflow (opflow0 S) (mk_moment 0 gates) = Err e.
Proof.
  intros gates. unfold populate_opflow. simpl.
  destruct (detect_measurement 0 gates _); simpl; eexists; [left; reflexivity | right; eexists; reflexivity].
  Unshelve. exact (opflow0 S).
Qed.

Lemma detect_none : forall (l : list op) k meas, forallb (fun o => negb (is_meas o)) l = true ->
  detect_measurement k l meas = Ok meas.
Proof.
  intros l; induction l as [|o l IH]; intros k meas H; simpl in *; [reflexivity|].
  apply andb_true_iff in H as [H1 H2]. apply negb_true_iff in H1. rewrite H1. simpl. apply IH; exact H2.
Qed.

(** The list form: what exactly is accepted, and what is raised otherwise. *)
Theorem new_fine : forall L init out,
  (forall i, i < Nat.max (length L) (length (given init)) -> fine L init i) ->
  exists c, mk_circuit S (QList L) init out = Ok c.
Proof.
  intros L init out H. unfold mk_circuit, reg_layout. cbn [bind]. fold (given init).
  set (st := pad_init _ _). unfold initialize_states.
  destruct (@mapM_all _ _ (fun '(i, e) => d <- py_get L (Z.of_nat i) ;; init_state S d e (Z.of_nat i)) (combine (seq 0 (length st)) st)) as [gates Eg].
  - intros [i x] Hin. apply combine_seq_in in Hin as [_ Hin]. rewrite Nat.sub_0_r in Hin.
    assert (Hi : i < Nat.max (length L) (length (given init))).
    { unfold st in Hin. rewrite <- pad_length. apply nth_error_Some. congruence. }
    apply pad_nth in Hin. destruct (H i Hi) as [d [Ed [H2 Hl]]]. rewrite py_get_nat, Ed. cbn [bind].
    pose proof (init_state_cases d x (Z.of_nat i)) as C. unfold level_at in Hl. rewrite <- Hin in Hl.
    destruct (init_state S d x (Z.of_nat i)) as [o|e]; [eauto|]. exfalso. destruct C as [[C _]|[_ [C _]]]; lia.
  - rewrite Eg. cbn [bind]. unfold populate_opflow. cbn [f_list opflow0 rev mk_moment m_list].
    rewrite detect_none; [cbn [bind]; eauto|].
    apply mapM_forall2 in Eg. clear - Eg. induction Eg as [|[i x] o l l' Ho _ IH]; [reflexivity|].
    simpl. rewrite IH, andb_true_r. destruct (py_get L (Z.of_nat i)); [|discriminate]. simpl in Ho.
    apply init_state_shape in Ho as [Ho _]. destruct o; try discriminate; reflexivity.
Qed.

Theorem new_ok_fine : forall L init out c, mk_circuit S (QList L) init out = Ok c ->
  forall i, i < Nat.max (length L) (length (given init)) -> fine L init i.
Proof.
  intros L init out c H i Hi. unfold mk_circuit, reg_layout in H. cbn [bind] in H. fold (given init) in H.
  apply bind_ok in H as [f [H _]]. unfold initialize_states in H. apply bind_ok in H as [gates [H _]].
  set (st := pad_init _ _) in H.
  apply mapM_forall2 in H.
  assert (Hs : length st = Nat.max (length L) (length (given init))) by apply pad_length.
  destruct (nth_error st i) as [x|] eqn:Ex; [|apply nth_error_None in Ex; lia].
  assert (Hc : nth_error (combine (seq 0 (length st)) st) i = Some (i, x)).
  { clear - Ex. revert Ex. assert (G : forall k, nth_error st i = Some x -> nth_error (combine (seq k (length st)) st) i = Some (k + i, x)).
    { revert i. induction st as [|a l IH]; intros [|i] k E; simpl in *; try discriminate.
      - injection E as <-. rewrite Nat.add_0_r. reflexivity.
      - rewrite (IH i (Datatypes.S k) E). f_equal. f_equal. lia. }
    apply G. }
  assert (G : exists o, (d <- py_get L (Z.of_nat i) ;; init_state S d x (Z.of_nat i)) = Ok o).
  { apply nth_error_In in Hc. clear - H Hc. induction H as [|y o l l' Hy H IH]; [contradiction|].
    destruct Hc as [->|Hc]; [exists o; exact Hy | auto]. }
  destruct G as [o Ho]. rewrite py_get_nat in Ho. unfold fine.
  destruct (nth_error L i) as [d|]; [|discriminate]. cbn [bind] in Ho. exists d. split; [reflexivity|].
  pose proof (init_state_cases d x (Z.of_nat i)) as C. rewrite Ho in C. destruct o; try contradiction.
  apply pad_nth in Ex. unfold level_at. rewrite <- Ex. lia.
Qed.

(** What is raised, and because of which register: the first bad one. *)
Theorem new_error : forall L init out e, mk_circuit S (QList L) init out = Err e ->
  exists i, i < Nat.max (length L) (length (given init)) /\ (forall j, j < i -> fine L init j) /\
    match nth_error L i with
    | None => e = IndexError
    | Some d => (d < 2 \/ d < level_at init i)%Z /\ e = ValueError \/
                ((2 <= d)%Z /\ (level_at init i = d \/ level_at init i < - d)%Z /\ e = IndexError)
    end.
Proof.
  intros L init out e H. unfold mk_circuit, reg_layout in H. cbn [bind] in H. fold (given init) in H.
  set (st := pad_init _ _) in H. unfold initialize_states in H.
  destruct (mapM _ (combine (seq 0 (length st)) st)) as [gates|e'] eqn:Eg.
  - exfalso. cbn [bind] in H. unfold populate_opflow in H. cbn [f_list opflow0 rev mk_moment m_list] in H.
    rewrite detect_none in H; [discriminate|].
    apply mapM_forall2 in Eg. clear - Eg. induction Eg as [|[i x] o l l' Ho _ IH]; [reflexivity|].
    simpl. rewrite IH, andb_true_r. destruct (py_get L (Z.of_nat i)); [|discriminate]. simpl in Ho.
    apply init_state_shape in Ho as [Ho _]. destruct o; try discriminate; reflexivity.
  - cbn [bind] in H. injection H as ->. apply mapM_first in Eg as [l1 [[i x] [l2 [E [He HF]]]]].
    pose proof E as E'. apply combine_seq_app in E as [-> [Ex Hl1]]. simpl in *. exists (length l1).
    assert (Hlt : length l1 < length st) by (apply nth_error_Some; congruence).
    split; [unfold st in Hlt; rewrite pad_length in Hlt; exact Hlt|]. split.
    + intros j Hj. destruct (nth_error l1 j) as [y|] eqn:Ey; [|apply nth_error_None in Ey; lia].
      pose proof (Hl1 j y Ey) as Hy. assert (Hin : In y l1) by (eapply nth_error_In; eauto).
      rewrite Forall_forall in HF. destruct (HF y Hin) as [b Hb]. subst y. rewrite py_get_nat in Hb.
      unfold fine. destruct (nth_error L j) as [d|]; [|discriminate]. cbn [bind] in Hb. exists d. split; [reflexivity|].
      pose proof (init_state_cases d (nth j st x) (Z.of_nat j)) as C. rewrite Hb in C. destruct b; try contradiction.
      assert (Es : nth_error st j = Some (nth j st x)) by (apply nth_error_nth'; lia).
      apply pad_nth in Es. unfold level_at. rewrite <- Es. lia.
    + rewrite py_get_nat in He. destruct (nth_error L (length l1)) as [d|]; [|cbn [bind] in He; congruence].
      cbn [bind] in He. pose proof (init_state_cases d x (Z.of_nat (length l1))) as C. rewrite He in C.
      apply pad_nth in Ex. unfold level_at. rewrite <- Ex. exact C.
Qed.

(** ** The layout stays *)
Lemma new_layout : forall L init out (c : circuit), mk_circuit S (QList L) init out = Ok c ->
  c_qregs c = QList L /\ c_len c = Z.of_nat (length L) /\ c_dims c = L /\
  c_out c = match out with Some o => o | None => {| o_base := L; o_type := OutPrint; o_method := OutAmplitude |} end.
Proof.
  intros L init out c H. unfold mk_circuit, reg_layout in H. cbn [bind] in H.
  apply bind_ok in H as [f [_ H]]. injection H as <-. simpl. auto.
Qed.

Lemma history_layout : forall L init out ks (c : circuit), history (QList L) init out ks c ->
  c_qregs c = QList L /\ c_len c = Z.of_nat (length L) /\ c_dims c = L /\
  c_out c = match out with Some o => o | None => {| o_base := L; o_type := OutPrint; o_method := OutAmplitude |} end.
Proof.
  intros L init out ks c [c0 [H ->]]. pose proof (new_layout _ _ _ H) as [H1 [H2 [H3 H4]]].
  destruct (inv_new _ _ _ H) as [l0 I].
  destruct (@after_full S (fun _ => True) _ ks _ _ _ _ I) as [ls [_ [[E1 [E2 [E3 E4]]] _]]].
  - apply Forall_forall; auto.
  - simpl; tauto.
  - rewrite E1, E2, E3, E4. auto.
Qed.

Lemma history_dims2 : forall L init out ks (c : circuit), history (QList L) init out ks c ->
  forall d, In d L -> (2 <= d)%Z.
Proof.
  intros L init out ks c [c0 [H _]] d Hd. apply In_nth_error in Hd as [i Hi].
  assert (Hl : i < length L) by (apply nth_error_Some; congruence).
  destruct (new_ok_fine _ _ _ H (i := i)) as [d' [E [H2 _]]]; [lia|]. congruence.
Qed.

(** ** Negative initial levels *)
Definition wrapped (L lv : list Z) : list Z := map (fun '(d, s) => (s mod d)%Z) (combine L lv).

(** Initial states that differ in the recorded level only. *)
Definition init_rel (o o' : op) : Prop :=
  o = o' \/ match o, o' with
            | OInit d _ q v, OInit d' _ q' v' => d = d' /\ q = q' /\ v = v'
            | _, _ => False
            end.

Lemma init_rel_alike : forall o o', init_rel o o' -> alike o o'.
Proof.
  intros o o' [->|H]; [apply alike_refl|]. destruct o, o'; try contradiction. destruct H as [-> [-> ->]].
  unfold alike; simpl. repeat split. constructor.
Qed.
Lemma init_rel_same : forall (B : backend S) o o', init_rel o o' -> unitary B o = unitary B o'.
Proof. intros B o o' [->|H]; [reflexivity|]. destruct o, o'; try contradiction. destruct H as [-> [-> ->]]. reflexivity. Qed.
Lemma init_rel_refl : forall o, init_rel o o.
Proof. left; reflexivity. Qed.

Lemma wrapped_nth : forall L lv i, length lv <= length L -> i < length L -> (forall d, In d L -> (0 < d)%Z) ->
  nth i (wrapped L lv) 0%Z = (nth i lv 0 mod nth i L 1)%Z.
Proof.
  intros L; induction L as [|d L IH]; intros lv i Hl Hi Hd; simpl in Hi; [lia|].
  destruct lv as [|s lv].
  - simpl. destruct i; rewrite Zmod_0_l; reflexivity.
  - simpl in Hl. destruct i as [|i]; [reflexivity|]. simpl. apply IH; [lia | lia |]. intros; apply Hd; right; assumption.
Qed.

Lemma wrapped_length : forall L lv, length lv <= length L -> length (wrapped L lv) = length lv.
Proof. intros L lv H. unfold wrapped. rewrite map_length, combine_length. lia. Qed.

Lemma mapM_rel : forall A B B' (P : B -> B' -> Prop) (f : A -> res B) (g : A -> res B') l,
  (forall x, In x l -> res_rel P (f x) (g x)) -> res_rel (Forall2 P) (mapM f l) (mapM g l).
Proof.
  intros A B B' P f g l; induction l as [|x l IH]; intros H; simpl; [constructor; constructor|].
  eapply rr_bind; [apply H; left; reflexivity|]. intros a b Hab.
  eapply rr_bind; [apply IH; intros; apply H; right; assumption|]. intros l1 l2 Hl. constructor. constructor; assumption.
Qed.

Lemma nth_combine_seq : forall (l : list Z) n, length l = n ->
  combine (seq 0 n) l = map (fun i => (i, nth i l 0%Z)) (seq 0 n).
Proof.
  intros l n H. assert (G : forall l k, combine (seq k (length l)) l = map (fun i => (i, nth (i - k) l 0%Z)) (seq k (length l))).
  { clear. intros l; induction l as [|a l IH]; intros k; simpl; [reflexivity|]. rewrite Nat.sub_diag. f_equal.
    rewrite IH. apply map_ext_in. intros i Hi. apply in_seq in Hi.
    replace (i - k) with (Datatypes.S (i - Datatypes.S k)) by lia. reflexivity. }
  subst n. rewrite G. apply map_ext. intros i. rewrite Nat.sub_0_r. reflexivity.
Qed.

Lemma pad_nth' : forall n (l : list Z) i, length l <= n -> nth i (pad_init (Z.of_nat n) l) 0%Z = nth i l 0%Z.
Proof.
  intros n l i Hl. destruct (nth_error (pad_init (Z.of_nat n) l) i) as [x|] eqn:E.
  - rewrite (nth_error_nth _ _ _ E). apply pad_nth in E. exact E.
  - apply nth_error_None in E. rewrite nth_overflow by exact E. rewrite pad_length in E. rewrite nth_overflow by lia. reflexivity.
Qed.

Lemma map_mapM : forall A B C (h : A -> B) (f : B -> res C) l, mapM f (map h l) = mapM (fun x => f (h x)) l.
Proof. intros A B C h f l; induction l; simpl; [reflexivity|]. rewrite IHl. reflexivity. Qed.

Theorem new_wrapped : forall L lv out, length lv <= length L ->
  (forall i d, nth_error L i = Some d -> (2 <= d)%Z /\ (- d <= nth i lv 0 < d)%Z) ->
  res_rel (crel init_rel) (mk_circuit S (QList L) (Some lv) out) (mk_circuit S (QList L) (Some (wrapped L lv)) out).
Proof.
  intros L lv out Hl Hfine. unfold mk_circuit, reg_layout. cbn [bind].
  assert (Hd : forall d, In d L -> (0 < d)%Z).
  { intros d Hd. apply In_nth_error in Hd as [i Hi]. apply Hfine in Hi. lia. }
  eapply (rr_bind (P := frel init_rel)).
  - unfold initialize_states.
    assert (E1 : length (pad_init (Z.of_nat (length L)) lv) = length L) by (rewrite pad_length; lia).
    assert (E2 : length (pad_init (Z.of_nat (length L)) (wrapped L lv)) = length L)
      by (rewrite pad_length, wrapped_length; lia).
    rewrite E1, E2, !nth_combine_seq, !map_mapM by assumption.
    eapply rr_bind.
    + apply (@mapM_rel _ _ _ init_rel). intros i Hi. apply in_seq in Hi.
      rewrite !pad_nth' by (rewrite ?wrapped_length; lia). rewrite wrapped_nth by (lia || assumption).
      rewrite py_get_nat. destruct (nth_error L i) as [d|] eqn:Ed; [|constructor]. cbn [bind].
      destruct (Hfine i d Ed) as [H2 H3]. rewrite (nth_error_nth _ _ _ Ed).
      pose proof (init_state_cases d (nth i lv 0%Z) (Z.of_nat i)) as C1.
      pose proof (init_state_cases d (nth i lv 0 mod d)%Z (Z.of_nat i)) as C2.
      assert (Hm := Z.mod_pos_bound (nth i lv 0%Z) d ltac:(lia)).
      destruct (init_state S d (nth i lv 0%Z) (Z.of_nat i)) as [o|e]; [|exfalso; lia].
      destruct (init_state S d (nth i lv 0 mod d)%Z (Z.of_nat i)) as [o'|e]; [|exfalso; lia].
      destruct o; try contradiction. destruct o'; try contradiction. constructor.
      destruct C1 as [_ [-> [_ [-> ->]]]]. destruct C2 as [_ [-> [_ [-> ->]]]].
      right. repeat split. rewrite Zmod_mod. reflexivity.
    + intros g g' Hg. eapply rr_bind.
      * apply (@populate_rel S init_rel init_rel_alike (opflow0 S) (opflow0 S)).
        -- split; [reflexivity | constructor].
        -- repeat split. exact Hg.
      * intros [f b] [f' b'] [X _]. constructor. exact X.
  - intros f f' [X1 X2]. constructor. constructor; simpl; auto.
Qed.

Theorem simulate_wrapped : forall (B : backend S) L lv out ks, length lv <= length L ->
  (forall i d, nth_error L i = Some d -> (2 <= d)%Z /\ (- d <= nth i lv 0 < d)%Z) ->
  simulate B (QList L) (Some lv) out ks = simulate B (QList L) (Some (wrapped L lv)) out ks.
Proof.
  intros B L lv out ks Hl Hf. unfold simulate.
  destruct (@new_wrapped L lv out Hl Hf) as [c c' Hc|e]; [|reflexivity]. cbn [bind].
  destruct (script_rel init_rel_refl init_rel_alike (ks ++ [CMeasureAll]) Hc) as [d d' Hd|e]; [|reflexivity]. cbn [bind].
  apply (@run_same S init_rel); [apply init_rel_same | exact Hd].
Qed.

End Construct.
