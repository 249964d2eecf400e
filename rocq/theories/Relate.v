(** * Relate: circuits that differ only in some of their operations. *)
From Verif Require Import Py Scalar Mat Utils Gates Circuit Spec Calls HistSpec Lib Flow History Errors.
Set Implicit Arguments.

Section Relate.
Variable S : scalar.
Notation op := (op S).
Notation moment := (moment S).
Notation circuit := (circuit S).
Notation call := (call S).
Notation NB := (NumpyBackend S).

(** Results that are both exceptions (the same) or both values, related. *)
Inductive res_rel {A B} (P : A -> B -> Prop) : res A -> res B -> Prop :=
| rr_ok : forall a b, P a b -> res_rel P (Ok a) (Ok b)
| rr_err : forall e, res_rel P (Err e) (Err e).

Lemma rr_bind : forall A B A' B' (P : A -> B -> Prop) (Q : A' -> B' -> Prop) r r' f f',
  res_rel P r r' -> (forall a b, P a b -> res_rel Q (f a) (f' b)) -> res_rel Q (bind r f) (bind r' f').
Proof. intros A B A' B' P Q r r' f f' H Hf. destruct H; simpl; [auto | constructor]. Qed.

Lemma rr_refl : forall A (P : A -> A -> Prop) r, (forall a, P a a) -> res_rel P r r.
Proof. intros A P [a|e] H; constructor; auto. Qed.

Lemma rr_eq : forall A (r : res A), res_rel eq r r.
Proof. intros A [a|e]; constructor; reflexivity. Qed.

(** Two operations the bookkeeping cannot tell apart. *)
Definition alike (o o' : op) : Prop :=
  is_igate o = is_igate o' /\ is_hxz o = is_hxz o' /\ is_meas o = is_meas o' /\ qreg_of o = qreg_of o' /\
  res_rel (fun a a' => forall q, zmem q a = zmem q a') (acting_members o) (acting_members o').

Lemma alike_refl : forall o, alike o o.
Proof. intros o. unfold alike. repeat split. apply rr_refl. reflexivity. Qed.

Variable R : op -> op -> Prop.
Hypothesis R_refl : forall o, R o o.
Hypothesis R_alike : forall o o', R o o' -> alike o o'.

Definition mrel (m m' : moment) : Prop :=
  m_name m = m_name m' /\ m_prev m = m_prev m' /\ m_next m = m_next m' /\ Forall2 R (m_list m) (m_list m').

Record crel (c c' : circuit) : Prop := {
  cr_qregs : c_qregs c = c_qregs c';
  cr_len : c_len c = c_len c';
  cr_dims : c_dims c = c_dims c';
  cr_out : c_out c = c_out c';
  cr_meas : f_meas (c_flow c) = f_meas (c_flow c');
  cr_list : Forall2 mrel (f_list (c_flow c)) (f_list (c_flow c')) }.

Definition frel (f f' : opflow S) : Prop := f_meas f = f_meas f' /\ Forall2 mrel (f_list f) (f_list f').

Lemma Forall2_rev' : forall A B (P : A -> B -> Prop) l l', Forall2 P l l' -> Forall2 P (rev l) (rev l').
Proof.
  intros A B P l l' H; induction H; simpl; [constructor|]. apply Forall2_app; [exact IHForall2|].
  constructor; [exact H | constructor].
Qed.

Lemma Forall2_refl' : forall A (P : A -> A -> Prop) l, (forall x, P x x) -> Forall2 P l l.
Proof. intros A P l H; induction l; constructor; auto. Qed.

Lemma find_rel : forall l l', Forall2 R l l' ->
  match find (@is_hxz S) l, find (@is_hxz S) l' with
  | Some g, Some g' => R g g' | None, None => True | _, _ => False end.
Proof.
  intros l l' H; induction H; simpl; [exact I|].
  destruct (R_alike H) as [_ [E _]]. rewrite <- E. destruct (is_hxz x); [exact H | exact IHForall2].
Qed.

Lemma igates_rel : forall l l', Forall2 R l l' ->
  map (@qreg_of S) (filter (@is_igate S) l) = map (@qreg_of S) (filter (@is_igate S) l').
Proof.
  intros l l' H; induction H; simpl; [reflexivity|].
  destruct (R_alike H) as [E1 [_ [_ [E2 _]]]]. rewrite <- E1. destruct (is_igate x); simpl; congruence.
Qed.

Lemma get_qreg_rel : forall l l' q k, Forall2 R l l' ->
  res_rel (fun a a' => match a, a' with
    | Some (g, i), Some (g', i') => i = i' /\ is_igate g = is_igate g' | None, None => True | _, _ => False end)
    (get_qreg_moment_from k l q) (get_qreg_moment_from k l' q).
Proof.
  intros l l' q k H. revert k. induction H as [|x y l l' Hxy H IH]; intros k; simpl.
  - constructor. exact I.
  - destruct (R_alike Hxy) as [E1 [_ [_ [_ E3]]]]. eapply rr_bind; [exact E3|].
    intros a a' Ha. rewrite <- Ha. destruct (zmem q a); [constructor; auto | apply IH].
Qed.

Lemma upd_rel : forall l l' i g g', Forall2 R l l' -> R g g' -> Forall2 R (upd l i g) (upd l' i g').
Proof.
  intros l l' i g g' H Hg. revert i. induction H; intros [|i]; simpl; constructor; auto.
Qed.

Lemma replace_rel : forall l l' g g' q, Forall2 R l l' -> R g g' ->
  res_rel (fun a a' => Forall2 R (fst a) (fst a') /\ snd a = snd a') (replace_igate l g q) (replace_igate l' g' q).
Proof.
  intros l l' g g' q H Hg. unfold replace_igate. eapply rr_bind; [apply (get_qreg_rel q 0 H)|].
  intros [[a i]|] [[a' i']|] X; try contradiction; [|constructor].
  destruct X as [<- E]. rewrite <- E. destruct (is_igate a); constructor; simpl; auto using upd_rel.
Qed.

Lemma detect_rel : forall l l' k meas, Forall2 R l l' -> detect_measurement k l meas = detect_measurement k l' meas.
Proof.
  intros l l' k meas H. revert k meas. induction H; intros k meas; simpl; [reflexivity|].
  destruct (R_alike H) as [_ [_ [E _]]]. rewrite <- E.
  destruct (if is_meas x then py_set meas (Z.of_nat k) true else Ok meas); simpl; auto.
Qed.

Lemma append_rel : forall f f' m m', Forall2 mrel f f' -> mrel m m' -> Forall2 mrel (append_moment f m) (append_moment f' m').
Proof.
  intros f f' m m' H Hm. unfold append_moment. apply Forall2_rev' in H.
  destruct H as [|p p' b b' Hp Hb]; [constructor; [exact Hm | constructor]|].
  apply Forall2_app; [apply Forall2_rev'; exact Hb|].
  destruct Hp as [P1 [P2 [P3 P4]]]. destruct Hm as [M1 [M2 [M3 M4]]].
  constructor; [|constructor; [|constructor]]; unfold mrel; simpl; repeat split; congruence || assumption.
Qed.

Lemma populate_rel : forall f f' m m', frel f f' -> mrel m m' ->
  res_rel (fun a a' => frel (fst a) (fst a') /\ snd a = snd a') (populate_opflow f m) (populate_opflow f' m').
Proof.
  intros f f' m m' [Hm Hl] Hmm. unfold populate_opflow. pose proof (Forall2_rev' Hl) as Hr.
  destruct Hmm as [M1 [M2 [M3 M4]]].
  destruct Hr as [|p p' b b' Hp Hb].
  - rewrite (detect_rel 0 (repeat false (length (m_list m))) M4).
    assert (El : length (m_list m) = length (m_list m')) by (clear - M4; induction M4; simpl; auto).
    rewrite El. destruct (detect_measurement 0 (m_list m') _); simpl; constructor. simpl.
    split; [|reflexivity]. split; [reflexivity|]. simpl. constructor; [|constructor]. repeat split; auto.
  - rewrite <- Hm. destruct (forallb _ (f_meas f)); [constructor; simpl; split; [split; auto | reflexivity]|].
    assert (Hp' := Hp). destruct Hp as [P1 [P2 [P3 P4]]].
    eapply (rr_bind (P := fun a a' => match a, a' with Some l, Some l' => Forall2 mrel l l' | None, None => True | _, _ => False end)).
    + pose proof (find_rel M4) as F.
      destruct (find (@is_hxz S) (m_list m)) as [g|]; destruct (find (@is_hxz S) (m_list m')) as [g'|]; try contradiction;
        [|constructor; exact I].
      destruct (R_alike F) as [_ [_ [_ [Eq _]]]]. rewrite <- Eq, <- (igates_rel P4).
      destruct (zmem _ _); [|constructor; exact I].
      eapply rr_bind; [apply (replace_rel (qreg_of g) P4 F)|].
      intros [l b0] [l' b0'] [X1 X2]. simpl in X1, X2. subst b0'. constructor. destruct b0; [|exact I].
      apply Forall2_app; [apply Forall2_rev'; exact Hb|]. constructor; [|constructor].
      unfold mrel, set_list; simpl. auto.
    + intros [l|] [l'|] X; try contradiction.
      * constructor. simpl. split; [split; auto | reflexivity].
      * rewrite (detect_rel 0 (f_meas f) M4). destruct (detect_measurement 0 (m_list m') (f_meas f)); simpl; constructor.
        simpl. split; [|reflexivity]. split; [reflexivity|]. simpl. apply append_rel; [exact Hl|]. repeat split; auto.
Qed.

Lemma crel_flow : forall c c', crel c c' -> frel (c_flow c) (c_flow c').
Proof. intros c c' H. split; [apply (cr_meas H) | apply (cr_list H)]. Qed.

Lemma crel_set : forall c c' f f', crel c c' -> frel f f' -> crel (set_flow c f) (set_flow c' f').
Proof. intros c c' f f' H [H1 H2]. destruct H. constructor; simpl; auto. Qed.

(** The operations of a new layer are related when the gates are and the
    register arguments have the same extent. *)
Definition same_extent (q q' : regs) : Prop :=
  match q, q' with
  | RInt a, RInt b => a = b
  | RList l, RList l' => py_min l = py_min l' /\ py_max l = py_max l'
  | _, _ => False
  end.

Lemma same_extent_refl : forall q, same_extent q q.
Proof. intros [z|l]; simpl; auto. Qed.

Lemma py_set_rel : forall l l' i g g', Forall2 R l l' -> R g g' ->
  res_rel (Forall2 R) (py_set l i g) (py_set l' i g').
Proof.
  intros l l' i g g' H Hg. unfold py_set.
  assert (E : length l = length l') by (clear - H; induction H; simpl; auto). rewrite <- E.
  destruct (py_index (length l) i); constructor. apply upd_rel; auto.
Qed.

Lemma moment_data_rel : forall c c' q q' g g', crel c c' -> same_extent q q' -> R g g' ->
  res_rel (Forall2 R) (moment_data c q g) (moment_data c' q' g').
Proof.
  intros c c' q q' g g' Hc Hq Hg. unfold moment_data. rewrite <- (cr_len Hc), <- (cr_dims Hc).
  eapply (rr_bind (P := eq)).
  - destruct q, q'; try contradiction; [constructor; reflexivity|]. destruct Hq as [-> ->]. apply rr_eq.
  - intros space ? <-.
    eapply (rr_bind (P := fun a a' => Forall2 R (fst a) (fst a') /\ snd a = snd a')).
    + set (xs := zrange 0 (c_len c)). clearbody xs.
      assert (G : forall acc acc', res_rel (fun a a' => Forall2 R (fst a) (fst a') /\ snd a = snd a' :> bool) acc acc' ->
        res_rel (fun a a' => Forall2 R (fst a) (fst a') /\ snd a = snd a' :> bool)
          (fold_left (fun acc reg => '(data, added) <- acc ;;
              if zmem reg space then Ok (if (added : bool) then (data, added) else (data ++ [g], true))
              else d <- py_get (c_dims c) reg ;; let data := data ++ [OI reg d] in
                match q with
                | RInt q0 => if (reg =? q0)%Z then data' <- py_set data reg g ;; Ok (data', added) else Ok (data, added)
                | RList _ => Ok (data, added) end) xs acc)
          (fold_left (fun acc reg => '(data, added) <- acc ;;
              if zmem reg space then Ok (if (added : bool) then (data, added) else (data ++ [g'], true))
              else d <- py_get (c_dims c) reg ;; let data := data ++ [OI reg d] in
                match q' with
                | RInt q0 => if (reg =? q0)%Z then data' <- py_set data reg g' ;; Ok (data', added) else Ok (data, added)
                | RList _ => Ok (data, added) end) xs acc')).
      { induction xs as [|x xs IH]; intros acc acc' H; simpl; [exact H|]. apply IH.
        eapply rr_bind; [exact H|]. intros [d a] [d' a'] [X1 X2]. simpl in X1, X2. subst a'.
        destruct (zmem x space).
        - constructor. destruct a; simpl; [auto|]. split; [|reflexivity].
          apply Forall2_app; [exact X1 | constructor; [exact Hg | constructor]].
        - destruct (py_get (c_dims c) x) as [dd|e]; simpl; [|constructor].
          assert (X3 : Forall2 R (d ++ [OI x dd]) (d' ++ [OI x dd])).
          { apply Forall2_app; [exact X1 | constructor; [apply R_refl | constructor]]. }
          destruct q as [z|l], q' as [z'|l']; try contradiction.
          + simpl in Hq. subst z'. destruct (x =? z)%Z.
            * eapply rr_bind; [apply py_set_rel; eauto|]. intros l l' Hl. constructor. simpl. auto.
            * constructor. simpl. auto.
          + constructor. simpl. auto. }
      apply G. constructor. simpl. split; [constructor | reflexivity].
    + intros [d a] [d' a'] [X _]. constructor. exact X.
Qed.

Definition arel (a a' : circuit * bool) : Prop := crel (fst a) (fst a') /\ snd a = snd a'.

Lemma add_moment_rel : forall c c' q q' g g', crel c c' -> same_extent q q' -> R g g' ->
  res_rel arel (add_moment c q g) (add_moment c' q' g').
Proof.
  intros c c' q q' g g' Hc Hq Hg. unfold add_moment.
  eapply rr_bind; [apply moment_data_rel; eauto|]. intros d d' Hd.
  assert (El : length (f_list (c_flow c)) = length (f_list (c_flow c'))).
  { pose proof (cr_list Hc) as H. clear - H. induction H; simpl; auto. }
  eapply rr_bind; [apply populate_rel; [apply crel_flow; exact Hc|]|].
  - unfold mk_moment, mrel; simpl. auto.
  - intros [f b] [f' b'] [X1 X2]. simpl in X1, X2. subst b'. constructor. split; simpl; [|reflexivity].
    apply crel_set; assumption.
Qed.

(** The same call on related circuits. *)
Lemma api_rel : forall c c' k, crel c c' -> res_rel arel (api c k) (api c' k).
Proof.
  intros c c' k Hc.
  assert (V : forall q dm, validate1 c' q dm = validate1 c q dm).
  { intros q dm. unfold validate1. rewrite (cr_len Hc), (cr_dims Hc). reflexivity. }
  assert (D : forall q dm, dims_or c' q dm = dims_or c q dm).
  { intros q dm. unfold dims_or. rewrite (cr_dims Hc). reflexivity. }
  destruct k; cbn [api].
  - rewrite V, D. eapply rr_bind; [apply rr_eq|]. intros u ? _. eapply rr_bind; [apply rr_eq|]. intros d ? <-.
    apply add_moment_rel; auto using same_extent_refl.
  - rewrite V, D. eapply rr_bind; [apply rr_eq|]. intros u ? _. eapply rr_bind; [apply rr_eq|]. intros d ? <-.
    apply add_moment_rel; auto using same_extent_refl.
  - rewrite V, D. eapply rr_bind; [apply rr_eq|]. intros u ? _. eapply rr_bind; [apply rr_eq|]. intros d ? <-.
    apply add_moment_rel; auto using same_extent_refl.
  - rewrite <- (cr_dims Hc). eapply rr_bind; [apply rr_eq|]. intros u ? <-. eapply rr_bind; [apply rr_eq|]. intros d ? <-.
    apply add_moment_rel; auto using same_extent_refl.
  - rewrite <- (cr_qregs Hc). eapply rr_bind; [apply rr_eq|]. intros g ? <-. destruct g; try constructor.
    eapply rr_bind; [apply add_moment_rel; eauto using same_extent_refl|].
    intros [x b] [x' b'] [X1 _]. constructor. split; [exact X1 | reflexivity].
  - assert (V' : validate c' qreg dims = validate c qreg dims).
    { unfold validate. destruct qreg; [apply V|]. f_equal. clear - V. induction l; simpl; [reflexivity|].
      rewrite V, IHl. reflexivity. }
    rewrite V', D || rewrite V'. rewrite <- (cr_dims Hc).
    eapply rr_bind; [apply rr_eq|]. intros u0 ? _.
    eapply (rr_bind (P := eq)); [destruct qreg; rewrite ?D; apply rr_eq|]. intros ds ? <-.
    apply add_moment_rel; auto using same_extent_refl.
  - constructor.
  - rewrite <- (cr_len Hc).
    assert (El : length (f_list (c_flow c)) = length (f_list (c_flow c'))).
    { pose proof (cr_list Hc) as H. clear - H. induction H; simpl; auto. }
    eapply rr_bind; [apply populate_rel; [apply crel_flow; exact Hc|]|].
    + unfold mk_moment, mrel; simpl. repeat split; auto. apply Forall2_refl'; auto.
    + intros [f b] [f' b'] [X1 _]. constructor. split; [apply crel_set; assumption | reflexivity].
Qed.

Lemma script_rel : forall ks c c', crel c c' -> res_rel crel (script c ks) (script c' ks).
Proof.
  intros ks; induction ks as [|k ks IH]; intros c c' H; simpl; [constructor; exact H|].
  eapply rr_bind; [apply api_rel; exact H|]. intros [x b] [x' b'] [X _]. apply IH; exact X.
Qed.

(** Two calls that create related gates. *)
Definition call_rel (k k' : call) : Prop :=
  forall c c', crel c c' -> res_rel arel (api c k) (api c' k').

Lemma script_calls_rel : forall ks ks', Forall2 call_rel ks ks' ->
  forall c c', crel c c' -> res_rel crel (script c ks) (script c' ks').
Proof.
  intros ks ks' H; induction H; intros c c' Hc; simpl; [constructor; exact Hc|].
  eapply rr_bind; [apply H; exact Hc|]. intros [a b] [a' b'] [X _]. apply IHForall2; exact X.
Qed.

Lemma step_rel : forall k k' c c', call_rel k k' -> crel c c' -> crel (step c k) (step c' k').
Proof.
  intros k k' c c' Hk H. unfold step. destruct (Hk c c' H) as [[x b] [x' b'] [X _]|e]; assumption.
Qed.

Lemma after_rel : forall ks ks', Forall2 call_rel ks ks' ->
  forall c c', crel c c' -> crel (after c ks) (after c' ks').
Proof.
  intros ks ks' H; induction H as [|k k' ks ks' Hk H IH]; intros c c' Hc; [exact Hc|].
  unfold after; simpl. apply IH. apply step_rel; assumption.
Qed.

Lemma mrel_refl : forall m, mrel m m.
Proof. intros m. repeat split. apply Forall2_refl'; exact R_refl. Qed.
Lemma crel_refl : forall c, crel c c.
Proof. intros c. constructor; try reflexivity. apply Forall2_refl'; exact mrel_refl. Qed.
Lemma call_rel_refl : forall k, call_rel k k.
Proof. intros k c c' H. apply api_rel; exact H. Qed.

(** ** Same matrices, same results *)
Section Same.
Variable B : backend S.
Hypothesis R_same : forall o o', R o o' -> unitary B o = unitary B o'.

Lemma moment_exec_same : forall l l', Forall2 R l l' -> moment_exec B l = moment_exec B l'.
Proof.
  intros l l' H. destruct H as [|g g' l l' Hg H]; [reflexivity|]. unfold moment_exec. rewrite (R_same Hg).
  destruct (unitary B g') as [u|e]; [|reflexivity]. cbn [bind].
  generalize (Ok u : res B) as acc. induction H as [|x y l l' Hxy H IH]; intros acc; [reflexivity|].
  simpl. rewrite (R_same Hxy). apply IH.
Qed.

Lemma run_same : forall c c', crel c c' -> run B c = run B c'.
Proof.
  intros c c' Hc. unfold run. rewrite <- (cr_out Hc).
  assert (E : flow_exec B (c_flow c) = flow_exec B (c_flow c')).
  { unfold flow_exec. rewrite <- (cr_meas Hc). destruct (forallb _ _); [|reflexivity].
    pose proof (Forall2_rev' (cr_list Hc)) as H. destruct H as [|m m' l l' _ H]; [reflexivity|].
    generalize (Ok None : res (option B)) as acc. induction H as [|x y l l' Hxy H IH]; intros acc; [reflexivity|].
    simpl. rewrite (moment_exec_same (proj2 (proj2 (proj2 Hxy)))). apply IH. }
  rewrite E. reflexivity.
Qed.
End Same.

(** ** One exception in place of some results *)
Section Bad.
Variable B : backend S.
Variable e : exn.
Hypothesis R_bad : forall o o', R o o' -> unitary B o = unitary B o' \/ unitary B o = Err e.

(** [r] is [r'] or the exception [e]. *)
Definition or_err {A} (r r' : res A) : Prop := r = r' \/ r = Err e.

Lemma or_err_fold : forall A X (P : X -> X -> Prop) (f f' : A -> X -> res A) l l',
  Forall2 P l l' -> (forall a x x', P x x' -> or_err (f a x) (f' a x')) ->
  forall acc acc', or_err acc acc' ->
  or_err (fold_left (fun acc x => a <- acc ;; f a x) l acc) (fold_left (fun acc x => a <- acc ;; f' a x) l' acc').
Proof.
  intros A X P f f' l l' H Hf; induction H as [|x x' l l' Hx H IH]; intros acc acc' Ha; simpl; [exact Ha|].
  apply IH. destruct Ha as [->| ->]; [|right; reflexivity].
  destruct acc' as [a|e']; [|left; reflexivity]. simpl. apply Hf; exact Hx.
Qed.

Lemma moment_exec_or : forall l l', Forall2 R l l' -> or_err (moment_exec B l) (moment_exec B l').
Proof.
  intros l l' H. destruct H as [|g g' l l' Hg H]; [left; reflexivity|]. unfold moment_exec.
  assert (U : or_err (unitary B g) (unitary B g')) by (destruct (R_bad Hg); [left | right]; assumption).
  assert (G : forall u, or_err (fold_left (fun acc h => a <- acc ;; b <- unitary B h ;; Ok (b_kron a b)) l (Ok u))
                               (fold_left (fun acc h => a <- acc ;; b <- unitary B h ;; Ok (b_kron a b)) l' (Ok u))).
  { intros u.
    apply (@or_err_fold _ _ R (fun a h => b <- unitary B h ;; Ok (b_kron a b)) (fun a h => b <- unitary B h ;; Ok (b_kron a b)) _ _ H);
      [|left; reflexivity].
    intros a x x' Hx. destruct (R_bad Hx) as [->| ->]; [left; reflexivity | right; reflexivity]. }
  destruct U as [->| ->]; [|right; reflexivity]. destruct (unitary B g') as [u|e']; [|left; reflexivity]. apply G.
Qed.

Lemma run_or : forall c c', crel c c' -> or_err (run B c) (run B c').
Proof.
  intros c c' Hc. unfold run. rewrite <- (cr_out Hc).
  assert (E : or_err (flow_exec B (c_flow c)) (flow_exec B (c_flow c'))).
  { unfold flow_exec. rewrite <- (cr_meas Hc). destruct (forallb _ _); [|left; reflexivity].
    pose proof (Forall2_rev' (cr_list Hc)) as H. destruct H as [|m m' l l' _ H]; [left; reflexivity|].
    apply (@or_err_fold _ _ mrel
      (fun a m => k <- moment_exec B (m_list m) ;; match a with None => Ok (Some k) | Some d => p <- b_dot d k ;; Ok (Some p) end)
      (fun a m => k <- moment_exec B (m_list m) ;; match a with None => Ok (Some k) | Some d => p <- b_dot d k ;; Ok (Some p) end)
      _ _ H); [|left; reflexivity].
    intros a x x' Hx. destruct (moment_exec_or (proj2 (proj2 (proj2 Hx)))) as [->| ->]; [left; reflexivity | right; reflexivity]. }
  destruct E as [->| ->]; [left; reflexivity | right; reflexivity].
Qed.
End Bad.
End Relate.
