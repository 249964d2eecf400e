(** * Repeat: runs leave no trace on the circuit. *)
From Verif Require Import Py Scalar Mat Utils Gates Circuit Session Spec HistSpec Lib Outcome.
Set Implicit Arguments.

Section Repeat.
Variable S : scalar.
Notation moment := (moment S).
Notation circuit := (circuit S).
Notation session := (session S).
Notation action := (action S).

Definition sound (s : session) : Prop := s_ref s < length (s_heap s).

Lemma load_new : forall c : circuit, load (session_of c) = c.
Proof. intros [q i l d o [fl fm]]. reflexivity. Qed.

Lemma set_flow_same : forall c : circuit, set_flow c (c_flow c) = c.
Proof. intros [q i l d o f]. reflexivity. Qed.

Lemma do_call_ok : forall (s : session) k s' r, sound s -> do_call s k = (s', r) ->
  sound s' /\ load s' = step (load s) k /\ r = (match api (load s) k with Ok (_, b) => Ok b | Err e => Err e end).
Proof.
  intros s k s' r Hs H. unfold do_call in H. unfold step. destruct (api (load s) k) as [[c' b]|e].
  - injection H as <- <-. unfold sound, load in *. cbn [s_heap s_ref s_circ] in *. rewrite upd_length. split; [exact Hs|]. split; [|reflexivity].
    rewrite nth_upd, Nat.eqb_refl, (proj2 (Nat.ltb_lt _ _) Hs). destruct c' as [q i l d o [fl fm]]. reflexivity.
  - injection H as <- <-. auto.
Qed.

Lemma do_run_ok : forall B (s : session) s' r, sound s -> do_run B s = (s', r) ->
  sound s' /\ load s' = load s /\ r = run B (load s).
Proof.
  intros B s s' r Hs H. unfold do_run, do_exec in H. unfold sound in *.
  assert (Hc : nth (length (s_heap s)) (s_heap s ++ [nth (s_ref s) (s_heap s) []]) [] = nth (s_ref s) (s_heap s) []).
  { rewrite app_nth2 by lia. rewrite Nat.sub_diag. reflexivity. }
  assert (Hr : nth (s_ref s) (s_heap s ++ [nth (s_ref s) (s_heap s) []]) [] = nth (s_ref s) (s_heap s) []) by (apply app_nth1; exact Hs).
  unfold run, flow_exec, load. cbn [c_flow set_flow f_meas f_list c_out s_heap s_ref s_circ].
  destruct (forallb (fun b => b) (f_meas (c_flow (s_circ s)))) eqn:Em.
  - rewrite Hc in H. destruct (nth (s_ref s) (s_heap s) []) as [|m0 ms] eqn:El.
    + injection H as <- <-. cbn [s_heap s_ref s_circ rev]. rewrite app_length. rewrite Hr. split; [lia|]. auto.
    + rewrite <- El in *. rewrite nth_upd, Nat.eqb_refl in H. rewrite (proj2 (Nat.ltb_lt _ _)) in H by (rewrite app_length; simpl; lia). cbn [andb] in H.
      injection H as <- <-. cbn [s_heap s_ref s_circ]. rewrite upd_length, app_length. split; [lia|].
      rewrite nth_upd, (proj2 (Nat.eqb_neq _ _)) by lia. cbn [andb]. rewrite Hr. split; [reflexivity|].
      assert (E : exists l x, nth (s_ref s) (s_heap s) [] = l ++ [x]).
      { rewrite El. destruct (@exists_last _ (m0 :: ms)) as [l [x ->]]; [discriminate|]. eauto. }
      destruct E as [l [x ->]]. rewrite removelast_last, rev_app_distr. reflexivity.
  - injection H as <- <-. cbn [s_heap s_ref s_circ]. rewrite app_length. rewrite Hr. split; [lia|]. auto.
Qed.

Lemma do_action_ok : forall (s : session) a s' e, sound s -> do_action s a = (s', e) ->
  sound s' /\ load s' = after (load s) (calls_of [a]) /\
  e = match a with
      | ACall k => ECall (match api (load s) k with Ok (_, b) => Ok b | Err x => Err x end)
      | ARun B => ERun (run B (load s))
      end.
Proof.
  intros s [k|B] s' e Hs H; cbn [do_action] in H.
  - destruct (do_call s k) as [s1 r] eqn:E. injection H as <- <-. destruct (do_call_ok _ Hs E) as [H1 [H2 ->]]. auto.
  - destruct (do_run B s) as [s1 r] eqn:E. injection H as <- <-. destruct (do_run_ok _ Hs E) as [H1 [H2 ->]]. auto.
Qed.

Lemma calls_of_app : forall l1 l2 : list action, calls_of (l1 ++ l2) = calls_of l1 ++ calls_of l2.
Proof. intros l1 l2. unfold calls_of. apply flat_map_app. Qed.

Lemma after_app : forall (c : circuit) k1 k2, after c (k1 ++ k2) = after (after c k1) k2.
Proof. intros c k1 k2. unfold after. apply fold_left_app. Qed.

Theorem do_all_ok : forall (l : list action) s s' es, sound s -> do_all s l = (s', es) ->
  sound s' /\ load s' = after (load s) (calls_of l) /\ length es = length l /\
  forall n a, nth_error l n = Some a ->
    nth_error es n = Some (match a with
      | ACall k => ECall (match api (after (load s) (calls_of (firstn n l))) k with Ok (_, b) => Ok b | Err x => Err x end)
      | ARun B => ERun (run B (after (load s) (calls_of (firstn n l))))
      end).
Proof.
  intros l; induction l as [|a l IH]; intros s s' es Hs H; cbn [do_all] in H.
  - injection H as <- <-. repeat split; auto. intros [|n] a H; discriminate.
  - destruct (do_action s a) as [s1 e] eqn:Ea. destruct (do_all s1 l) as [s2 es'] eqn:El. injection H as <- <-.
    destruct (do_action_ok _ Hs Ea) as [H1 [H2 H3]]. destruct (IH _ _ _ H1 El) as [I1 [I2 [I3 I4]]].
    change (a :: l) with ([a] ++ l). split; [exact I1|]. rewrite calls_of_app, after_app, <- H2. split; [exact I2|].
    split; [simpl; lia|]. intros [|n] a' Hn.
    + injection Hn as <-. cbn. rewrite H3. reflexivity.
    + cbn [app nth_error] in *. rewrite (I4 n a' Hn). cbn [firstn]. change (a :: firstn n l) with ([a] ++ firstn n l).
      rewrite calls_of_app, after_app, <- H2. reflexivity.
Qed.

(** The value kept in circuit_output *)
Lemma do_action_output : forall (s : session) a s' e, do_action s a = (s', e) ->
  s_output s' = match e with ERun (Ok r) => Some r | _ => s_output s end.
Proof.
  intros s [k|B] s' e H; cbn [do_action] in H.
  - unfold do_call in H. destruct (api (load s) k) as [[c' b]|x]; injection H as <- <-; reflexivity.
  - unfold do_run in H. destruct (do_exec B _ _ _) as [heap r]. injection H as <- <-.
    destruct (m <- r ;; _); reflexivity.
Qed.

Theorem output_kept : forall (l : list action) s s' es, do_all s l = (s', es) ->
  (forall n r, nth_error es n = Some (ERun (Ok r)) ->
     (forall m r', n < m -> nth_error es m <> Some (ERun (Ok r'))) -> s_output s' = Some r) /\
  ((forall n r, nth_error es n <> Some (ERun (Ok r))) -> s_output s' = s_output s).
Proof.
  intros l; induction l as [|a l IH]; intros s s' es H; cbn [do_all] in H.
  - injection H as <- <-. split; [intros [|n] r X; discriminate | reflexivity].
  - destruct (do_action s a) as [s1 e] eqn:Ea. destruct (do_all s1 l) as [s2 es'] eqn:El. injection H as <- <-.
    destruct (IH _ _ _ El) as [I1 I2]. pose proof (do_action_output _ _ Ea) as Eo. split.
    + intros [|n] r Hn Hlast.
      * injection Hn as ->. rewrite <- Eo. apply I2. intros n r' X. apply (Hlast (Datatypes.S n) r'); [lia | exact X].
      * apply (I1 n r Hn). intros m r' Hm X. apply (Hlast (Datatypes.S m) r'); [lia | exact X].
    + intros Hnone. rewrite I2 by (intros n r X; exact (Hnone (Datatypes.S n) r X)). rewrite Eo.
      destruct e as [x|[r|x]]; try reflexivity. exfalso. exact (Hnone 0 r eq_refl).
Qed.
End Repeat.
