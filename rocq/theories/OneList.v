(** * OneList: gate() with a list of one register. *)
From Verif Require Import Py Scalar Mat Utils Gates Circuit HistSpec Flow Relate History Lib ExLib.
Set Implicit Arguments.

Section OneList.
Variable S : scalar.
Notation op := (op S).
Notation circuit := (circuit S).

Lemma layer_one : forall dims q (g : op) k, layer_list dims q q g k = layer_int dims q g k.
Proof.
  intros dims q g k. induction k as [|k IH]; [reflexivity|]. rewrite layer_list_S, layer_int_S, IH. f_equal.
  destruct (Z.eqb_spec (Z.of_nat k) q) as [E|E].
  - rewrite (proj2 (Z.leb_le q _)), (proj2 (Z.leb_le _ q)) by lia. cbn [andb].
    rewrite (proj2 (Z.eqb_eq _ _)) by lia. reflexivity.
  - replace ((q <=? Z.of_nat k) && (Z.of_nat k <=? q))%Z with false; [reflexivity|].
    symmetry. apply andb_false_iff. rewrite !Z.leb_gt. lia.
Qed.

Lemma data_one : forall (c : circuit) q g, len_ok c -> moment_data c (RList [q]) g = moment_data c (RInt q) g.
Proof.
  intros c q g Hc. rewrite (moment_data_int q g Hc), (@moment_data_list S c [q] g q q Hc eq_refl eq_refl), layer_one. reflexivity.
Qed.

Variables (q : qregs) (init : option (list Z)) (out : option output) (ks : list (call S)) (c : circuit).
Hypothesis H : history q init out ks c.

Let Hlen : len_ok c.
Proof. destruct (history_inv H) as [l0 [ls I]]. exact (i_len I). Qed.

Section Gate.
Variables (u : mat S) (r : Z) (dm : option Z).
Let R (o o' : op) : Prop := o = o' \/
  exists d, o = OArb (RList [r]) d u /\
    (o' = OArb (RInt r) d u \/ exists z, d = RList [z] /\ o' = OArb (RInt r) (RInt z) u).

Let Rr : forall o, R o o.
Proof. left. reflexivity. Qed.
Let Ra : forall o o', R o o' -> alike o o'.
Proof.
  intros o o' [->|[d [-> [->|[z [_ ->]]]]]]; [apply alike_refl | |]; unfold alike; simpl; repeat split; constructor; reflexivity.
Qed.

Lemma api_one : res_rel (arel R) (api c (CGate u (RList [r]) dm)) (api c (CGate u (RInt r) dm)).
Proof.
  assert (A : forall g g', R g g' -> res_rel (arel R) (add_moment c (RList [r]) g) (add_moment c (RInt r) g')).
  { intros g g' Hg. replace (add_moment c (RList [r]) g) with (add_moment c (RInt r) g)
      by (unfold add_moment; rewrite (data_one r g Hlen); reflexivity).
    apply add_moment_rel; auto; [apply crel_refl; exact Rr | reflexivity]. }
  cbn [api validate mapM]. destruct (validate1 c r dm); [|constructor]. cbn [bind]. unfold dims_or.
  assert (K : res_rel (arel R) (ds <- (r0 <- (b <- py_get (c_dims c) r;; bs <- Ok [];; Ok (b :: bs));; Ok (RList r0));; add_moment c (RList [r]) (OArb (RList [r]) ds u))
    (ds <- (d <- py_get (c_dims c) r;; Ok (RInt d));; add_moment c (RInt r) (OArb (RInt r) ds u))).
  { destruct (py_get (c_dims c) r) as [z|e]; [|constructor]. cbn [bind]. apply A. right. eexists. split; [reflexivity|]. right. exists z. auto. }
  destruct dm as [d|]; [|exact K]. destruct (d =? 0)%Z; [exact K|]. cbn [bind]. apply A. right. eexists. split; [reflexivity|]. left. reflexivity.
Qed.

Lemma one_flag : flag (api c (CGate u (RList [r]) dm)) = flag (api c (CGate u (RInt r) dm)).
Proof. destruct api_one as [[a b] [a' b'] [_ E]|e]; simpl in *; congruence. Qed.

Lemma one_run : forall ks' (B : backend S),
  run B (after c (CGate u (RList [r]) dm :: ks')) = run B (after c (CGate u (RInt r) dm :: ks')).
Proof.
  intros ks' B. apply (@run_same S R B).
  - intros o o' [->|[d [-> [->|[z [-> ->]]]]]]; reflexivity.
  - change (crel R (after (step c (CGate u (RList [r]) dm)) ks') (after (step c (CGate u (RInt r) dm)) ks')).
    apply after_rel; auto.
    + clear - Rr Ra. induction ks' as [|k ks' IH]; constructor; [apply call_rel_refl; assumption | exact IH].
    + unfold step. destruct api_one as [[a b] [a' b'] [E _]|e]; [exact E | apply crel_refl; exact Rr].
Qed.
End Gate.

Lemma none_raises : forall u dm, api c (CGate u (RList []) dm) = Err ValueError.
Proof.
  intros u dm. cbn [api validate mapM bind]. destruct dm as [d|]; [destruct (d =? 0)%Z|]; reflexivity.
Qed.
End OneList.
