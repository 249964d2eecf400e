(** * ScalarMap: the bookkeeping of a circuit does not depend on the numbers.
    A function between two scalar structures that keeps 0 and 1 carries every
    call over from one to the other. *)
From Verif Require Import Py Scalar Mat Utils Gates Circuit Lib.
Set Implicit Arguments.

Definition rmap {A B} (f : A -> B) (r : res A) : res B := match r with Ok a => Ok (f a) | Err e => Err e end.

Lemma bind_rmap : forall A A' B B' (f : A -> A') (g : B -> B') (r : res A) (h : A -> res B) (h' : A' -> res B'),
  (forall a, h' (f a) = rmap g (h a)) -> bind (rmap f r) h' = rmap g (bind r h).
Proof. intros A A' B B' f g [a|e] h h' H; simpl; auto. Qed.

Lemma bind_rmap_eq : forall A B B' (g : B -> B') (r : res A) (h : A -> res B) (h' : A -> res B'),
  (forall a, h' a = rmap g (h a)) -> bind r h' = rmap g (bind r h).
Proof. intros A B B' g [a|e] h h' H; simpl; auto. Qed.

Lemma mapM_rmap : forall A B B' (g : B -> B') (f : A -> res B) (f' : A -> res B') l,
  (forall a, f' a = rmap g (f a)) -> mapM f' l = rmap (map g) (mapM f l).
Proof.
  intros A B B' g f f' l H; induction l as [|x l IH]; simpl; [reflexivity|].
  rewrite H. destruct (f x); simpl; [|reflexivity]. rewrite IH. destruct (mapM f l); reflexivity.
Qed.

Lemma py_set_map : forall A B (f : A -> B) l i x, py_set (map f l) i (f x) = rmap (map f) (py_set l i x).
Proof.
  intros A B f l i x. unfold py_set. rewrite map_length. destruct (py_index (length l) i) as [k|]; simpl; [|reflexivity].
  f_equal. revert k. induction l as [|y l IH]; intros [|k]; simpl; auto. f_equal. apply IH.
Qed.

Lemma upd_map : forall A B (f : A -> B) l k x, upd (map f l) k (f x) = map f (upd l k x).
Proof. intros A B f l; induction l as [|y l IH]; intros [|k] x; simpl; auto. f_equal. apply IH. Qed.

Section ScalarMap.
Variables F G : scalar.
Variable v : F -> G.
Hypothesis v0 : v s0 = s0.
Hypothesis v1 : v s1 = s1.

(** What becomes of a matrix given by the user. *)
Variable um : mat F -> mat G.

Definition mmap (a : mat F) : mat G := {| mr := mr a; mc := mc a; md := map (map v) (md a) |}.

Lemma mmap_mkmat : forall r c f, mmap (mkmat r c f) = mkmat r c (fun i j => v (f i j)).
Proof.
  intros r c f. unfold mmap, mkmat. cbn [mr mc md]. f_equal. rewrite map_map. apply map_ext. intros i. apply map_map.
Qed.

Lemma mget_mmap : forall a i j, mget (mmap a) i j = v (mget a i j).
Proof.
  intros a i j. unfold mget, mmap. cbn [md]. change (@nil G) with (map v []). rewrite map_nth, <- v0, map_nth. reflexivity.
Qed.

Definition omap (o : op F) : op G :=
  match o with
  | OInit d s q m => OInit d s q (mmap m)
  | OI q d => OI q d
  | OH q d => OH q d
  | OX q d p => OX q d p
  | OZ q d => OZ q d
  | OCX q a p => OCX q a p
  | OTof c g p d a u => OTof c g p d a (mmap u)
  | OArb q d u => OArb q d (um u)
  | OMeas q => OMeas q
  end.

Definition momap (m : moment F) : moment G :=
  {| m_name := m_name m; m_prev := m_prev m; m_next := m_next m;
     m_operations := map omap (m_operations m); m_list := map omap (m_list m) |}.
Definition fmap (f : opflow F) : opflow G := {| f_list := map momap (f_list f); f_meas := f_meas f |}.
Definition cmap (c : circuit F) : circuit G :=
  {| c_qregs := c_qregs c; c_init := c_init c; c_len := c_len c; c_dims := c_dims c; c_out := c_out c; c_flow := fmap (c_flow c) |}.
Definition kmap (k : call F) : call G :=
  match k with
  | CH q d => CH q d
  | CX q d p => CX q d p
  | CZ q d => CZ q d
  | CCX a p => CCX a p
  | CTof c g p => CTof c g p
  | CGate u q d => CGate (um u) q d
  | CMeasure q => CMeasure q
  | CMeasureAll => CMeasureAll
  end.

Lemma map_mk_moment : forall n l, mk_moment n (map omap l) = momap (mk_moment n l).
Proof. reflexivity. Qed.

Lemma is_igate_omap : forall o, is_igate (omap o) = is_igate o.
Proof. intros []; reflexivity. Qed.
Lemma is_hxz_omap : forall o, is_hxz (omap o) = is_hxz o.
Proof. intros []; reflexivity. Qed.
Lemma is_meas_omap : forall o, is_meas (omap o) = is_meas o.
Proof. intros []; reflexivity. Qed.
Lemma qreg_omap : forall o, qreg_of (omap o) = qreg_of o.
Proof. intros []; reflexivity. Qed.
Lemma acting_omap : forall o, acting_members (omap o) = acting_members o.
Proof. intros []; reflexivity. Qed.

Lemma get_qreg_map : forall l q k,
  get_qreg_moment_from k (map omap l) q = rmap (option_map (fun '(g, i) => (omap g, i))) (get_qreg_moment_from k l q).
Proof.
  induction l as [|g l IH]; intros q k; simpl; [reflexivity|]. rewrite acting_omap.
  destruct (acting_members g); simpl; [|reflexivity]. destruct (zmem q a); [reflexivity|]. apply IH.
Qed.

Lemma replace_map : forall l g q, replace_igate (map omap l) (omap g) q = rmap (fun '(l', b) => (map omap l', b)) (replace_igate l g q).
Proof.
  intros l g q. unfold replace_igate. rewrite get_qreg_map. apply bind_rmap. intros [[h i]|]; simpl; [|reflexivity].
  rewrite is_igate_omap. destruct (is_igate h); simpl; [|reflexivity]. rewrite upd_map. reflexivity.
Qed.

Lemma detect_map : forall l k meas, detect_measurement k (map omap l) meas = detect_measurement k l meas.
Proof.
  induction l as [|g l IH]; intros k meas; simpl; [reflexivity|]. rewrite is_meas_omap.
  destruct (is_meas g); simpl; [|apply IH]. destruct (py_set meas (Z.of_nat k) true); simpl; [apply IH | reflexivity].
Qed.

Lemma find_map : forall l, find (@is_hxz G) (map omap l) = option_map omap (find (@is_hxz F) l).
Proof. induction l as [|g l IH]; simpl; [reflexivity|]. rewrite is_hxz_omap. destruct (is_hxz g); [reflexivity | exact IH]. Qed.

Lemma igates_map : forall l, map (@qreg_of G) (filter (@is_igate G) (map omap l)) = map (@qreg_of F) (filter (@is_igate F) l).
Proof.
  induction l as [|g l IH]; simpl; [reflexivity|]. rewrite is_igate_omap. destruct (is_igate g); simpl; [|exact IH].
  rewrite qreg_omap, IH. reflexivity.
Qed.

Lemma append_map : forall fl m, append_moment (map momap fl) (momap m) = map momap (append_moment fl m).
Proof.
  intros fl m. unfold append_moment. rewrite <- map_rev. destruct (rev fl) as [|p before]; simpl; [reflexivity|].
  rewrite <- map_rev, map_app. reflexivity.
Qed.

Lemma populate_map : forall f m, populate_opflow (fmap f) (momap m) = rmap (fun '(f', b) => (fmap f', b)) (populate_opflow f m).
Proof.
  intros f m. unfold populate_opflow. cbn [fmap f_list f_meas]. rewrite <- map_rev.
  destruct (rev (f_list f)) as [|last before]; cbn [map].
  - cbn [momap m_list]. rewrite map_length, detect_map. apply bind_rmap_eq. intros a. reflexivity.
  - destruct (forallb (fun b => b) (f_meas f)); [reflexivity|].
    cbn [momap m_list]. rewrite find_map, igates_map.
    match goal with |- bind ?a ?h' = rmap ?g (bind ?b ?h) =>
      assert (E : a = rmap (option_map (map momap)) b) end.
    { destruct (find (@is_hxz F) (m_list m)) as [g|]; cbn [option_map]; [|reflexivity].
      rewrite qreg_omap. destruct (zmem _ _); [|reflexivity].
      rewrite replace_map. apply bind_rmap. intros [l' b]. destruct b; [|reflexivity].
      cbn [rmap option_map]. rewrite map_app, map_rev. reflexivity. }
    rewrite E. apply bind_rmap. intros [fl|]; cbn [option_map].
    + reflexivity.
    + rewrite detect_map. apply bind_rmap_eq. intros a. cbn [rmap]. unfold fmap. cbn [f_list f_meas]. rewrite <- append_map. reflexivity.
Qed.

Lemma moment_data_map : forall c q g, moment_data (cmap c) q (omap g) = rmap (map omap) (moment_data c q g).
Proof.
  intros c q g. unfold moment_data. cbn [cmap c_len c_dims].
  destruct (match q with RInt _ => Ok [] | RList l => lb <- py_min l;; ub <- py_max l;; Ok (zrange lb (ub + 1)) end) as [space|e]; [|reflexivity].
  cbn [bind].
  match goal with |- bind (fold_left ?f' ?l ?a') ?h' = rmap ?g (bind (fold_left ?f ?l ?a) ?h) =>
    assert (E : forall x, fold_left f' l (rmap (fun '(d, b) => (map omap d, b)) x) = rmap (fun '(d, b) => (map omap d, b)) (fold_left f l x)) end.
  { induction (zrange 0 (c_len c)) as [|r l IH]; intros x; cbn [fold_left]; [reflexivity|].
    rewrite <- IH. f_equal. apply bind_rmap. intros [d b].
    destruct (zmem r space).
    - destruct b; cbn [rmap]; [reflexivity|]. rewrite map_app. reflexivity.
    - apply bind_rmap_eq. intros d'.
      replace (map omap d ++ [OI r d']) with (map omap (d ++ [OI r d'])) by (rewrite map_app; reflexivity).
      destruct q as [q|q]; [|reflexivity]. destruct (r =? q)%Z; [|reflexivity].
      rewrite py_set_map. apply bind_rmap. intros a. reflexivity. }
  specialize (E (Ok ([], false))). cbn [rmap map] in E. rewrite E. apply bind_rmap. intros [d b]. reflexivity.
Qed.

Lemma add_moment_map : forall c q g, add_moment (cmap c) q (omap g) = rmap (fun '(c', b) => (cmap c', b)) (add_moment c q g).
Proof.
  intros c q g. unfold add_moment. rewrite moment_data_map. apply bind_rmap. intros data.
  cbn [cmap c_flow fmap f_list]. rewrite map_length, map_mk_moment.
  change (fmap (c_flow c)) with (fmap (c_flow c)). rewrite populate_map. apply bind_rmap. intros [f b]. reflexivity.
Qed.

Lemma toffoli_dm_map : forall cs t p dims, toffoli_dm G cs t p dims = rmap (fun '(u, lb, ub) => (mmap u, lb, ub)) (toffoli_dm F cs t p dims).
Proof.
  intros cs t p dims. unfold toffoli_dm. do 5 (apply bind_rmap_eq; intros ?).
  cbn [rmap]. do 3 f_equal. unfold dtrans. rewrite mmap_mkmat. cbn [mkmat mr mc]. unfold mkmat at 1 3. f_equal.
  apply map_ext_in. intros i Hi. apply map_ext_in. intros j Hj. apply in_seq in Hi. apply in_seq in Hj.
  rewrite !mget_mkmat by lia. destruct (_ =? _); congruence.
Qed.

Lemma mk_toffoli_map : forall cs t p dims, mk_toffoli G cs t p dims = rmap omap (mk_toffoli F cs t p dims).
Proof.
  intros cs t p dims. unfold mk_toffoli. rewrite toffoli_dm_map. apply bind_rmap. intros [[u lb] ub].
  apply bind_rmap_eq. intros ds. reflexivity.
Qed.

Theorem api_map : forall c k, api (cmap c) (kmap k) = rmap (fun '(c', b) => (cmap c', b)) (api c k).
Proof.
  intros c k. destruct k; cbn [api kmap].
  - apply bind_rmap_eq. intros _. apply bind_rmap_eq. intros d. exact (add_moment_map c _ (OH qreg d)).
  - apply bind_rmap_eq. intros _. apply bind_rmap_eq. intros d. exact (add_moment_map c _ (OX qreg d plus)).
  - apply bind_rmap_eq. intros _. apply bind_rmap_eq. intros d. exact (add_moment_map c _ (OZ qreg d)).
  - do 2 (apply bind_rmap_eq; intros ?). exact (add_moment_map c _ (OCX _ acting_on plus)).
  - cbn [cmap c_qregs]. rewrite mk_toffoli_map. apply bind_rmap. intros g. destruct g; cbn [omap]; try reflexivity.
    pose proof (add_moment_map c (RList acting_on) (OTof controls0 target0 plus0 dims acting_on u)) as E. cbn [omap] in E. rewrite E.
    apply bind_rmap.
    intros [c' b]. reflexivity.
  - apply bind_rmap_eq. intros _. apply bind_rmap_eq. intros ds. exact (add_moment_map c qreg (OArb qreg ds u)).
  - reflexivity.
  - cbn [cmap c_len c_flow fmap f_list]. rewrite map_length.
    replace (map (fun i => OMeas i) (zrange 0 (c_len c))) with (map omap (map (fun i => OMeas i) (zrange 0 (c_len c)))) by apply map_map.
    rewrite map_mk_moment. rewrite (populate_map (c_flow c)). apply bind_rmap. intros [f b]. reflexivity.
Qed.

Theorem script_map : forall ks c, script (cmap c) (map kmap ks) = rmap cmap (script c ks).
Proof.
  induction ks as [|k ks IH]; intros c; simpl; [reflexivity|]. rewrite api_map. apply bind_rmap. intros [c' b]. apply IH.
Qed.

Lemma init_state_map : forall d e q, init_state G d e q = rmap omap (init_state F d e q).
Proof.
  intros d e q. unfold init_state. destruct (_ || _)%bool; [reflexivity|]. destruct (py_index (Z.to_nat d) e); [|reflexivity].
  cbn [rmap omap]. rewrite mmap_mkmat. do 2 f_equal. unfold mkmat. f_equal. apply map_ext. intros i. apply map_ext.
  intros j. destruct (_ =? _); congruence.
Qed.

Theorem mk_circuit_map : forall q init out, mk_circuit G q init out = rmap cmap (mk_circuit F q init out).
Proof.
  intros q init out. unfold mk_circuit. apply bind_rmap_eq. intros [len dims].
  unfold initialize_states.
  rewrite (@mapM_rmap _ _ _ omap (fun '(i, e) => d <- py_get dims (Z.of_nat i);; init_state F d e (Z.of_nat i))).
  2: { intros [i e]. apply bind_rmap_eq. intros d. apply init_state_map. }
  destruct (mapM _ _) as [gs|e]; cbn [bind rmap]; [|reflexivity].
  change (opflow0 G) with (fmap (opflow0 F)). rewrite map_mk_moment, populate_map.
  destruct (populate_opflow (opflow0 F) (mk_moment 0 gs)) as [[f b]|e]; reflexivity.
Qed.

End ScalarMap.
