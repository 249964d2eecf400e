(** * Blocks: each valid gate is a block of a layer, and its transition
    amplitude is that of the layer holding only this block. *)
From Verif Require Import Py Scalar Mat Utils Gates Circuit Spec Calls Lib Kern GateMat GateTof Flow Layers.
Set Implicit Arguments.

(** ** Placing a configuration of a segment into the whole line *)
Lemma level_mid : forall (t : config) lo w i, i < w ->
  level (firstn w (skipn lo t)) i = level t (lo + i).
Proof. intros t lo w i Hi. unfold level. rewrite nth_firstn' by exact Hi. apply nth_skipn'. Qed.

Lemma put_mid : forall (t : config) lo w i v, i < w -> lo + w <= length t ->
  put t (lo + i) v = firstn lo t ++ put (firstn w (skipn lo t)) i v ++ skipn (lo + w) t.
Proof.
  intros t lo w i v Hi Hl. rewrite !put_upd. rewrite (split3 lo w t) at 1.
  rewrite upd_app2 by (rewrite firstn_length; lia).
  rewrite firstn_length. replace (lo + i - Nat.min lo (length t)) with i by lia.
  rewrite upd_app1 by (rewrite firstn_length, skipn_length; lia). reflexivity.
Qed.

Lemma top_mid : forall dims (t : config) lo w i, i < w ->
  top (sub dims lo w) (firstn w (skipn lo t)) i = top dims t (lo + i).
Proof. intros. unfold top. rewrite level_mid, sub_nth by assumption. reflexivity. Qed.

Lemma move_x_mid : forall dims t lo w i p, i < w -> lo + w <= length t ->
  move_x dims (lo + i) p t
  = firstn lo t ++ move_x (sub dims lo w) i p (firstn w (skipn lo t)) ++ skipn (lo + w) t.
Proof.
  intros dims t lo w i p Hi Hl. unfold move_x. rewrite (put_mid _ _ _ Hi Hl), level_mid, sub_nth by exact Hi.
  reflexivity.
Qed.

Lemma move_cx_mid : forall dims t lo w c i p, c < w -> i < w -> lo + w <= length t ->
  move_cx dims (lo + c) (lo + i) p t
  = firstn lo t ++ move_cx (sub dims lo w) c i p (firstn w (skipn lo t)) ++ skipn (lo + w) t.
Proof.
  intros dims t lo w c i p Hc Hi Hl. unfold move_cx. rewrite top_mid by exact Hc.
  destruct (top dims t (lo + c)); [apply move_x_mid; assumption | apply split3].
Qed.

Lemma move_tof_mid : forall dims t lo w cs i p, (forall c, In c cs -> lo <= c < lo + w) ->
  lo <= i < lo + w -> lo + w <= length t ->
  move_tof dims cs i p t
  = firstn lo t ++ move_tof (sub dims lo w) (map (fun c => c - lo) cs) (i - lo) p (firstn w (skipn lo t))
    ++ skipn (lo + w) t.
Proof.
  intros dims t lo w cs i p Hc Hi Hl. unfold move_tof.
  assert (E : forallb (top (sub dims lo w) (firstn w (skipn lo t))) (map (fun c => c - lo) cs)
              = forallb (top dims t) cs).
  { clear Hi. induction cs as [|c cs IH]; simpl; [reflexivity|].
    pose proof (Hc c (or_introl eq_refl)) as H. rewrite top_mid by lia.
    replace (lo + (c - lo)) with c by lia. rewrite IH; [reflexivity|]. intros x Hx; apply Hc; right; exact Hx. }
  rewrite E. destruct (forallb (top dims t) cs); [|apply split3].
  replace i with (lo + (i - lo)) at 1 by lia. apply move_x_mid; lia.
Qed.

Section Blocks.
Variable S : scalar.
Hypothesis L : scalar_laws S.
Add Ring Sring : (sl_ring L).
Notation op := (op S).
Notation NB := (NumpyBackend S).
Notation block := (block S).
Notation circuit := (circuit S).
Notation call := (call S).
Infix "*s" := (@smul S) (at level 40, left associativity).

Lemma delta_sym : forall s t, delta S s t = delta S t s.
Proof.
  intros s t. unfold delta. destruct (config_eqb s t) eqn:E.
  - apply config_eqb_eq in E. subst. rewrite config_eqb_refl. reflexivity.
  - apply config_eqb_neq in E. rewrite (proj2 (config_eqb_neq _ _)) by congruence. reflexivity.
Qed.

Lemma K3_delta : forall p w k s t,
  K3 S p w (delta S) k (delta S) s t
  = if config_eqb (firstn p t) (firstn p s) && config_eqb (skipn (p + w) t) (skipn (p + w) s)
    then k (firstn w (skipn p s)) (firstn w (skipn p t)) else s0.
Proof.
  intros p w k s t. unfold K3. rewrite (delta_sym (firstn p s)), (delta_sym (skipn (p + w) s)). unfold delta.
  destruct (config_eqb (firstn p t) (firstn p s)), (config_eqb (skipn (p + w) t) (skipn (p + w) s)); simpl; ring.
Qed.

Lemma app_inj_len : forall A (a b c d : list A), length a = length c -> a ++ b = c ++ d -> a = c /\ b = d.
Proof.
  intros A a; induction a as [|x a IH]; intros b [|y c] d Hl E; simpl in *; try discriminate; [auto|].
  injection E as -> E. destruct (@IH b c d ltac:(lia) E) as [-> ->]. auto.
Qed.

Lemma embed_classical : forall p w f f' s t,
  length s = length t -> p + w <= length t ->
  length (f' (firstn w (skipn p t))) = w ->
  f t = firstn p t ++ f' (firstn w (skipn p t)) ++ skipn (p + w) t ->
  classical S f s t = K3 S p w (delta S) (classical S f') (delta S) s t.
Proof.
  intros p w f f' s t Hl Hp Hf' E. rewrite K3_delta. unfold classical. rewrite E.
  destruct (config_eqb (_ ++ _) s) eqn:E1.
  - apply config_eqb_eq in E1. rewrite <- E1.
    rewrite (@firstn_app_exact nat (firstn p t) _ p) by (rewrite firstn_length; lia).
    rewrite (@skipn_app_exact nat (firstn p t) _ p) by (rewrite firstn_length; lia).
    rewrite (@firstn_app_exact nat _ _ w) by exact Hf'.
    rewrite app_assoc, (@skipn_app_exact nat _ _ (p + w)) by (rewrite app_length, firstn_length; unfold config in *; lia).
    rewrite !config_eqb_refl. reflexivity.
  - apply config_eqb_neq in E1.
    destruct (config_eqb (firstn p t) (firstn p s)) eqn:E2; [|reflexivity].
    destruct (config_eqb (skipn (p + w) t) (skipn (p + w) s)) eqn:E3; [|reflexivity].
    simpl. destruct (config_eqb (f' _) _) eqn:E4; [|reflexivity].
    apply config_eqb_eq in E2, E3, E4. exfalso. apply E1. rewrite E2, E3, E4. symmetry. apply split3.
Qed.

Lemma embed_local : forall r u s t, length s = length t -> r < length t ->
  local S r u s t = K3 S r 1 (delta S) (fun a b => u (level a 0) (level b 0)) (delta S) s t.
Proof.
  intros r u s t Hl Hr. rewrite K3_delta. rewrite !level_mid by lia. rewrite !Nat.add_0_r.
  unfold local.
  replace (put t r (level s r)) with (put t (r + 0) (level s r)) by (rewrite Nat.add_0_r; reflexivity).
  rewrite (@put_mid t r 1 0) by lia.
  assert (Em : put (firstn 1 (skipn r t)) 0 (level s r) = firstn 1 (skipn r s)).
  { unfold level. destruct (skipn r t) as [|x t'] eqn:E.
    - apply (f_equal (@length nat)) in E. rewrite skipn_length in E. simpl in E. lia.
    - destruct (skipn r s) as [|y s'] eqn:E'.
      + apply (f_equal (@length nat)) in E'. rewrite skipn_length in E'. simpl in E'. lia.
      + simpl. f_equal. replace r with (r + 0) by lia. rewrite <- nth_skipn', E'. reflexivity. }
  rewrite Em.
  destruct (config_eqb (firstn r t) (firstn r s) && config_eqb (skipn (r + 1) t) (skipn (r + 1) s)) eqn:E.
  - apply andb_true_iff in E as [E1 E2]. apply config_eqb_eq in E1, E2. rewrite E1, E2, <- split3, config_eqb_refl.
    reflexivity.
  - destruct (config_eqb (_ ++ _) s) eqn:E1; [|reflexivity]. exfalso.
    apply config_eqb_eq in E1. apply not_true_iff_false in E. apply E.
    rewrite (split3 r 1 s) in E1 at 2.
    apply app_inj_len in E1 as [E2 E3]; [|rewrite !firstn_length; lia].
    apply app_inj_len in E3 as [_ E3]; [|reflexivity].
    rewrite E2, E3, !config_eqb_refl. reflexivity.
Qed.

Lemma entries_repr : forall ds (M : mat S) u, holds_entries ds M u -> repr ds ds M u.
Proof.
  intros ds M u [H1 [H2 H3]]. rewrite all_configs_length in H1, H2. constructor; auto.
  intros s t Hs Ht. rewrite H3 by (rewrite ?H1, ?H2; apply lin_lt; assumption).
  fold (unlin ds (lin ds s)) (unlin ds (lin ds t)). rewrite !unlin_lin by assumption. reflexivity.
Qed.

(** A circuit with registers [dims], whatever its operations. *)
Record shaped (dims : list nat) (c : circuit) : Prop := {
  sh_dims : c_dims c = map Z.of_nat dims;
  sh_qregs : c_qregs c = QList (map Z.of_nat dims);
  sh_len : c_len c = Z.of_nat (length dims) }.

Lemma shaped_len_ok : forall dims c, shaped dims c -> len_ok c.
Proof.
  intros dims c [H1 H2 H3]. unfold len_ok. rewrite H3, H1, map_length.
  change 0%Z with (Z.of_nat 0). rewrite zrange_nat, Nat.sub_0_r. reflexivity.
Qed.

(** What one call contributes: a fresh layer offered to the operator flow. *)
Record offers (dims : list nat) (k : call) (g : gate S) (p : nat) (b : block) : Prop := {
  of_ok : blk_ok dims p b;
  of_i : is_igate (bo b) = false;
  of_hxz : is_hxz (bo b) = true -> bw b = 1 /\ qreg_of (bo b) = Z.of_nat p;
  of_amp : forall s t, valid dims s -> valid dims t -> amp dims g s t = lkern (fresh dims p b) s t;
  of_api : forall c, shaped dims c ->
     exists rv : bool -> bool, (rv true = true) /\
     api c k = ('(f, r) <- populate_opflow (c_flow c)
                             (mk_moment (length (f_list (c_flow c))) (map (@bo S) (fresh dims p b))) ;;
                Ok (set_flow c f, rv r)) }.

Lemma validate1_ok : forall dims c r dm, shaped dims c -> r < length dims -> dflt dims r dm ->
  validate1 c (Z.of_nat r) dm = Ok tt.
Proof.
  intros dims c r dm [H1 H2 H3] Hr Hd. unfold validate1. rewrite H3, H1.
  replace (Z.of_nat (length dims) - 1 <? Z.of_nat r)%Z with false by (symmetry; apply Z.ltb_ge; lia).
  destruct Hd as [->|[->| ->]]; try reflexivity.
  destruct (Z.of_nat (nth r dims O) =? 0)%Z; [reflexivity|].
  rewrite (@py_get_nat Z _ _ 0%Z) by (rewrite map_length; exact Hr). cbn [bind].
  rewrite nth_map_Z, Z.ltb_irrefl. reflexivity.
Qed.

Lemma dims_or_ok : forall dims c r dm, shaped dims c -> r < length dims -> dflt dims r dm ->
  dims_or c dm (Z.of_nat r) = Ok (Z.of_nat (nth r dims 0)).
Proof.
  intros dims c r dm [H1 H2 H3] Hr Hd. unfold dims_or. rewrite H1.
  assert (E : py_get (map Z.of_nat dims) (Z.of_nat r) = Ok (Z.of_nat (nth r dims 0))).
  { rewrite (@py_get_nat Z _ _ 0%Z) by (rewrite map_length; exact Hr). rewrite nth_map_Z. reflexivity. }
  destruct Hd as [->|[->| ->]]; try exact E.
  destruct (Z.of_nat (nth r dims O) =? 0)%Z; [exact E | reflexivity].
Qed.

Lemma add_moment_int : forall dims c p b, shaped dims c -> p < length dims -> bw b = 1 ->
  add_moment c (RInt (Z.of_nat p)) (bo b)
  = ('(f, r) <- populate_opflow (c_flow c)
                  (mk_moment (length (f_list (c_flow c))) (map (@bo S) (fresh dims p b))) ;;
     Ok (set_flow c f, r)).
Proof.
  intros dims c p b Hc Hp Hw. unfold add_moment. rewrite (moment_data_int _ _ (shaped_len_ok Hc)).
  cbn [bind]. destruct Hc as [H1 H2 H3]. rewrite H1, layer_int_fresh by assumption. reflexivity.
Qed.

Lemma add_moment_list : forall dims c lo hi l b, shaped dims c -> lo <= hi -> hi < length dims ->
  py_min l = Ok (Z.of_nat lo) -> py_max l = Ok (Z.of_nat hi) -> bw b = hi - lo + 1 ->
  add_moment c (RList l) (bo b)
  = ('(f, r) <- populate_opflow (c_flow c)
                  (mk_moment (length (f_list (c_flow c))) (map (@bo S) (fresh dims lo b))) ;;
     Ok (set_flow c f, r)).
Proof.
  intros dims c lo hi l b Hc Hlh Hhi Hmin Hmax Hw. unfold add_moment.
  rewrite (@moment_data_list _ c l _ _ _ (shaped_len_ok Hc) Hmin Hmax).
  cbn [bind]. destruct Hc as [H1 H2 H3]. rewrite H1, layer_list_fresh by assumption. reflexivity.
Qed.

Lemma zmem_single : forall q x, zmem q [x] = true -> q = x.
Proof. intros q x H. unfold zmem in H. simpl in H. rewrite orb_false_r in H. apply Z.eqb_eq in H. exact H. Qed.

(** A block acting on one register. *)
Lemma single_ok : forall dims r (o : op) k, r < length dims ->
  (exists M, unitary NB o = Ok M /\ repr [nth r dims 0] [nth r dims 0] M k) ->
  acting_members o = Ok [Z.of_nat r] -> is_igate o = false -> is_meas o = false ->
  blk_ok dims r {| bo := o; bw := 1; bk := k |}.
Proof.
  intros dims r o k Hr [M [E R]] Ha Hi Hm. constructor; simpl; try lia.
  - exists M. rewrite sub_1 by exact Hr. auto.
  - exists [Z.of_nat r]. split; [exact Ha|]. intros q Hq. apply zmem_single in Hq. lia.
  - congruence.
  - exact Hm.
Qed.

Lemma offers_x : forall dims r dm p, gate_ok dims (GX (S := S) r p) -> dflt dims r dm ->
  exists p' b, offers dims (CX (Z.of_nat r) dm p) (GX r p) p' b.
Proof.
  intros dims r dm p [Hr Hp] Hd. set (d := nth r dims 0) in *.
  destruct (x_unitary_spec S d Hp) as [M [E [E1 [E2 E3]]]].
  exists r, {| bo := OX (Z.of_nat r) (Z.of_nat d) p; bw := 1; bk := classical S (move_x [d] 0 p) |}.
  assert (R : repr [d] [d] M (classical S (move_x [d] 0 p))).
  { eapply repr_ext; [|apply (@repr_single S d M (fun i j => if shift d j p =? i then s1 else s0)); auto].
    intros s t Hs Ht. apply valid_single in Hs as [x [-> Hx]]. apply valid_single in Ht as [y [-> Hy]].
    simpl. unfold classical, move_x, level. simpl.
    destruct (shift d y p =? x) eqn:Ex.
    - apply Nat.eqb_eq in Ex. rewrite Ex, config_eqb_refl. reflexivity.
    - apply Nat.eqb_neq in Ex. rewrite (proj2 (config_eqb_neq _ _)) by congruence. reflexivity. }
  constructor.
  - apply single_ok; auto. exists M. split; [|exact R]. cbn [unitary]. rewrite E. reflexivity.
  - reflexivity.
  - intros _. auto.
  - intros s t Hs Ht. rewrite (fresh_kern L) by (simpl; assumption || lia). cbn [amp bw bk].
    apply embed_classical; try (rewrite ?(valid_length Hs), ?(valid_length Ht); lia).
    + unfold move_x. rewrite put_length, firstn_length, skipn_length, (valid_length Ht). lia.
    + pose proof (@sub_1 dims r Hr) as E4. fold d in E4. rewrite <- E4.
      replace r with (r + 0) at 1 by lia. apply move_x_mid; rewrite ?(valid_length Ht); lia.
  - intros c Hc. exists (fun x => x). split; [reflexivity|]. cbn [api].
    rewrite (validate1_ok Hc Hr Hd), (dims_or_ok Hc Hr Hd). cbn [bind].
    apply (@add_moment_int dims c r {| bo := OX (Z.of_nat r) (Z.of_nat d) p; bw := 1; bk := classical S (move_x [d] 0 p) |});
    auto.
Qed.

(** A one-register gate given by its entries. *)
Lemma offers_local : forall dims r (o : op) u k g, r < length dims ->
  (exists M, unitary NB o = Ok M /\ mr M = nth r dims 0 /\ mc M = nth r dims 0 /\
     forall i j, i < nth r dims 0 -> j < nth r dims 0 -> mget M i j = u i j) ->
  acting_members o = Ok [Z.of_nat r] -> is_igate o = false -> is_meas o = false ->
  (is_hxz o = true -> qreg_of o = Z.of_nat r) ->
  amp dims g = local S r u ->
  (forall c, shaped dims c -> api c k = add_moment c (RInt (Z.of_nat r)) o) ->
  exists p' b, offers dims k g p' b.
Proof.
  intros dims r o u k g Hr [M [E [E1 [E2 E3]]]] Ha Hi Hm Hq Hamp Hapi.
  set (b := {| bo := o; bw := 1; bk := fun s t : config => u (level s 0) (level t 0) |} : block).
  exists r, b. constructor.
  - apply single_ok; auto. exists M. split; [exact E|]. apply repr_single; auto.
  - exact Hi.
  - intros H. split; [reflexivity | exact (Hq H)].
  - intros s t Hs Ht. rewrite (fresh_kern L) by (simpl; assumption || lia). rewrite Hamp. cbn [bw bk b].
    apply embed_local; rewrite ?(valid_length Hs), ?(valid_length Ht); auto.
  - intros c Hc. exists (fun x => x). split; [reflexivity|]. rewrite (Hapi c Hc).
    apply (@add_moment_int dims c r b); auto.
Qed.

Lemma offers_h : forall dims r dm, (forall d, In d dims -> 0 < d) -> gate_ok dims (GH (S := S) r) -> dflt dims r dm ->
  exists p' b, offers dims (CH (Z.of_nat r) dm) (GH (S := S) r) p' b.
Proof.
  intros dims r dm Hpos Hr Hd. simpl in Hr.
  assert (Hd1 : 1 <= nth r dims 0) by (apply Hpos, nth_In; exact Hr).
  destruct (h_unitary_spec L Hd1) as [M [E E']].
  eapply (@offers_local dims r (OH (Z.of_nat r) (Z.of_nat (nth r dims 0))) (had S (nth r dims 0))); auto.
  - exists M. split; [cbn [unitary]; rewrite E; reflexivity | exact E'].
  - intros c Hc. cbn [api]. rewrite (validate1_ok Hc Hr Hd), (dims_or_ok Hc Hr Hd). reflexivity.
Qed.

Lemma offers_z : forall dims r dm, gate_ok dims (GZ (S := S) r) -> dflt dims r dm ->
  exists p' b, offers dims (CZ (Z.of_nat r) dm) (GZ (S := S) r) p' b.
Proof.
  intros dims r dm Hr Hd. simpl in Hr.
  destruct (z_unitary_spec L (nth r dims 0)) as [M [E E']].
  eapply (@offers_local dims r (OZ (Z.of_nat r) (Z.of_nat (nth r dims 0)))
            (fun i j => if Nat.eqb i j then nth i (sroots (nth r dims 0)) s0 else s0)); auto.
  - exists M. split; [cbn [unitary]; rewrite E; reflexivity | exact E'].
  - intros c Hc. cbn [api]. rewrite (validate1_ok Hc Hr Hd), (dims_or_ok Hc Hr Hd). reflexivity.
Qed.

Lemma unitary_rows : forall d (M : mat S) u, mr M = d -> mc M = d -> (forall i j, i < d -> j < d -> mget M i j = u i j) ->
  orthonormal_rows S Nat.eqb (seq 0 d) u -> is_unitary M = true.
Proof.
  intros d M u E1 E2 E3 Hu.
  apply (is_unitary_iff (ds := [d]) (repr_single (d := d) M u E1 E2 E3)).
  intros s t Hs Ht. apply valid_single in Hs as [x [-> Hx]]. apply valid_single in Ht as [y [-> Hy]].
  specialize (Hu x y). rewrite !in_seq in Hu. specialize (Hu ltac:(lia) ltac:(lia)).
  rewrite <- Hu. f_equal.
  - unfold delta. destruct (x =? y) eqn:Exy.
    + apply Nat.eqb_eq in Exy. subst. rewrite config_eqb_refl. reflexivity.
    + apply Nat.eqb_neq in Exy. rewrite (proj2 (config_eqb_neq _ _)) by congruence. reflexivity.
  - rewrite <- (bsum_total S). simpl. rewrite (bsum_flat_map L). apply bsum_ext. intros i _. simpl. unfold level. simpl. ring.
Qed.

Lemma offers_u : forall dims r dm M u, gate_ok dims (GU r u) -> dflt dims r dm ->
  mr M = nth r dims 0 -> mc M = nth r dims 0 ->
  (forall i j, i < nth r dims 0 -> j < nth r dims 0 -> mget M i j = u i j) ->
  exists p' b, offers dims (CGate M (RInt (Z.of_nat r)) dm) (GU r u) p' b.
Proof.
  intros dims r dm M u [Hr Hu] Hd E1 E2 E3.
  eapply (@offers_local dims r (OArb (RInt (Z.of_nat r)) (RInt (Z.of_nat (nth r dims 0))) M) u); auto.
  - exists M. split; [|auto]. cbn [unitary]. unfold arb_unitary.
    assert (HU : is_unitary M = true) by (eapply unitary_rows; eassumption).
    rewrite HU, E1, E2, Z.eqb_refl. reflexivity.
  - discriminate.
  - intros c Hc. cbn [api validate]. rewrite (validate1_ok Hc Hr Hd). cbn [bind].
    rewrite (dims_or_ok Hc Hr Hd). reflexivity.
Qed.

Lemma offers_cx : forall dims c t p, (forall d, In d dims -> 0 < d) -> gate_ok dims (GCX (S := S) c t p) ->
  exists p' b, offers dims (CCX [Z.of_nat c; Z.of_nat t] p) (GCX c t p) p' b.
Proof.
  intros dims c t p Hpos [Hc Ht].
  set (lo := Nat.min c t). set (hi := Nat.max c t). set (w := hi - lo + 1). set (ds := sub dims lo w).
  assert (Hds : forall d, In d ds -> 0 < d).
  { intros d Hd. apply Hpos. unfold ds, sub in Hd. apply In_nth with (d := 0) in Hd as [i [Hi <-]].
    rewrite firstn_length, skipn_length in Hi. rewrite nth_firstn', nth_skipn' by lia. apply nth_In. lia. }
  assert (Lds : length ds = w) by (apply sub_length; unfold w, lo, hi; lia).
  destruct (@repr_cx S L ds (Z.of_nat c) (Z.of_nat t) p (c - lo) (t - lo) Hds) as [M [E R]].
  1,2: unfold w, lo, hi in *; lia.
  1,2: destruct (Z.of_nat c <? Z.of_nat t)%Z eqn:El; [apply Z.ltb_lt in El | apply Z.ltb_ge in El]; unfold lo; lia.
  set (b := {| bo := OCX (map Z.of_nat ds) [Z.of_nat c; Z.of_nat t] p; bw := w;
               bk := classical S (move_cx ds (c - lo) (t - lo) p) |}).
  exists lo, b. constructor.
  - constructor; simpl; try (unfold w, lo, hi in *; lia).
    + exists M. auto.
    + exists [Z.of_nat c; Z.of_nat t]. split; [reflexivity|]. intros q Hq. apply zmem_spec in Hq.
      destruct Hq as [<-|[<-|[]]]; unfold w, lo, hi; lia.
  - reflexivity.
  - discriminate.
  - intros s u Hs Hu. rewrite (fresh_kern L) by (simpl; assumption || (unfold w, lo, hi; lia)). cbn [amp bw bk b].
    assert (Hl : lo + w <= length u) by (rewrite (valid_length Hu); unfold w, lo, hi; lia).
    apply embed_classical.
    + rewrite (valid_length Hs), (valid_length Hu). reflexivity.
    + exact Hl.
    + unfold move_cx, move_x. destruct (top _ _ _); rewrite ?put_length, firstn_length, skipn_length; lia.
    + replace c with (lo + (c - lo)) at 1 by (unfold lo; lia).
      replace t with (lo + (t - lo)) at 1 by (unfold lo; lia).
      apply move_cx_mid; try exact Hl; unfold w, lo, hi; lia.
  - intros ct Hct. exists (fun x => x). split; [reflexivity|]. cbn [api].
    change (py_get [Z.of_nat c; Z.of_nat t] 0) with (Ok (Z.of_nat c)).
    change (py_get [Z.of_nat c; Z.of_nat t] 1) with (Ok (Z.of_nat t)). cbn [bind].
    assert (Es : forall a z, a <= z -> z < length dims ->
              py_slice (c_dims ct) (Z.of_nat a) (Z.of_nat z + 1) = map Z.of_nat (sub dims a (z - a + 1))).
    { intros a z Haz Hz. rewrite (sh_dims Hct). unfold py_slice, py_clip. rewrite map_length.
      replace (Z.of_nat a <? 0)%Z with false by (symmetry; apply Z.ltb_ge; lia).
      replace (Z.of_nat z + 1 <? 0)%Z with false by (symmetry; apply Z.ltb_ge; lia).
      replace (Nat.min (Z.to_nat (Z.of_nat z + 1)) (length dims) - Nat.min (Z.to_nat (Z.of_nat a)) (length dims))
        with (z - a + 1) by lia.
      replace (Nat.min (Z.to_nat (Z.of_nat a)) (length dims)) with a by lia.
      rewrite skipn_map, firstn_map. reflexivity. }
    assert (Eds : (if (Z.of_nat c <? Z.of_nat t)%Z
                   then py_slice (c_dims ct) (Z.of_nat c) (Z.of_nat t + 1)
                   else py_slice (c_dims ct) (Z.of_nat t) (Z.of_nat c + 1)) = map Z.of_nat ds).
    { destruct (Z.of_nat c <? Z.of_nat t)%Z eqn:El; [apply Z.ltb_lt in El | apply Z.ltb_ge in El];
      rewrite Es by lia; unfold ds, w, lo, hi; repeat f_equal; lia. }
    rewrite Eds. apply (@add_moment_list dims ct lo hi [Z.of_nat c; Z.of_nat t] b); auto; try (unfold lo, hi; lia).
    + apply (@py_min_nat [c; t] lo); unfold lo; simpl; [lia|]. intros y [<-|[<-|[]]]; lia.
    + apply (@py_max_nat [c; t] hi); unfold hi; simpl; [lia|]. intros y [<-|[<-|[]]]; lia.
Qed.

Lemma offers_tof : forall dims cs t p, (forall d, In d dims -> 0 < d) -> gate_ok dims (GTof (S := S) cs t p) ->
  exists p' b, offers dims (CTof (map Z.of_nat cs) (Z.of_nat t) p) (GTof cs t p) p' b.
Proof.
  intros dims cs t p Hpos [Hcs [Ht [Hnin Hsp]]].
  destruct (@nat_bounds (cs ++ [t])) as [lo [hi [Hlo [Hhi Hb]]]]; [destruct cs; discriminate|].
  assert (Hhi' : hi < length dims).
  { apply in_app_or in Hhi as [H|[<-|[]]]; [apply Hcs; exact H | exact Ht]. }
  assert (Hlh : lo <= hi) by (apply (Hb _ Hlo)).
  assert (Hspan : hi - lo + 1 <> 2).
  { intros E. apply Hsp. exists lo.
    assert (Hin : forall x, In x (cs ++ [t]) <-> In x (t :: cs)).
    { intros x. rewrite in_app_iff. simpl. tauto. }
    split; [apply Hin; exact Hlo|]. split.
    - apply Hin. replace (lo + 1) with hi by lia. exact Hhi.
    - intros x Hx. apply Hin in Hx. specialize (Hb _ Hx). lia. }
  set (w := hi - lo + 1) in *. set (ds := sub dims lo w).
  destruct (@mk_toffoli_spec S dims cs t p lo hi Hb Hlo Hhi Hhi' Hpos) as [u [Emk [E1 [E2 R]]]].
  fold w in Emk, E1, E2, R. fold ds in Emk, E1, E2, R.
  pose proof (@tof_unitary S L dims cs t p lo hi Hb Hhi' Hnin Hspan
                (map Z.of_nat (seq lo w)) u E1 E2 R) as EU.
  fold w in EU. fold ds in EU.
  set (b := {| bo := OTof (map Z.of_nat cs) (Z.of_nat t) p (map Z.of_nat ds) (map Z.of_nat (seq lo w)) u;
               bw := w; bk := classical S (move_tof ds (map (fun c => c - lo) cs) (t - lo) p) |}).
  assert (Hbt : lo <= t <= hi) by (apply Hb, in_or_app; right; left; reflexivity).
  assert (Hbc : forall c, In c cs -> lo <= c <= hi) by (intros c Hc; apply Hb, in_or_app; left; exact Hc).
  exists lo, b. constructor.
  - constructor; simpl; try (unfold w in *; lia).
    + exists u. split; [exact EU | exact R].
    + exists [Z.of_nat t]. split; [reflexivity|]. intros q Hq. apply zmem_single in Hq. unfold w. lia.
  - reflexivity.
  - discriminate.
  - intros s v Hs Hv. rewrite (fresh_kern L) by (simpl; assumption || (unfold w; lia)). cbn [amp bw bk b].
    assert (Hl : lo + w <= length v) by (rewrite (valid_length Hv); unfold w; lia).
    apply embed_classical.
    + rewrite (valid_length Hs), (valid_length Hv). reflexivity.
    + exact Hl.
    + unfold move_tof, move_x. destruct (forallb _ _); rewrite ?put_length, firstn_length, skipn_length; lia.
    + apply move_tof_mid; try exact Hl; [|unfold w; lia].
      intros c Hc. specialize (Hbc c Hc). unfold w. lia.
  - intros c Hc. exists (fun _ => true). split; [reflexivity|]. cbn [api].
    rewrite (sh_qregs Hc). cbn [qregs_list]. rewrite Emk. cbn [bind].
    match goal with |- context [add_moment c ?l ?o] => change o with (bo b);
      rewrite (@add_moment_list dims c lo hi (map Z.of_nat (seq lo w)) b) end; auto.
    + destruct (populate_opflow _ _) as [[f r]|e]; reflexivity.
    + apply (@py_min_nat (seq lo w) lo); [apply in_seq; unfold w; lia|]. intros y Hy. apply in_seq in Hy. lia.
    + apply (@py_max_nat (seq lo w) hi); [apply in_seq; unfold w; lia|].
      intros y Hy. apply in_seq in Hy. unfold w in Hy. lia.
Qed.

Lemma offers_span : forall dims l r k dm M u, gate_ok dims (GSpan r k u) -> dm = None \/ dm = Some 0%Z ->
  In r l -> In (r + k - 1) l -> (forall x, In x l -> r <= x < r + k) ->
  length l = 1 \/ 3 <= length l ->
  holds_entries (span dims r k) M u ->
  exists p' b, offers dims (CGate M (RList (map Z.of_nat l)) dm) (GSpan r k u) p' b.
Proof.
  intros dims l r k dm M u [Hk [Hrk Hu]] Hdm Hr Hr' Hin Hlen R. apply entries_repr in R.
  change (span dims r k) with (sub dims r k) in *.
  set (D := map (fun x => Z.of_nat (nth x dims 0)) l).
  set (b := {| bo := OArb (RList (map Z.of_nat l)) (RList D) M; bw := k; bk := u |}).
  assert (HU : is_unitary M = true).
  { apply (is_unitary_iff R). intros s t Hs Ht.
    specialize (Hu s t). rewrite !in_all_configs in Hu. specialize (Hu Hs Ht).
    rewrite (bsum_total S). exact Hu. }
  assert (EA : arb_unitary (RList D) M = Ok M).
  { unfold arb_unitary. rewrite HU.
    destruct l as [|x [|y [|z l]]]; simpl in Hlen; try lia; [|reflexivity].
    simpl in Hr, Hr'. destruct Hr as [->|[]]. destruct Hr' as [E|[]].
    assert (k = 1) by lia. subst k. rewrite sub_1 in R by lia.
    destruct R as [R1 R2 _]. unfold prodn in R1, R2. simpl in R1, R2. rewrite Nat.mul_1_r in R1, R2.
    unfold D. cbn [map]. rewrite R1, R2, Z.eqb_refl. reflexivity. }
  exists r, b. constructor.
  - constructor; simpl; try lia.
    + exists M. rewrite EA. auto.
    + exists (map Z.of_nat l). split; [reflexivity|]. intros q Hq. apply zmem_spec in Hq.
      apply in_map_iff in Hq as [x [<- Hx]]. specialize (Hin x Hx). lia.
  - reflexivity.
  - discriminate.
  - intros s t Hs Ht. rewrite (fresh_kern L) by (simpl; assumption || lia). cbn [amp bw bk b].
    rewrite K3_delta. reflexivity.
  - intros c Hc. exists (fun x => x). split; [reflexivity|]. cbn [api validate].
    assert (EV : mapM (fun q => validate1 c q dm) (map Z.of_nat l) = Ok (map (fun _ => tt) (map Z.of_nat l))).
    { apply mapM_ok. intros q Hq. apply in_map_iff in Hq as [x [<- Hx]]. specialize (Hin x Hx).
      apply (@validate1_ok dims c x dm Hc); [lia|]. destruct Hdm; [left | right; left]; assumption. }
    rewrite EV. cbn [bind].
    assert (ED : mapM (py_get (c_dims c)) (map Z.of_nat l) = Ok D).
    { rewrite mapM_map. apply mapM_ok. intros x Hx. specialize (Hin x Hx). rewrite (sh_dims Hc).
      rewrite (@py_get_nat Z _ _ 0%Z) by (rewrite map_length; lia). rewrite nth_map_Z. reflexivity. }
    replace (match dm with
             | Some d => if (d =? 0)%Z then r0 <- mapM (py_get (c_dims c)) (map Z.of_nat l);; Ok (RList r0)
                         else Ok (RInt d)
             | None => r0 <- mapM (py_get (c_dims c)) (map Z.of_nat l);; Ok (RList r0)
             end) with (Ok (RList D)) by (rewrite ED; destruct Hdm as [->| ->]; reflexivity).
    cbn [bind].
    apply (@add_moment_list dims c r (r + k - 1) (map Z.of_nat l) b); auto; try lia.
    + apply (@py_min_nat l r Hr). intros y Hy. specialize (Hin y Hy). lia.
    + apply (@py_max_nat l (r + k - 1) Hr'). intros y Hy. specialize (Hin y Hy). lia.
    + simpl. lia.
Qed.

Lemma denotes_offers : forall dims k g, (forall d, In d dims -> 0 < d) ->
  denotes dims k g -> gate_ok dims g -> exists p b, offers dims k g p b.
Proof.
  intros dims k g Hpos Hd Hg. destruct Hd.
  - apply offers_x; assumption.
  - apply offers_h; assumption.
  - apply offers_z; assumption.
  - apply offers_cx; assumption.
  - apply offers_tof; assumption.
  - apply offers_u; assumption.
  - eapply offers_span; eassumption.
Qed.

End Blocks.
