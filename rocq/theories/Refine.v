(** * Refine: running a circuit computes what the specification says. *)
From Coq Require String.
From Verif Require Import Py Scalar Mat Utils Gates Circuit Spec Calls Lib Kern GateMat GateTof Flow Layers Blocks.
Set Implicit Arguments.

Section Refine.
Variable S : scalar.
Hypothesis L : scalar_laws S.
Add Ring Sring : (sl_ring L).
Notation op := (op S).
Notation NB := (NumpyBackend S).
Notation block := (block S).
Notation circuit := (circuit S).
Notation moment := (moment S).
Notation call := (call S).
Notation kapply := (kapply S).
Infix "*s" := (@smul S) (at level 40, left associativity).

(** The state reached by a list of layers. *)
Definition vec (dims : list nat) (psi : config -> S) (bss : list (list block)) : config -> S :=
  fold_left (fun phi bs => kapply dims (lkern bs) phi) bss psi.

Lemma vec_snoc : forall dims psi bss bs,
  vec dims psi (bss ++ [bs]) = kapply dims (lkern bs) (vec dims psi bss).
Proof. intros. unfold vec. rewrite fold_left_app. reflexivity. Qed.

(** The operations of the first moment. *)
Definition init_op (dims init : list nat) (i : nat) : op :=
  OInit (Z.of_nat (nth i dims 0)) (Z.of_nat (nth i init 0)) (Z.of_nat i)
        (mkmat (nth i dims 0) 1 (fun r _ => if Nat.eqb r (nth i init 0) then s1 else s0)).
Definition init_ops (dims init : list nat) : list op := map (init_op dims init) (seq 0 (length dims)).

Definition layer_of (dims : list nat) (m : moment) (bs : list block) : Prop :=
  m_list m = map (@bo S) bs /\ seg dims 0 bs (length dims).

Record good (dims : list nat) (init : config) (bss : list (list block)) (c : circuit) : Prop := {
  g_shaped : shaped dims c;
  g_meas : f_meas (c_flow c) = repeat false (length dims);
  g_list : exists m0 ms, f_list (c_flow c) = m0 :: ms /\ m_list m0 = init_ops dims init /\
           Forall2 (layer_of dims) ms bss }.

(** ** Adding one gate *)
Lemma find_app : forall A (f : A -> bool) l1 l2,
  find f (l1 ++ l2) = match find f l1 with Some x => Some x | None => find f l2 end.
Proof. intros A f l1 l2; induction l1 as [|x l1 IH]; simpl; [reflexivity|]. destruct (f x); auto. Qed.

Lemma find_idblocks : forall dims p k, find (@is_hxz S) (map (@bo S) (idblocks S dims p k)) = None.
Proof. intros dims p k; revert p; induction k as [|k IH]; intros p; [reflexivity | apply (IH (Datatypes.S p))]. Qed.

Lemma find_fresh : forall dims p (b : block),
  find (@is_hxz S) (map (@bo S) (fresh dims p b)) = if is_hxz (bo b) then Some (bo b) else None.
Proof.
  intros dims p b. unfold fresh. rewrite map_app, find_app, find_idblocks. cbn [map find].
  destruct (is_hxz (bo b)); [reflexivity | apply find_idblocks].
Qed.

Lemma seg_no_meas : forall dims bs p q, seg dims p bs q ->
  forallb (fun o => negb (is_meas o)) (map (@bo S) bs) = true.
Proof.
  intros dims bs p q H; induction H as [p Hp|p b bs q Hb Hs IH]; simpl; [reflexivity|].
  rewrite (bok_m Hb), IH. reflexivity.
Qed.

Lemma all_false_meas : forall n, 0 < n -> forallb (fun b : bool => b) (repeat false n) = false.
Proof. intros [|n] H; [lia | reflexivity]. Qed.

Lemma igates_in : forall (bs : list block) (q : Z),
  zmem q (map (@qreg_of S) (filter (@is_igate S) (map (@bo S) bs))) = true ->
  exists bs1 b0 bs2, bs = bs1 ++ b0 :: bs2 /\ is_igate (bo b0) = true /\ qreg_of (bo b0) = q.
Proof.
  intros bs q H. apply zmem_spec in H. apply in_map_iff in H as [o [Eo Ho]].
  apply filter_In in Ho as [Ho Hi]. apply in_map_iff in Ho as [b0 [Eb Hb]].
  apply in_split in Hb as [bs1 [bs2 E]]. exists bs1, b0, bs2. subst o. auto.
Qed.

Lemma get_qreg_seg : forall dims bs1 p q (o : op) rest k,
  seg dims p bs1 q -> zmem (Z.of_nat q) (match acting_members o with Ok a => a | Err _ => [] end) = true ->
  is_ok (acting_members o) = true ->
  get_qreg_moment_from k (map (@bo S) bs1 ++ o :: rest) (Z.of_nat q) = Ok (Some (o, k + length bs1)).
Proof.
  intros dims bs1 p q o rest k H; revert k; induction H as [p Hp|p b bs q Hb Hs IH]; intros k Ho Hok; simpl.
  - destruct (acting_members o) as [a|e]; [|discriminate]. cbn [bind]. rewrite Ho, Nat.add_0_r. reflexivity.
  - destruct (bok_acts Hb) as [a [Ea Ha]]. rewrite Ea. cbn [bind].
    destruct (zmem (Z.of_nat q) a) eqn:E.
    + specialize (Ha _ E). apply seg_le in Hs. lia.
    + rewrite IH by assumption. do 3 f_equal. lia.
Qed.

Lemma populate_merge : forall f before last (m : moment) g bs1 b0 bs2 dims,
  f_list f = before ++ [last] -> forallb (fun b => b) (f_meas f) = false ->
  find (@is_hxz S) (m_list m) = Some g ->
  m_list last = map (@bo S) (bs1 ++ b0 :: bs2) -> seg dims 0 (bs1 ++ b0 :: bs2) (length dims) ->
  is_igate (bo b0) = true -> qreg_of (bo b0) = qreg_of g ->
  populate_opflow f m
  = Ok ({| f_list := before ++ [set_list (map (@bo S) bs1 ++ g :: map (@bo S) bs2) last]; f_meas := f_meas f |}, true).
Proof.
  intros f before last m g bs1 b0 bs2 dims Ef Em Eg El Hseg Hi Hq.
  pose proof (seg_app_inv _ _ Hseg) as [q [Hs1 Hs2]].
  inversion Hs2 as [|p' b' bs' q' Hb0 Hs3]; subst p' b' bs' q'.
  destruct (bok_i Hb0 Hi) as [Eb [Ew Ek]].
  rewrite Eb in Hq. simpl in Hq.
  unfold populate_opflow. rewrite Ef, rev_unit, Em, Eg. rewrite El, map_app. cbn [map].
  assert (Ez : zmem (qreg_of g) (map (@qreg_of S) (filter (@is_igate S) (map (@bo S) bs1 ++ bo b0 :: map (@bo S) bs2))) = true).
  { apply zmem_spec. apply in_map_iff. exists (bo b0). split; [rewrite Eb; exact Hq|].
    apply filter_In. split; [apply in_or_app; right; left; reflexivity | exact Hi]. }
  rewrite Ez. unfold replace_igate. rewrite <- Hq.
  rewrite (@get_qreg_seg dims bs1 0 q (bo b0)) by
    (exact Hs1 || (rewrite Eb; simpl; try unfold zmem; simpl; rewrite ?Z.eqb_refl; reflexivity)).
  cbn [bind]. rewrite Hi. cbn [bind]. rewrite rev_involutive, Nat.add_0_l.
  rewrite <- (map_length (@bo S) bs1), upd_split. reflexivity.
Qed.

Lemma populate_append : forall f before last (m : moment),
  f_list f = before ++ [last] -> forallb (fun b => b) (f_meas f) = false ->
  forallb (fun o => negb (is_meas o)) (m_list m) = true ->
  (forall g, find (@is_hxz S) (m_list m) = Some g ->
     zmem (qreg_of g) (map (@qreg_of S) (filter (@is_igate S) (m_list last))) = false) ->
  populate_opflow f m
  = Ok ({| f_list := before ++ [set_next (m_name m) last; set_prev (m_name last) m]; f_meas := f_meas f |}, true).
Proof.
  intros f before last m Ef Em Hnm Hno. unfold populate_opflow. rewrite Ef, rev_unit, Em.
  assert (E : (match find (@is_hxz S) (m_list m) with
          | None => Ok None
          | Some g =>
              if zmem (qreg_of g) (map (@qreg_of S) (filter (@is_igate S) (m_list last)))
              then '(l', b) <- replace_igate (m_list last) g (qreg_of g) ;;
                Ok (if b : bool then Some (rev (rev before) ++ [set_list l' last]) else None)
              else Ok None
          end) = Ok None).
  { destruct (find _ (m_list m)) as [g|]; [|reflexivity]. rewrite (Hno g eq_refl). reflexivity. }
  rewrite E. cbn [bind]. rewrite detect_none by exact Hnm. cbn [bind].
  rewrite append_moment_snoc. reflexivity.
Qed.

Lemma no_igates_init : forall dims init, filter (@is_igate S) (init_ops dims init) = [].
Proof. intros dims init. unfold init_ops. induction (seq 0 (length dims)); simpl; auto. Qed.

Lemma snoc_cases : forall A (l : list A), l = [] \/ exists l' x, l = l' ++ [x].
Proof. intros A l. destruct l using rev_ind; [left | right; exists l, x]; reflexivity. Qed.

Lemma Forall2_snoc_l : forall A B (R : A -> B -> Prop) l x m,
  Forall2 R (l ++ [x]) m -> exists m' y, m = m' ++ [y] /\ Forall2 R l m' /\ R x y.
Proof.
  intros A B R l x m H. apply Forall2_app_inv_l in H as [m1 [m2 [H1 [H2 ->]]]].
  inversion H2 as [|x' y l' m' Hxy Hn]; subst. inversion Hn; subst. exists m1, y. auto.
Qed.

Lemma shaped_set_flow : forall dims c f, shaped dims c -> shaped dims (set_flow (S := S) c f).
Proof. intros dims c f [H1 H2 H3]. constructor; assumption. Qed.

(** How the layers change when a fresh layer is offered. *)
Definition merged (bss bss' : list (list block)) (b : block) (p : nat) : Prop :=
  exists bss0 bs1 b0 bs2, bss = bss0 ++ [bs1 ++ b0 :: bs2] /\ bss' = bss0 ++ [bs1 ++ b :: bs2] /\
    is_igate (bo b0) = true /\ width bs1 = p.

Lemma add_gate : forall dims init bss c k g p b,
  dims <> [] -> good dims init bss c -> offers dims k g p b ->
  exists c' bss', api c k = Ok (c', true) /\ good dims init bss' c' /\
    (bss' = bss ++ [fresh dims p b] \/ merged bss bss' b p) /\
    c_out c' = c_out c /\
    forall psi s, valid dims s -> vec dims psi bss' s = kapply dims (amp dims g) (vec dims psi bss) s.
Proof.
  intros dims init bss c k g p b Hne Hg Ho.
  destruct Hg as [Hsh Hmeas [m0 [ms [El [Em0 HF]]]]].
  destruct (of_api Ho Hsh) as [rv [Hrv Eapi]].
  set (M := mk_moment (length (f_list (c_flow c))) (map (@bo S) (fresh dims p b))) in *.
  pose proof (fresh_seg (of_ok Ho)) as Hfseg.
  assert (Hamp : forall s t, valid dims s -> valid dims t -> lkern (fresh dims p b) s t = amp dims g s t).
  { intros s t Hs Ht. symmetry. apply (of_amp Ho); assumption. }
  assert (Hn : 0 < length dims) by (destruct dims; [contradiction | simpl; lia]).
  assert (Hmf : forallb (fun b => b) (f_meas (c_flow c)) = false) by (rewrite Hmeas; apply all_false_meas; exact Hn).
  assert (Hnm : forallb (fun o => negb (is_meas o)) (m_list M) = true) by (apply (seg_no_meas Hfseg)).
  (* appending *)
  assert (Happend : forall before last, f_list (c_flow c) = before ++ [last] ->
     (forall h, find (@is_hxz S) (m_list M) = Some h ->
        zmem (qreg_of h) (map (@qreg_of S) (filter (@is_igate S) (m_list last))) = false) ->
     exists c' bss', api c k = Ok (c', true) /\ good dims init bss' c' /\
       (bss' = bss ++ [fresh dims p b] \/ merged bss bss' b p) /\
       c_out c' = c_out c /\
       forall psi s, valid dims s -> vec dims psi bss' s = kapply dims (amp dims g) (vec dims psi bss) s).
  { intros before last Elast Hno.
    pose proof (@populate_append (c_flow c) before last M Elast Hmf Hnm Hno) as EP.
    rewrite EP in Eapi. cbn [bind] in Eapi. rewrite Hrv in Eapi.
    eexists. exists (bss ++ [fresh dims p b]). split; [exact Eapi|]. split; [|split; [|split]].
    - constructor.
      + apply shaped_set_flow; exact Hsh.
      + exact Hmeas.
      + cbn [set_flow c_flow f_list].
        assert (HL : layer_of dims (set_prev (m_name last) M) (fresh dims p b)) by (split; [reflexivity | exact Hfseg]).
        rewrite El in Elast. destruct before as [|x before]; simpl in Elast; injection Elast as -> ->.
        * exists (set_next (m_name M) last), [set_prev (m_name last) M]. simpl. split; [reflexivity|].
          split; [exact Em0|]. inversion HF; subst. simpl. constructor; [exact HL | constructor].
        * exists x, (before ++ [set_next (m_name M) last; set_prev (m_name last) M]).
          split; [reflexivity|]. split; [exact Em0|].
          apply Forall2_snoc_l in HF as [bss0 [bs [-> [HF1 HF2]]]].
          rewrite <- app_assoc. apply Forall2_app; [exact HF1|]. simpl.
          constructor; [exact HF2|]. constructor; [exact HL | constructor].
    - left. reflexivity.
    - reflexivity.
    - intros psi s Hs. rewrite vec_snoc. apply kapply_ext; auto. }
  destruct (snoc_cases ms) as [->|[ms' [last ->]]].
  - inversion HF; subst. apply (Happend [] m0 El).
    intros h _. rewrite Em0, no_igates_init. reflexivity.
  - rewrite app_comm_cons in El.
    apply Forall2_snoc_l in HF as [bss0 [bs [Ebss [HF1 [Hml Hseg]]]]].
    destruct (find (@is_hxz S) (m_list M)) as [h|] eqn:Efind.
    2: { apply (Happend (m0 :: ms') last El). congruence. }
    destruct (zmem (qreg_of h) (map (@qreg_of S) (filter (@is_igate S) (m_list last)))) eqn:Ez.
    2: { apply (Happend (m0 :: ms') last El). intros h' E'. injection E' as <-. exact Ez. }
    rewrite Hml in Ez. apply igates_in in Ez as [bs1 [b0 [bs2 [-> [Hi Hq]]]]].
    pose proof (@populate_merge (c_flow c) (m0 :: ms') last M h bs1 b0 bs2 dims El Hmf Efind Hml Hseg Hi Hq) as EP.
    rewrite EP in Eapi. cbn [bind] in Eapi. rewrite Hrv in Eapi.
    unfold M in Efind. cbn [m_list mk_moment] in Efind. rewrite find_fresh in Efind.
    destruct (is_hxz (bo b)) eqn:Ehxz; [|discriminate]. injection Efind as <-.
    destruct (of_hxz Ho Ehxz) as [Hw Hqb].
    pose proof (seg_app_inv _ _ Hseg) as [q [Hs1 Hs2]].
    pose proof (seg_width Hs1) as Ewq. simpl in Ewq.
    inversion Hs2 as [|p' b' bs' q' Hb0 Hs3]; subst p' b' bs' q'.
    destruct (bok_i Hb0 Hi) as [Eb0 [Ew0 Ek0]].
    assert (Epq : p = q).
    { rewrite Eb0 in Hq. simpl in Hq. rewrite Hqb in Hq. lia. }
    assert (Hseg' : seg dims 0 (bs1 ++ b :: bs2) (length dims)).
    { apply merge_seg with (b0 := b0); [exact Hseg | congruence|]. rewrite <- Ewq, <- Epq. apply (of_ok Ho). }
    eexists. exists (bss0 ++ [bs1 ++ b :: bs2]). split; [exact Eapi|]. split; [|split; [|split]].
    + constructor.
      * apply shaped_set_flow; exact Hsh.
      * exact Hmeas.
      * exists m0, (ms' ++ [set_list (map (@bo S) bs1 ++ bo b :: map (@bo S) bs2) last]).
        split; [reflexivity|]. split; [exact Em0|].
        apply Forall2_app; [exact HF1|]. constructor; [|constructor].
        split; [|exact Hseg']. simpl. rewrite map_app. reflexivity.
    + right. exists bss0, bs1, b0, bs2. split; [exact Ebss|]. split; [reflexivity|]. split; [exact Hi|]. congruence.
    + reflexivity.
    + intros psi s Hs. rewrite Ebss, !vec_snoc.
      rewrite kapply_ext with (K' := fun a t => bsum (fun u => lkern (fresh dims p b) a u *s lkern (bs1 ++ b0 :: bs2) u t) (all_configs dims))
                              (psi' := vec dims psi bss0); auto.
      * rewrite (kapply_comp L). apply kapply_ext; auto.
      * intros u Hu. apply (@merge_kern S L dims bs1 b0 b bs2 p s u Hseg); auto; congruence.
Qed.

Lemma apply_kapply : forall dims g psi s, apply dims g psi s = kapply dims (amp dims g) psi s.
Proof. intros. unfold apply, kapply. symmetry. apply bsum_total. Qed.

Lemma final_ext : forall dims prog psi psi', (forall s, valid dims s -> psi s = psi' s) ->
  forall s, valid dims s -> final dims prog psi s = final (S := S) dims prog psi' s.
Proof.
  intros dims prog; induction prog as [|g prog IH]; intros psi psi' E s Hs; simpl; auto.
  apply IH; auto. intros u Hu. rewrite !apply_kapply. apply kapply_ext; auto.
Qed.

Lemma script_app : forall ks1 ks2 (c : circuit),
  script c (ks1 ++ ks2) = (c' <- script c ks1 ;; script c' ks2).
Proof.
  induction ks1 as [|k ks1 IH]; intros ks2 c; simpl; [reflexivity|].
  destruct (api c k) as [[c' b]|e]; simpl; [apply IH | reflexivity].
Qed.

Lemma script_good : forall dims init ks prog, dims <> [] -> (forall d, In d dims -> 0 < d) ->
  Forall2 (denotes dims) ks prog -> Forall (gate_ok dims) prog ->
  forall bss c, good dims init bss c ->
  exists c' bss', script c ks = Ok c' /\ good dims init bss' c' /\ c_out c' = c_out c /\
    forall psi s, valid dims s -> vec dims psi bss' s = final dims prog (vec dims psi bss) s.
Proof.
  intros dims init ks prog Hne Hpos HF; induction HF as [|k g ks prog Hkg HF IH]; intros Hok bss c Hg.
  - exists c, bss. simpl. auto.
  - inversion Hok as [|g' prog' Hok1 Hok2]; subst.
    destruct (denotes_offers L Hpos Hkg Hok1) as [p [b Ho]].
    destruct (add_gate Hne Hg Ho) as [c1 [bss1 [E1 [Hg1 [_ [Eo1 Ev1]]]]]].
    destruct (IH Hok2 _ _ Hg1) as [c2 [bss2 [E2 [Hg2 [Eo2 Ev2]]]]].
    exists c2, bss2. split; [simpl; rewrite E1; exact E2|]. split; [exact Hg2|].
    split; [congruence|]. intros psi s Hs. rewrite Ev2 by exact Hs. simpl.
    apply final_ext; [|exact Hs]. intros u Hu. rewrite apply_kapply. apply Ev1; exact Hu.
Qed.

(** ** The constructor *)
Lemma init_fold : forall dims init d1 i k A Ka,
  valid dims init -> i + k <= length dims -> repr d1 [] A Ka ->
  exists M,
    fold_left (fun acc h => a <- acc ;; b <- unitary NB h ;; Ok (b_kron a b))
              (map (init_op dims init) (seq i k)) (Ok A) = Ok M /\
    repr (d1 ++ sub dims i k) [] M
      (fun s _ => Ka (firstn (length d1) s) [] *s delta S (sub init i k) (skipn (length d1) s)).
Proof.
  intros dims init d1 i k; revert d1 i; induction k as [|k IH]; intros d1 i A Ka Hv Hik HA; simpl.
  - exists A. split; [reflexivity|]. unfold sub; simpl. rewrite app_nil_r.
    eapply repr_ext; [|exact HA]. intros s t Hs Ht. inversion Ht; subst.
    apply valid_length in Hs. rewrite <- Hs, firstn_all, skipn_all, delta_refl. ring.
  - set (d := nth i dims 0). set (x := nth i init 0).
    set (v := mkmat d 1 (fun r _ => if Nat.eqb r x then s1 else s0) : mat S).
    assert (Rv : repr [d] [] v (fun s _ => delta S [x] s)).
    { constructor; [unfold prodn; simpl; lia | reflexivity|].
      intros s t Hs Ht. apply valid_single in Hs as [y [-> Hy]]. inversion Ht; subst.
      rewrite lin_single. simpl lin. unfold v. rewrite mget_mkmat by lia. unfold delta.
      destruct (y =? x) eqn:E.
      - apply Nat.eqb_eq in E. subst y. rewrite config_eqb_refl. reflexivity.
      - apply Nat.eqb_neq in E. rewrite (proj2 (config_eqb_neq _ _)) by congruence. reflexivity. }
    pose proof (repr_kron HA Rv) as Rk. simpl app in Rk.
    destruct (IH (d1 ++ [d]) (Datatypes.S i) (dkron A v) _ Hv ltac:(lia) Rk) as [M [E R]].
    exists M. split; [exact E|].
    assert (Esub : forall l, i < length l -> sub l i (Datatypes.S k) = nth i l 0 :: sub l (Datatypes.S i) k).
    { intros l Hl. unfold sub. clear -Hl. revert i Hl; induction l as [|y l IH]; intros [|i] Hl; simpl in *; try lia; auto.
      apply IH. lia. }
    rewrite (Esub dims) by lia. fold d. rewrite <- app_assoc in R. simpl app in R.
    eapply repr_ext; [|exact R]. intros s t Hs Ht. inversion Ht; subst. unfold tensor. cbn [length].
    rewrite (Esub init) by (rewrite (valid_length Hv); lia). fold x.
    rewrite app_length. cbn [length].
    pose proof (valid_length Hs) as Hl. rewrite app_length in Hl. simpl in Hl.
    rewrite firstn_firstn. replace (Nat.min (length d1) (length d1 + 1)) with (length d1) by lia.
    rewrite skipn_firstn_comm. replace (length d1 + 1 - length d1) with 1 by lia.
    rewrite <- skipn_skipn'. simpl firstn at 2.
    destruct (skipn (length d1) s) as [|y s'] eqn:Es.
    + apply (f_equal (@length nat)) in Es. rewrite skipn_length in Es. simpl in Es. unfold config in *. lia.
    + simpl. rewrite (delta_cons L x y (sub init (Datatypes.S i) k) s'). ring.
Qed.

Lemma init_exec : forall dims init, dims <> [] -> valid dims init ->
  exists M, moment_exec NB (init_ops dims init) = Ok M /\ repr dims [] M (fun s _ => basis S init s).
Proof.
  intros dims init Hne Hv. unfold init_ops.
  destruct dims as [|d ds]; [contradiction|]. cbn [length seq map moment_exec].
  assert (E1 : exists M, unitary NB (init_op (d :: ds) init 0) = Ok M /\
             repr [d] [] M (fun s _ => delta S [nth 0 init 0] s)).
  { eexists. split; [reflexivity|]. constructor; [unfold prodn; simpl; lia | reflexivity|].
    intros s t Hs Ht. apply valid_single in Hs as [y [-> Hy]]. inversion Ht; subst.
    rewrite lin_single. simpl lin. cbn [b_matrix NumpyBackend nth]. rewrite mget_mkmat by lia. unfold delta.
    destruct (y =? nth 0 init 0) eqn:E.
    - apply Nat.eqb_eq in E. subst y. rewrite config_eqb_refl. reflexivity.
    - apply Nat.eqb_neq in E. rewrite (proj2 (config_eqb_neq _ _)) by congruence. reflexivity. }
  destruct E1 as [M1 [E1 R1]]. rewrite E1. cbn [bind].
  destruct (@init_fold (d :: ds) init [d] 1 (length ds) M1 _ Hv ltac:(simpl; lia) R1) as [M [E R]].
  exists M. split; [exact E|].
  assert (Es : sub (d :: ds) 1 (length ds) = ds) by (unfold sub; simpl; apply firstn_all).
  rewrite Es in R. simpl app in R.
  eapply repr_ext; [|exact R]. intros s t Hs Ht. simpl.
  inversion Hv as [|x d' init' ds' Hx Hv']; subst. inversion Hs as [|y d' s' ds' Hy Hs']; subst.
  assert (Es2 : sub (x :: init') 1 (length ds) = init').
  { unfold sub. simpl. rewrite <- (valid_length Hv'). apply firstn_all. }
  unfold config in *. rewrite Es2. simpl. symmetry. apply (delta_cons L).
Qed.

(** ** Execution *)
Definition exec_step (acc : res (option (mat S))) (m : moment) : res (option (mat S)) :=
  a <- acc ;;
  k <- moment_exec NB (m_list m) ;;
  match a with
  | None => Ok (Some k)
  | Some d => p <- b_dot (b := NB) d k ;; Ok (Some p)
  end.

Lemma exec_layers : forall dims init m0, dims <> [] -> valid dims init -> m_list m0 = init_ops dims init ->
  forall bss ms, Forall2 (layer_of dims) ms bss ->
  forall A Ka, repr dims dims A Ka ->
  exists M, fold_left exec_step (rev (m0 :: ms)) (Ok (Some A)) = Ok (Some M) /\
    repr dims [] M (fun s _ => kapply dims Ka (vec dims (basis S init) bss) s).
Proof.
  intros dims init m0 Hne Hv E0 bss; induction bss as [|bs bss IH] using rev_ind; intros ms HF A Ka RA.
  - inversion HF; subst. simpl. unfold exec_step. rewrite E0.
    destruct (init_exec Hne Hv) as [M0 [EM R0]]. rewrite EM. cbn [bind].
    destruct (repr_dot RA R0) as [M [ED R]]. cbn [b_dot NumpyBackend]. rewrite ED. cbn [bind].
    exists M. split; [reflexivity|]. exact R.
  - apply Forall2_app_inv_r in HF as [ms1 [ms2 [HF1 [HF2 ->]]]].
    inversion HF2 as [|m bs' l1 l2 [Hml Hseg] Hn]; subst. inversion Hn; subst.
    rewrite app_comm_cons, rev_unit. cbn [fold_left]. unfold exec_step at 2.
    cbn [bind]. rewrite Hml. destruct (exec_layer L Hseg Hne) as [Mb [Eb Rb]]. rewrite Eb. cbn [bind].
    destruct (repr_dot RA Rb) as [M1 [ED R1]]. cbn [b_dot NumpyBackend]. rewrite ED. cbn [bind].
    destruct (IH ms1 HF1 M1 _ R1) as [M [EM R]]. exists M. split; [exact EM|].
    eapply repr_ext; [|exact R]. intros s t Hs Ht. simpl.
    rewrite (kapply_comp L). rewrite vec_snoc. reflexivity.
Qed.

Lemma exec_all : forall dims init m0 bss ms, dims <> [] -> valid dims init -> m_list m0 = init_ops dims init ->
  Forall2 (layer_of dims) ms bss ->
  exists M, fold_left exec_step (rev (m0 :: ms)) (Ok None) = Ok (Some M) /\
    repr dims [] M (fun s _ => vec dims (basis S init) bss s).
Proof.
  intros dims init m0 bss ms Hne Hv E0 HF.
  destruct (snoc_cases ms) as [->|[ms' [m ->]]].
  - inversion HF; subst. simpl. unfold exec_step. rewrite E0.
    destruct (init_exec Hne Hv) as [M0 [EM R0]]. rewrite EM. cbn [bind]. exists M0. auto.
  - apply Forall2_snoc_l in HF as [bss' [bs [-> [HF [Hml Hseg]]]]].
    rewrite app_comm_cons, rev_unit. cbn [fold_left]. unfold exec_step at 2. cbn [bind]. rewrite Hml.
    destruct (exec_layer L Hseg Hne) as [Mb [Eb Rb]]. rewrite Eb. cbn [bind].
    destruct (@exec_layers dims init m0 Hne Hv E0 bss' ms' HF Mb _ Rb) as [M [EM R]].
    exists M. split; [exact EM|]. rewrite vec_snoc. exact R.
Qed.

End Refine.
