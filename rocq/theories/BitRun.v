(** * BitRun: a circuit of x, cx and Toffoli gates moves one basis state, with
    any arithmetic that handles 0 and 1 exactly. *)
From Verif Require Import Py Scalar Mat Utils Gates Circuit Spec Calls BitSpec Lib Kern GateMat GateTof Flow Layers Blocks Refine Run Reversible Bits.
Set Implicit Arguments.

Section BitRun.
Variable S : scalar.
Hypothesis BL : bit_laws S.
Notation mat := (mat S).
Notation op := (op S).
Notation NB := (NumpyBackend S).
Notation block := (block S).
Notation circuit := (circuit S).
Notation moment := (moment S).
Notation call := (call S).
Variable B : backend S.
Variable R : nat -> nat -> (nat -> nat) -> B -> Prop.
Hypothesis FB : follows B R.
Notation brep := (brep B R).

(** A block with the function it performs on the levels of its registers. *)
Definition fblock : Type := block * (config -> config).

Record fblk_ok (dims : list nat) (p : nat) (x : fblock) : Prop := {
  fb_ok : blk_ok dims p (fst x);
  fb_u : exists M, unitary B (bo (fst x)) = Ok M /\
         brep (sub dims p (bw (fst x))) (sub dims p (bw (fst x))) (snd x) M;
  fb_i : is_igate (bo (fst x)) = true -> forall s, snd x s = s }.

Inductive fseg (dims : list nat) : nat -> list fblock -> nat -> Prop :=
| fseg_nil : forall p, p <= length dims -> fseg dims p [] p
| fseg_cons : forall p x l q, fblk_ok dims p x -> fseg dims (p + bw (fst x)) l q -> fseg dims p (x :: l) q.

Lemma fseg_seg : forall dims p l q, fseg dims p l q -> seg dims p (map fst l) q.
Proof. intros dims p l q H; induction H; simpl; constructor; auto. apply (fb_ok H). Qed.

Lemma fseg_app : forall dims l1 l2 p q r, fseg dims p l1 q -> fseg dims q l2 r -> fseg dims p (l1 ++ l2) r.
Proof. intros dims l1 l2 p q r H; induction H; intros H2; simpl; auto. constructor; auto. Qed.

Lemma fseg_app_inv : forall dims l1 l2 p r,
  fseg dims p (l1 ++ l2) r -> exists q, fseg dims p l1 q /\ fseg dims q l2 r.
Proof.
  intros dims l1; induction l1 as [|x l1 IH]; intros l2 p r H; simpl in H.
  - exists p. split; [|exact H]. constructor.
    inversion H as [|? ? ? ? H0]; subst; [assumption|]. destruct (fb_ok H0). lia.
  - inversion H as [|p' b' l' r' Hb Hs]; subst. apply IH in Hs as [q [H1 H2]].
    exists q. split; [constructor; assumption | exact H2].
Qed.

Definition fwidth (l : list fblock) : nat := width (map fst l).

Lemma fseg_width : forall dims p l q, fseg dims p l q -> q = p + fwidth l.
Proof. intros dims p l q H. exact (seg_width (fseg_seg H)). Qed.

(** What a layer does to a configuration of its registers. *)
Fixpoint lmove (l : list fblock) (s : config) : config :=
  match l with
  | [] => []
  | x :: l' => snd x (firstn (bw (fst x)) s) ++ lmove l' (skipn (bw (fst x)) s)
  end.

Lemma lmove_app : forall l1 l2 s, fwidth l1 <= length s ->
  lmove (l1 ++ l2) s = lmove l1 (firstn (fwidth l1) s) ++ lmove l2 (skipn (fwidth l1) s).
Proof.
  induction l1 as [|x l1 IH]; intros l2 s Hl; [reflexivity|].
  unfold fwidth in *. cbn [map width fold_right] in *. fold (width (map fst l1)) in *.
  cbn [app lmove]. rewrite IH by (rewrite skipn_length; lia). unfold fwidth.
  rewrite firstn_firstn, skipn_firstn_comm, skipn_skipn'.
  replace (Nat.min (bw (fst x)) (bw (fst x) + width (map fst l1))) with (bw (fst x)) by lia.
  replace (bw (fst x) + width (map fst l1) - bw (fst x)) with (width (map fst l1)) by lia.
  rewrite app_assoc. reflexivity.
Qed.

Lemma sub_app : forall dims p a b, sub dims p a ++ sub dims (p + a) b = sub dims p (a + b).
Proof.
  intros dims p a b. unfold sub. rewrite <- skipn_skipn'.
  rewrite <- (firstn_skipn a (firstn (a + b) (skipn p dims))).
  rewrite firstn_firstn, skipn_firstn_comm.
  replace (Nat.min a (a + b)) with a by lia. replace (a + b - a) with b by lia. reflexivity.
Qed.

Lemma lmove_valid : forall dims p l q, fseg dims p l q -> forall s, valid (sub dims p (fwidth l)) s ->
  valid (sub dims p (fwidth l)) (lmove l s).
Proof.
  intros dims p l q H; induction H as [p Hp|p x l q Hx Hs IH]; intros s Hv.
  - unfold fwidth, sub in *. simpl in *. constructor.
  - unfold fwidth in *. cbn [map width fold_right] in *. fold (width (map fst l)) in *.
    rewrite <- sub_app in *. cbn [lmove].
    assert (El : length (sub dims p (bw (fst x))) = bw (fst x)) by (apply sub_length; apply (fb_ok Hx)).
    pose proof (valid_app_l _ _ Hv) as Va. pose proof (valid_app_r _ _ Hv) as Vb. rewrite El in Va, Vb.
    destruct (fb_u Hx) as [M [_ [HM _]]]. apply valid_app; auto.
Qed.

(** ** Executing layers *)
Lemma ffold_kron : forall dims l p q d1 A f, fseg dims p l q -> brep d1 d1 f A ->
  exists M,
    fold_left (fun acc h => a <- acc ;; b <- unitary B h ;; Ok (b_kron a b)) (map (@bo S) (map fst l)) (Ok A) = Ok M /\
    brep (d1 ++ sub dims p (fwidth l)) (d1 ++ sub dims p (fwidth l))
         (fun s => f (firstn (length d1) s) ++ lmove l (skipn (length d1) s)) M.
Proof.
  intros dims l; induction l as [|x l IH]; intros p q d1 A f Hs HA; simpl.
  - exists A. split; [reflexivity|]. unfold fwidth, sub; simpl. rewrite app_nil_r.
    eapply (brep_ext FB); [|exact HA]. intros s Hs'. apply valid_length in Hs'.
    rewrite <- Hs', firstn_all, app_nil_r. reflexivity.
  - inversion Hs as [|p' b' bs' q' Hb Hs']; subst.
    destruct (fb_u Hb) as [Mb [Eu Rb]]. rewrite Eu. simpl.
    destruct (@IH (p + bw (fst x)) q (d1 ++ sub dims p (bw (fst x))) (b_kron A Mb)
                 (fun s => f (firstn (length d1) s) ++ snd x (skipn (length d1) s)) Hs') as [M [E RM]].
    { exact (brep_kron FB HA Rb). }
    exists M. split; [exact E|].
    rewrite <- app_assoc, sub_app in RM.
    change (fwidth (x :: l)) with (bw (fst x) + fwidth l).
    eapply (brep_ext FB); [|exact RM]. intros s _. cbv beta.
    rewrite app_length, sub_length by (destruct (fb_ok Hb); assumption).
    rewrite <- !skipn_skipn', !skipn_firstn_comm, !firstn_firstn.
    replace (Nat.min (length d1) (length d1 + bw (fst x))) with (length d1) by lia.
    replace (length d1 + bw (fst x) - length d1) with (bw (fst x)) by lia. rewrite <- app_assoc. reflexivity.
Qed.

Lemma fexec_layer : forall dims l, fseg dims 0 l (length dims) -> dims <> [] ->
  exists M, moment_exec B (map (@bo S) (map fst l)) = Ok M /\ brep dims dims (lmove l) M.
Proof.
  intros dims l Hs Hne. pose proof (fseg_width Hs) as Hw.
  destruct l as [|x l].
  - unfold fwidth in Hw. simpl in Hw. destruct dims; [contradiction | simpl in Hw; lia].
  - change (fwidth (x :: l)) with (bw (fst x) + fwidth l) in Hw.
    inversion Hs as [|p' b' bs' q' Hb Hs']; subst. simpl.
    destruct (fb_u Hb) as [Mb [Eu Rb]]. rewrite Eu. simpl.
    destruct (@ffold_kron dims l (0 + bw (fst x)) (length dims) _ Mb (snd x) Hs' Rb) as [M [E RM]].
    exists M. split; [exact E|].
    assert (Ed : sub dims 0 (bw (fst x)) ++ sub dims (0 + bw (fst x)) (fwidth l) = dims).
    { rewrite sub_app. unfold sub. apply firstn_all2. simpl. lia. }
    rewrite Ed in RM. rewrite sub_length in RM by (destruct (fb_ok Hb); assumption). exact RM.
Qed.

(** The first moment. *)
Definition column (d x : nat) : mat := mkmat d 1 (fun r _ => if Nat.eqb r x then s1 else s0).

Lemma column_brep : forall d x, x < d -> brep [d] [] (fun _ => [x]) (b_matrix (column d x)).
Proof.
  intros d x Hx. split.
  - intros s _. constructor; [exact Hx | constructor].
  - apply (fo_mat FB). constructor.
    + unfold column, prodn. simpl. lia.
    + reflexivity.
    + intros j Hj. rewrite lin_single. unfold prodn. simpl. lia.
    + intros i j Hi Hj. rewrite lin_single. unfold prodn in *. simpl in *. unfold column.
      rewrite mget_mkmat by lia. rewrite (Nat.eqb_sym x i). reflexivity.
Qed.

Lemma sub_cons : forall (l : list nat) i k, i < length l -> sub l i (Datatypes.S k) = nth i l 0 :: sub l (Datatypes.S i) k.
Proof.
  intros l i k Hl. unfold sub. revert i Hl; induction l as [|y l IH]; intros [|i] Hl; simpl in *; try lia; auto.
  apply IH. lia.
Qed.

Lemma finit_fold : forall dims init k d1 i A s0',
  valid dims init -> i + k <= length dims -> brep d1 [] (fun _ => s0') A ->
  exists M,
    fold_left (fun acc h => a <- acc ;; b <- unitary B h ;; Ok (b_kron a b))
              (map (init_op S dims init) (seq i k)) (Ok A) = Ok M /\
    brep (d1 ++ sub dims i k) [] (fun _ => s0' ++ sub init i k) M.
Proof.
  intros dims init k; induction k as [|k IH]; intros d1 i A s0' Hv Hik HA; simpl.
  - exists A. split; [reflexivity|]. unfold sub; simpl. rewrite !app_nil_r. exact HA.
  - assert (Hx : nth i init 0 < nth i dims 0) by (apply (valid_level Hv); lia).
    pose proof (brep_kron FB HA (column_brep Hx)) as Rk. simpl app in Rk.
    destruct (IH (d1 ++ [nth i dims 0]) (Datatypes.S i) _ _ Hv ltac:(lia) Rk) as [M [E RM]].
    exists M. split; [exact E|].
    rewrite (sub_cons dims) by lia.
    pose proof (valid_length Hv) as Hl. unfold config in *.
    rewrite (sub_cons init) by lia.
    rewrite <- !app_assoc in RM. exact RM.
Qed.

Lemma finit_exec : forall dims init, dims <> [] -> valid dims init ->
  exists M, moment_exec B (init_ops S dims init) = Ok M /\ brep dims [] (fun _ => init) M.
Proof.
  intros dims init Hne Hv. unfold init_ops.
  destruct dims as [|d ds]; [contradiction|]. cbn [length seq map moment_exec].
  inversion Hv as [|x d' init' ds' Hx Hv']; subst.
  assert (R1 : brep [d] [] (fun _ => [x]) (b_matrix (column d x))) by (apply column_brep; exact Hx).
  change (unitary B (init_op S (d :: ds) (x :: init') 0)) with (Ok (b_matrix (b := B) (column d x))). cbn [bind].
  destruct (@finit_fold (d :: ds) (x :: init') (length ds) [d] 1 _ [x] Hv ltac:(simpl; lia) R1) as [M [E RM]].
  exists M. split; [exact E|].
  assert (Es : sub (d :: ds) 1 (length ds) = ds) by (unfold sub; simpl; apply firstn_all).
  assert (Es2 : sub (x :: init') 1 (length ds) = init').
  { unfold sub. simpl. rewrite <- (valid_length Hv'). apply firstn_all. }
  unfold config in *. rewrite Es, Es2 in RM. exact RM.
Qed.

Definition fexec_step (acc : res (option B)) (m : moment) : res (option B) :=
  a <- acc ;;
  k <- moment_exec B (m_list m) ;;
  match a with
  | None => Ok (Some k)
  | Some d => p <- b_dot d k ;; Ok (Some p)
  end.

Definition flayer_of (dims : list nat) (m : moment) (l : list fblock) : Prop :=
  m_list m = map (@bo S) (map fst l) /\ fseg dims 0 l (length dims).

(** What a list of layers does. *)
Definition lmoves (ls : list (list fblock)) (s : config) : config := fold_left (fun s l => lmove l s) ls s.

Lemma lmoves_snoc : forall ls l s, lmoves (ls ++ [l]) s = lmove l (lmoves ls s).
Proof. intros. unfold lmoves. rewrite fold_left_app. reflexivity. Qed.

Lemma flayer_valid : forall dims l s, fseg dims 0 l (length dims) -> valid dims s -> valid dims (lmove l s).
Proof.
  intros dims l s H Hs. pose proof (lmove_valid H) as G. pose proof (fseg_width H) as Hw. simpl in Hw.
  assert (E : sub dims 0 (fwidth l) = dims) by (unfold sub; simpl; rewrite <- Hw; apply firstn_all).
  rewrite E in G. apply G, Hs.
Qed.

Lemma flayers_valid : forall dims ls ms, Forall2 (flayer_of dims) ms ls -> forall s, valid dims s -> valid dims (lmoves ls s).
Proof.
  intros dims ls ms H; induction H as [|m l ms ls [_ Hl] HF IH]; intros s Hs; [exact Hs|].
  apply IH. apply flayer_valid; assumption.
Qed.

Lemma fexec_layers : forall dims init m0, dims <> [] -> valid dims init -> m_list m0 = init_ops S dims init ->
  forall ls ms, Forall2 (flayer_of dims) ms ls ->
  forall A f, brep dims dims f A ->
  exists M, fold_left fexec_step (rev (m0 :: ms)) (Ok (Some A)) = Ok (Some M) /\
    brep dims [] (fun _ => f (lmoves ls init)) M.
Proof.
  intros dims init m0 Hne Hv E0 ls; induction ls as [|l ls IH] using rev_ind; intros ms HF A f RA.
  - inversion HF; subst. simpl. unfold fexec_step. rewrite E0.
    destruct (finit_exec Hne Hv) as [M0 [EM R0]]. rewrite EM. cbn [bind].
    destruct (brep_dot FB RA R0) as [M [ED RM]]. rewrite ED. cbn [bind].
    exists M. split; [reflexivity|]. exact RM.
  - apply Forall2_app_inv_r in HF as [ms1 [ms2 [HF1 [HF2 ->]]]].
    inversion HF2 as [|m l' l1 l2 [Hml Hseg] Hn]; subst. inversion Hn; subst.
    rewrite app_comm_cons, rev_unit. cbn [fold_left]. unfold fexec_step at 2.
    cbn [bind]. rewrite Hml. destruct (fexec_layer Hseg Hne) as [Mb [Eb Rb]]. rewrite Eb. cbn [bind].
    destruct (brep_dot FB RA Rb) as [M1 [ED R1]]. rewrite ED. cbn [bind].
    destruct (IH ms1 HF1 M1 _ R1) as [M [EM RM]]. exists M. split; [exact EM|].
    rewrite lmoves_snoc. exact RM.
Qed.

Lemma fexec_all : forall dims init m0 ls ms, dims <> [] -> valid dims init -> m_list m0 = init_ops S dims init ->
  Forall2 (flayer_of dims) ms ls ->
  exists M, fold_left fexec_step (rev (m0 :: ms)) (Ok None) = Ok (Some M) /\
    brep dims [] (fun _ => lmoves ls init) M.
Proof.
  intros dims init m0 ls ms Hne Hv E0 HF.
  destruct (snoc_cases ms) as [->|[ms' [m ->]]].
  - inversion HF; subst. simpl. unfold fexec_step. rewrite E0.
    destruct (finit_exec Hne Hv) as [M0 [EM R0]]. rewrite EM. cbn [bind]. exists M0. auto.
  - apply Forall2_snoc_l in HF as [ls' [l [-> [HF [Hml Hseg]]]]].
    rewrite app_comm_cons, rev_unit. cbn [fold_left]. unfold fexec_step at 2. cbn [bind]. rewrite Hml.
    destruct (fexec_layer Hseg Hne) as [Mb [Eb Rb]]. rewrite Eb. cbn [bind].
    destruct (@fexec_layers dims init m0 Hne Hv E0 ls' ms' HF Mb _ Rb) as [M [EM RM]].
    exists M. split; [exact EM|]. rewrite lmoves_snoc. exact RM.
Qed.

(** ** Adding one gate *)
Definition fid (dims : list nat) (i : nat) : fblock := (idblk S dims i, fun s => s).
Definition ffresh (dims : list nat) (p : nat) (x : fblock) : list fblock :=
  map (fid dims) (seq 0 p) ++ x :: map (fid dims) (seq (p + bw (fst x)) (length dims - (p + bw (fst x)))).

Lemma map_fst_fid : forall dims l, map fst (map (fid dims) l) = map (idblk S dims) l.
Proof. intros dims l. rewrite map_map. apply map_ext. reflexivity. Qed.

Lemma ffresh_fst : forall dims p x, map fst (ffresh dims p x) = fresh dims p (fst x).
Proof. intros. unfold ffresh, fresh, idblocks. rewrite map_app. cbn [map]. rewrite !map_fst_fid. reflexivity. Qed.

Lemma fid_ok : forall dims i, i < length dims -> fblk_ok dims i (fid dims i).
Proof.
  intros dims i Hi. constructor; simpl.
  - apply idblk_ok, Hi.
  - eexists. split; [reflexivity|]. rewrite Nat2Z.id, sub_1 by exact Hi.
    pose proof (brep_eye FB [nth i dims 0]) as H. change (prodn [nth i dims 0]) with (nth i dims 0 * 1) in H.
    rewrite Nat.mul_1_r in H. exact H.
  - reflexivity.
Qed.

Lemma fids_seg : forall dims k p, p + k <= length dims -> fseg dims p (map (fid dims) (seq p k)) (p + k).
Proof.
  intros dims k; induction k as [|k IH]; intros p H; simpl.
  - rewrite Nat.add_0_r. constructor. lia.
  - replace (p + Datatypes.S k) with (Datatypes.S p + k) by lia. constructor; [apply fid_ok; lia|].
    simpl. replace (p + 1) with (Datatypes.S p) by lia. apply IH. lia.
Qed.

Lemma ffresh_seg : forall dims p x, fblk_ok dims p x -> fseg dims 0 (ffresh dims p x) (length dims).
Proof.
  intros dims p x Hx. destruct (fb_ok Hx). unfold ffresh. eapply fseg_app.
  - apply (@fids_seg dims p 0). lia.
  - constructor; [exact Hx|]. simpl.
    replace (length dims) with (p + bw (fst x) + (length dims - (p + bw (fst x)))) at 2 by lia.
    apply fids_seg. lia.
Qed.

Lemma fids_width : forall dims k p, fwidth (map (fid dims) (seq p k)) = k.
Proof. intros. unfold fwidth. rewrite map_fst_fid. apply idblocks_width. Qed.

Lemma fids_move : forall dims k p s, length s = k -> lmove (map (fid dims) (seq p k)) s = s.
Proof.
  intros dims k; induction k as [|k IH]; intros p s Hs; destruct s as [|x s]; try discriminate; [reflexivity|].
  cbn [seq map lmove]. cbn [fid fst snd idblk bw firstn skipn app]. rewrite IH by (simpl in Hs; lia). reflexivity.
Qed.

Lemma ffresh_move : forall dims p x s, p + bw (fst x) <= length dims -> length s = length dims ->
  lmove (ffresh dims p x) s
  = firstn p s ++ snd x (firstn (bw (fst x)) (skipn p s)) ++ skipn (p + bw (fst x)) s.
Proof.
  intros dims p x s Hp Hs. unfold ffresh. rewrite lmove_app by (rewrite fids_width; lia).
  rewrite fids_width, fids_move by (rewrite firstn_length; lia). cbn [lmove].
  rewrite skipn_skipn', fids_move by (rewrite skipn_length; lia). reflexivity.
Qed.

Record foffers (dims : list nat) (k : call) (mv : config -> config) (p : nat) (x : fblock) : Prop := {
  fof_ok : fblk_ok dims p x;
  fof_i : is_igate (bo (fst x)) = false;
  fof_hxz : is_hxz (bo (fst x)) = true -> bw (fst x) = 1 /\ qreg_of (bo (fst x)) = Z.of_nat p;
  fof_mv : forall t, valid dims t ->
     mv t = firstn p t ++ snd x (firstn (bw (fst x)) (skipn p t)) ++ skipn (p + bw (fst x)) t;
  fof_api : forall c, shaped dims c ->
     exists rv : bool -> bool, (rv true = true) /\
     api c k = ('(f, r) <- populate_opflow (c_flow c)
                             (mk_moment (length (f_list (c_flow c))) (map (@bo S) (fresh dims p (fst x)))) ;;
                Ok (set_flow c f, rv r)) }.

Record fgood (dims : list nat) (init : config) (ls : list (list fblock)) (c : circuit) : Prop := {
  fg_shaped : shaped dims c;
  fg_meas : f_meas (c_flow c) = repeat false (length dims);
  fg_list : exists m0 ms, f_list (c_flow c) = m0 :: ms /\ m_list m0 = init_ops S dims init /\
            Forall2 (flayer_of dims) ms ls }.

Lemma fgood_good : forall dims init ls c, fgood dims init ls c -> good dims init (map (map fst) ls) c.
Proof.
  intros dims init ls c [H1 H2 [m0 [ms [E [E0 HF]]]]]. constructor; auto. exists m0, ms. split; [exact E|]. split; [exact E0|].
  clear E. induction HF as [|m l ms ls [Hm Hl] HF IH]; simpl; constructor; auto.
  split; [exact Hm | apply fseg_seg, Hl].
Qed.

(** Putting a gate in the place of an identity. *)
Lemma merge_move : forall dims l1 x0 x l2 s, fseg dims 0 (l1 ++ x0 :: l2) (length dims) ->
  (forall u, snd x0 u = u) -> bw (fst x) = bw (fst x0) -> valid dims s ->
  let p := fwidth l1 in let t := lmove (l1 ++ x0 :: l2) s in
  lmove (l1 ++ x :: l2) s = firstn p t ++ snd x (firstn (bw (fst x)) (skipn p t)) ++ skipn (p + bw (fst x)) t.
Proof.
  intros dims l1 x0 x l2 s Hseg Hid Hw Hs p t.
  pose proof (fseg_width Hseg) as Hlen. simpl in Hlen.
  apply fseg_app_inv in Hseg as [q [H1 H2]]. pose proof (fseg_width H1) as Eq. simpl in Eq. subst q.
  inversion H2 as [|p' x' l' q' Hx0 H3]; subst p' x' l' q'.
  pose proof (valid_length Hs) as Ls.
  assert (Hbw : fwidth l1 + bw (fst x0) <= length dims) by apply (fb_ok Hx0).
  assert (L1 : length (lmove l1 (firstn (fwidth l1) s)) = fwidth l1).
  { assert (V : valid (sub dims 0 (fwidth l1)) (firstn (fwidth l1) s)) by (unfold sub; simpl; apply valid_firstn, Hs).
    apply (lmove_valid H1) in V. rewrite (valid_length V). apply sub_length. lia. }
  unfold t, p. unfold config in *.
  rewrite !lmove_app by lia. cbn [lmove]. rewrite Hid, Hw.
  set (a := lmove l1 (firstn (fwidth l1) s)) in *.
  set (m := firstn (bw (fst x0)) (skipn (fwidth l1) s)).
  set (b := lmove l2 (skipn (bw (fst x0)) (skipn (fwidth l1) s))).
  assert (Lm : length m = bw (fst x0)) by (unfold m; rewrite firstn_length, skipn_length; unfold config in *; rewrite Ls; lia).
  rewrite (@firstn_app_exact nat a _ _ L1), (@skipn_app_exact nat a _ _ L1), (@firstn_app_exact nat m _ _ Lm).
  assert (Eb : skipn (fwidth l1 + bw (fst x0)) (a ++ m ++ b) = b).
  { rewrite app_assoc. apply skipn_app_exact. rewrite app_length. unfold config in *. lia. }
  unfold config in *. rewrite Eb. unfold m, b. rewrite ?Hw.
  reflexivity.
Qed.

Lemma fadd_gate : forall dims init ls c k mv p x,
  dims <> [] -> valid dims init -> fgood dims init ls c -> foffers dims k mv p x ->
  exists c' ls', api c k = Ok (c', true) /\ fgood dims init ls' c' /\ c_out c' = c_out c /\
    lmoves ls' init = mv (lmoves ls init).
Proof.
  intros dims init ls c k mv p x Hne Hv Hg Ho.
  destruct Hg as [Hsh Hmeas [m0 [ms [El [Em0 HF]]]]].
  destruct (fof_api Ho Hsh) as [rv [Hrv Eapi]].
  set (M := mk_moment (length (f_list (c_flow c))) (map (@bo S) (fresh dims p (fst x)))) in *.
  pose proof (ffresh_seg (fof_ok Ho)) as Hfseg.
  assert (Hn : 0 < length dims) by (destruct dims; [contradiction | simpl; lia]).
  assert (Hmf : forallb (fun b => b) (f_meas (c_flow c)) = false) by (rewrite Hmeas; apply all_false_meas; exact Hn).
  assert (Hnm : forallb (fun o => negb (is_meas o)) (m_list M) = true).
  { pose proof (fseg_seg Hfseg) as Hs0. rewrite ffresh_fst in Hs0. exact (seg_no_meas Hs0). }
  assert (Hpw : p + bw (fst x) <= length dims) by apply (fb_ok (fof_ok Ho)).
  (* appending *)
  assert (Happend : forall before last, f_list (c_flow c) = before ++ [last] ->
     (forall h, find (@is_hxz S) (m_list M) = Some h ->
        zmem (qreg_of h) (map (@qreg_of S) (filter (@is_igate S) (m_list last))) = false) ->
     exists c' ls', api c k = Ok (c', true) /\ fgood dims init ls' c' /\ c_out c' = c_out c /\
       lmoves ls' init = mv (lmoves ls init)).
  { intros before last Elast Hno.
    pose proof (@populate_append _ (c_flow c) before last M Elast Hmf Hnm Hno) as EP.
    rewrite EP in Eapi. cbn [bind] in Eapi. rewrite Hrv in Eapi.
    eexists. exists (ls ++ [ffresh dims p x]). split; [exact Eapi|]. split; [|split].
    - constructor.
      + apply shaped_set_flow; exact Hsh.
      + exact Hmeas.
      + cbn [set_flow c_flow f_list].
        assert (HL : flayer_of dims (set_prev (m_name last) M) (ffresh dims p x)).
        { split; [|exact Hfseg]. rewrite ffresh_fst. reflexivity. }
        rewrite El in Elast. destruct before as [|x' before]; simpl in Elast; injection Elast as -> ->.
        * exists (set_next (m_name M) last), [set_prev (m_name last) M]. simpl. split; [reflexivity|].
          split; [exact Em0|]. inversion HF; subst. simpl. constructor; [exact HL | constructor].
        * exists x', (before ++ [set_next (m_name M) last; set_prev (m_name last) M]).
          split; [reflexivity|]. split; [exact Em0|].
          apply Forall2_snoc_l in HF as [ls0 [l [-> [HF1 HF2]]]].
          rewrite <- app_assoc. apply Forall2_app; [exact HF1|]. simpl.
          constructor; [exact HF2|]. constructor; [exact HL | constructor].
    - reflexivity.
    - pose proof (flayers_valid HF Hv) as Hvl. rewrite lmoves_snoc, (fof_mv Ho Hvl).
      apply ffresh_move; [exact Hpw | apply (valid_length Hvl)]. }
  destruct (snoc_cases ms) as [->|[ms' [last ->]]].
  - inversion HF; subst. apply (Happend [] m0 El).
    intros h _. rewrite Em0, no_igates_init. reflexivity.
  - rewrite app_comm_cons in El.
    apply Forall2_snoc_l in HF as [ls0 [l [Els [HF1 [Hml Hseg]]]]].
    destruct (find (@is_hxz S) (m_list M)) as [h|] eqn:Efind.
    2: { apply (Happend (m0 :: ms') last El). congruence. }
    destruct (zmem (qreg_of h) (map (@qreg_of S) (filter (@is_igate S) (m_list last)))) eqn:Ez.
    2: { apply (Happend (m0 :: ms') last El). intros h' E'. injection E' as <-. exact Ez. }
    rewrite Hml in Ez. apply igates_in in Ez as [bs1 [b0 [bs2 [Emap [Hi Hq]]]]].
    apply map_eq_app in Emap as [l1 [l2' [-> [E1 E2]]]].
    destruct l2' as [|x0 l2]; [discriminate|]. cbn [map] in E2. injection E2 as E2 E3.
    assert (Hml' : m_list last = map (@bo S) (bs1 ++ b0 :: bs2)).
    { rewrite Hml, map_app. cbn [map]. rewrite E1, E2, E3. reflexivity. }
    assert (Hseg' : seg dims 0 (bs1 ++ b0 :: bs2) (length dims)).
    { pose proof (fseg_seg Hseg) as H. rewrite map_app in H. cbn [map] in H. rewrite E1, E2, E3 in H. exact H. }
    pose proof (@populate_merge _ (c_flow c) (m0 :: ms') last M h bs1 b0 bs2 dims El Hmf Efind Hml' Hseg' Hi Hq) as EP.
    rewrite EP in Eapi. cbn [bind] in Eapi. rewrite Hrv in Eapi.
    unfold M in Efind. cbn [m_list mk_moment] in Efind. rewrite find_fresh in Efind.
    destruct (is_hxz (bo (fst x))) eqn:Ehxz; [|discriminate]. injection Efind as <-.
    destruct (fof_hxz Ho Ehxz) as [Hw Hqb].
    pose proof (fseg_app_inv _ _ Hseg) as [q [Hs1 Hs2]].
    pose proof (fseg_width Hs1) as Ewq. simpl in Ewq.
    inversion Hs2 as [|p' b' bs' q' Hb0 Hs3]; subst p' b' bs' q'.
    destruct (bok_i (fb_ok Hb0)) as [Eb0 [Ew0 Ek0]]; [rewrite E2; exact Hi|].
    assert (Epq : p = q).
    { rewrite <- E2, Eb0 in Hq. simpl in Hq. rewrite Hqb in Hq. lia. }
    assert (Hid : forall u, snd x0 u = u) by (apply (fb_i Hb0); rewrite E2; exact Hi).
    assert (Hfs : fseg dims 0 (l1 ++ x :: l2) (length dims)).
    { eapply fseg_app; [exact Hs1|]. constructor; [rewrite <- Epq; apply (fof_ok Ho)|].
      rewrite Hw, <- Ew0. exact Hs3. }
    assert (Hvl : valid dims (lmoves ls0 init)) by (eapply flayers_valid; eassumption).
    eexists. exists (ls0 ++ [l1 ++ x :: l2]). split; [exact Eapi|]. split; [|split].
    + constructor.
      * apply shaped_set_flow; exact Hsh.
      * exact Hmeas.
      * exists m0, (ms' ++ [set_list (map (@bo S) bs1 ++ bo (fst x) :: map (@bo S) bs2) last]).
        split; [reflexivity|]. split; [exact Em0|].
        apply Forall2_app; [exact HF1|]. constructor; [|constructor].
        split; [|exact Hfs]. simpl. rewrite !map_app. cbn [map]. rewrite E1, E3. reflexivity.
    + reflexivity.
    + rewrite Els, !lmoves_snoc.
      assert (Hvt : valid dims (lmove (l1 ++ x0 :: l2) (lmoves ls0 init))) by (apply flayer_valid; assumption).
      rewrite (fof_mv Ho Hvt). rewrite Epq, Ewq.
      apply (@merge_move dims l1 x0 x l2 (lmoves ls0 init) Hseg Hid); [congruence | exact Hvl].
Qed.

(** ** The calls *)
Lemma dense_repr : forall rd cd f (M : mat), Bits.brep NB (@fmat S) rd cd f M -> repr rd cd M (classical S f).
Proof.
  intros rd cd f M [Hf [H1 H2 H3 H4]]. constructor; auto.
  intros s t Hs Ht. rewrite H4 by (apply lin_lt; assumption). rewrite unlin_lin by exact Ht. unfold classical, bit.
  destruct (config_eqb (f t) s) eqn:E.
  - apply config_eqb_eq in E. rewrite E, Nat.eqb_refl. reflexivity.
  - apply config_eqb_neq in E. destruct (Nat.eqb_spec (lin rd (f t)) (lin rd s)) as [F|F]; [|reflexivity].
    exfalso. apply E. eapply lin_inj; [apply Hf, Ht | exact Hs | exact F].
Qed.

Lemma dense_ok : forall ds (o : op) f,
  (exists M, unitary NB o = Ok M /\ Bits.brep NB (@fmat S) ds ds f M) ->
  exists M, unitary NB o = Ok M /\ repr ds ds M (classical S f).
Proof. intros ds o f [M [E H]]. exists M. split; [exact E | apply dense_repr, H]. Qed.

Lemma foffers_x : forall dims r dm p, gate_ok dims (GX (S := S) r p) -> dflt dims r dm ->
  exists p' x, foffers dims (CX (Z.of_nat r) dm p) (move_x dims r p) p' x.
Proof.
  intros dims r dm p [Hr Hp] Hd. set (d := nth r dims 0) in *.
  set (b := {| bo := OX (Z.of_nat r) (Z.of_nat d) p; bw := 1; bk := classical S (move_x [d] 0 p) |} : block).
  exists r, (b, move_x [d] 0 p). constructor; cbn [fst snd].
  - constructor; cbn [fst snd].
    + apply single_ok; auto. fold d. apply dense_ok. apply (x_brep (dense_follows BL)). exact Hp.
    + cbn [bo bw b]. rewrite sub_1 by exact Hr. fold d. apply (x_brep FB). exact Hp.
    + discriminate.
  - reflexivity.
  - intros _. auto.
  - intros t Ht. cbn [bw b]. pose proof (@sub_1 dims r Hr) as E4. fold d in E4. rewrite <- E4.
    replace r with (r + 0) at 1 by lia. apply move_x_mid; rewrite ?(valid_length Ht); lia.
  - intros c Hc. exists (fun x => x). split; [reflexivity|]. cbn [api].
    rewrite (validate1_ok Hc Hr Hd), (dims_or_ok Hc Hr Hd). cbn [bind].
    apply (@add_moment_int S dims c r b); auto.
Qed.

Lemma foffers_cx : forall dims c t p, (forall d, In d dims -> 0 < d) -> gate_ok dims (GCX (S := S) c t p) ->
  exists p' x, foffers dims (CCX [Z.of_nat c; Z.of_nat t] p) (move_cx dims c t p) p' x.
Proof.
  intros dims c t p Hpos [Hc Ht].
  set (lo := Nat.min c t). set (hi := Nat.max c t). set (w := hi - lo + 1). set (ds := sub dims lo w).
  assert (Hds : forall d, In d ds -> 0 < d).
  { intros d Hd. apply Hpos. unfold ds, sub in Hd. apply In_nth with (d := 0) in Hd as [i [Hi <-]].
    rewrite firstn_length, skipn_length in Hi. rewrite nth_firstn', nth_skipn' by lia. apply nth_In. lia. }
  assert (Lds : length ds = w) by (apply sub_length; unfold w, lo, hi; lia).
  assert (G : forall (B' : backend S) R', follows B' R' ->
     exists M, unitary B' (OCX (map Z.of_nat ds) [Z.of_nat c; Z.of_nat t] p) = Ok M /\
               Bits.brep B' R' ds ds (move_cx ds (c - lo) (t - lo) p) M).
  { intros B' R' F'. apply (cx_brep BL F'); auto.
    1,2: unfold w, lo, hi in *; lia.
    1,2: destruct (Z.of_nat c <? Z.of_nat t)%Z eqn:El; [apply Z.ltb_lt in El | apply Z.ltb_ge in El]; unfold lo; lia. }
  set (b := {| bo := OCX (map Z.of_nat ds) [Z.of_nat c; Z.of_nat t] p; bw := w;
               bk := classical S (move_cx ds (c - lo) (t - lo) p) |}).
  exists lo, (b, move_cx ds (c - lo) (t - lo) p). constructor; cbn [fst snd].
  - constructor; cbn [fst snd].
    + pose proof (@dense_ok _ _ _ (G _ _ (dense_follows BL))) as Gd.
      constructor; simpl; try (unfold w, lo, hi in *; lia).
      * exact Gd.
      * exists [Z.of_nat c; Z.of_nat t]. split; [reflexivity|]. intros q Hq. apply zmem_spec in Hq.
        destruct Hq as [<-|[<-|[]]]; unfold w, lo, hi; lia.
    + apply (G _ _ FB).
    + discriminate.
  - reflexivity.
  - discriminate.
  - intros u Hu. cbn [bw b].
    assert (Hl : lo + w <= length u) by (rewrite (valid_length Hu); unfold w, lo, hi; lia).
    replace c with (lo + (c - lo)) at 1 by (unfold lo; lia).
    replace t with (lo + (t - lo)) at 1 by (unfold lo; lia).
    apply move_cx_mid; try exact Hl; unfold w, lo, hi; lia.
  - intros ct Hct. exists (fun x => x). split; [reflexivity|]. cbn [api].
    change (py_get [Z.of_nat c; Z.of_nat t] 0) with (Ok (Z.of_nat c)).
    change (py_get [Z.of_nat c; Z.of_nat t] 1) with (Ok (Z.of_nat t)). cbn [bind].
    assert (Es : forall a z, a <= z -> z < length dims ->
              py_slice (c_dims ct) (Z.of_nat a) (Z.of_nat z + 1) = map Z.of_nat (sub dims a (z - a + 1))).
    { intros a z Haz Hz. rewrite (sh_dims Hct). unfold py_slice, py_clip. rewrite map_length.
      replace (Z.of_nat a <? 0)%Z with false by (symmetry; apply Z.ltb_ge; lia).
      replace (Z.of_nat z + 1 <? 0)%Z with false by (symmetry; apply Z.ltb_ge; lia).
      replace (Nat.min (Z.to_nat (Z.of_nat z + 1)) (length dims) - Nat.min (Z.to_nat (Z.of_nat a)) (length dims))
        with (z - a + 1) by lia.
      replace (Nat.min (Z.to_nat (Z.of_nat a)) (length dims)) with a by lia.
      rewrite skipn_map, firstn_map. reflexivity. }
    assert (Eds : (if (Z.of_nat c <? Z.of_nat t)%Z
                   then py_slice (c_dims ct) (Z.of_nat c) (Z.of_nat t + 1)
                   else py_slice (c_dims ct) (Z.of_nat t) (Z.of_nat c + 1)) = map Z.of_nat ds).
    { destruct (Z.of_nat c <? Z.of_nat t)%Z eqn:El; [apply Z.ltb_lt in El | apply Z.ltb_ge in El];
      rewrite Es by lia; unfold ds, w, lo, hi; repeat f_equal; lia. }
    rewrite Eds. apply (@add_moment_list S dims ct lo hi [Z.of_nat c; Z.of_nat t] b); auto; try (unfold lo, hi; lia).
    + apply (@py_min_nat [c; t] lo); unfold lo; simpl; [lia|]. intros y [<-|[<-|[]]]; lia.
    + apply (@py_max_nat [c; t] hi); unfold hi; simpl; [lia|]. intros y [<-|[<-|[]]]; lia.
Qed.

Lemma foffers_tof : forall dims cs t p, (forall d, In d dims -> 0 < d) -> gate_ok dims (GTof (S := S) cs t p) ->
  exists p' x, foffers dims (CTof (map Z.of_nat cs) (Z.of_nat t) p) (move_tof dims cs t p) p' x.
Proof.
  intros dims cs t p Hpos [Hcs [Ht [Hnin Hsp]]].
  destruct (@nat_bounds (cs ++ [t])) as [lo [hi [Hlo [Hhi Hb]]]]; [destruct cs; discriminate|].
  assert (Hhi' : hi < length dims).
  { apply in_app_or in Hhi as [H|[<-|[]]]; [apply Hcs; exact H | exact Ht]. }
  assert (Hlh : lo <= hi) by (apply (Hb _ Hlo)).
  assert (Hspan : hi - lo + 1 <> 2).
  { intros E. apply Hsp. exists lo.
    assert (Hin : forall x, In x (cs ++ [t]) <-> In x (t :: cs)).
    { intros x. rewrite in_app_iff. simpl. tauto. }
    split; [apply Hin; exact Hlo|]. split.
    - apply Hin. replace (lo + 1) with hi by lia. exact Hhi.
    - intros x Hx. apply Hin in Hx. specialize (Hb _ Hx). lia. }
  set (w := hi - lo + 1) in *. set (ds := sub dims lo w).
  destruct (@mk_toffoli_spec S dims cs t p lo hi Hb Hlo Hhi Hhi' Hpos) as [u [Emk [E1 [E2 Ru]]]].
  fold w in Emk, E1, E2, Ru. fold ds in Emk, E1, E2, Ru.
  set (mv := move_tof ds (map (fun c => c - lo) cs) (t - lo) p) in *.
  set (o := OTof (map Z.of_nat cs) (Z.of_nat t) p (map Z.of_nat ds) (map Z.of_nat (seq lo w)) u) in *.
  assert (G : forall (B' : backend S) R', follows B' R' ->
     exists M, unitary B' o = Ok M /\ Bits.brep B' R' ds ds mv M).
  { intros B' R' F'. exact (@tof_brep S BL B' R' F' dims cs t p lo hi Hb Hhi' Hnin Hspan
                              (map Z.of_nat (seq lo w)) u E1 E2 Ru). }
  set (b := {| bo := o; bw := w; bk := classical S mv |}).
  assert (Hbt : lo <= t <= hi) by (apply Hb, in_or_app; right; left; reflexivity).
  assert (Hbc : forall c, In c cs -> lo <= c <= hi) by (intros c Hc; apply Hb, in_or_app; left; exact Hc).
  exists lo, (b, mv). constructor; cbn [fst snd].
  - constructor; cbn [fst snd].
    + pose proof (@dense_ok _ _ _ (G _ _ (dense_follows BL))) as Gd.
      constructor; simpl; try (unfold w in *; lia).
      * exact Gd.
      * exists [Z.of_nat t]. split; [reflexivity|]. intros q Hq. apply zmem_single in Hq. unfold w. lia.
    + apply (G _ _ FB).
    + discriminate.
  - reflexivity.
  - discriminate.
  - intros v Hv. cbn [bw b].
    assert (Hl : lo + w <= length v) by (rewrite (valid_length Hv); unfold w; lia).
    apply move_tof_mid; try exact Hl; [|unfold w; lia].
    intros c Hc. specialize (Hbc c Hc). unfold w. lia.
  - intros c Hc. exists (fun _ => true). split; [reflexivity|]. cbn [api].
    rewrite (sh_qregs Hc). cbn [qregs_list]. rewrite Emk. cbn [bind].
    unfold o at 1. cbv iota. change (add_moment c (RList (map Z.of_nat (seq lo w))) o)
      with (add_moment c (RList (map Z.of_nat (seq lo w))) (bo b)).
    rewrite (@add_moment_list S dims c lo hi (map Z.of_nat (seq lo w)) b); auto.
    + destruct (populate_opflow _ _) as [[f r]|e]; reflexivity.
    + apply (@py_min_nat (seq lo w) lo); [apply in_seq; unfold w; lia|]. intros y Hy. apply in_seq in Hy. lia.
    + apply (@py_max_nat (seq lo w) hi); [apply in_seq; unfold w; lia|].
      intros y Hy. apply in_seq in Hy. unfold w in Hy. lia.
Qed.

Lemma denotes_foffers : forall dims k g, (forall d, In d dims -> 0 < d) ->
  denotes dims k g -> gate_ok dims g -> is_classical g = true -> exists p x, foffers dims k (move dims g) p x.
Proof.
  intros dims k g Hpos Hd Hg Hc. destruct Hd; try discriminate.
  - apply foffers_x; assumption.
  - apply foffers_cx; assumption.
  - apply foffers_tof; assumption.
Qed.

Lemma fscript : forall dims init ks prog, dims <> [] -> (forall d, In d dims -> 0 < d) -> valid dims init ->
  Forall2 (denotes dims) ks prog -> Forall (gate_ok dims) prog -> forallb (@is_classical S) prog = true ->
  forall ls c, fgood dims init ls c ->
  exists c' ls', script c ks = Ok c' /\ fgood dims init ls' c' /\ c_out c' = c_out c /\
    lmoves ls' init = moves dims prog (lmoves ls init).
Proof.
  intros dims init ks prog Hne Hpos Hv HF; induction HF as [|k g ks prog Hkg HF IH]; intros Hok Hcl ls c Hg.
  - exists c, ls. simpl. auto.
  - inversion Hok as [|g' prog' Hok1 Hok2]; subst. simpl in Hcl. apply andb_true_iff in Hcl as [Hc1 Hc2].
    destruct (denotes_foffers Hpos Hkg Hok1 Hc1) as [p [x Ho]].
    destruct (fadd_gate Hne Hv Hg Ho) as [c1 [ls1 [E1 [Hg1 [Eo1 Ev1]]]]].
    destruct (IH Hok2 Hc2 _ _ Hg1) as [c2 [ls2 [E2 [Hg2 [Eo2 Ev2]]]]].
    exists c2, ls2. split; [simpl; rewrite E1; exact E2|]. split; [exact Hg2|].
    split; [congruence|]. rewrite Ev2, Ev1. reflexivity.
Qed.

(** ** Running *)
Lemma fanswer : forall dims s, valid dims s -> answer dims (basis S s) = [(s, s1)].
Proof.
  intros dims s Hs. unfold answer.
  rewrite (@filter_unique _ _ _ s).
  - simpl. unfold basis. rewrite config_eqb_refl. reflexivity.
  - apply all_configs_NoDup.
  - apply in_all_configs. exact Hs.
  - intros t _. unfold basis. destruct (config_eqb s t) eqn:E.
    + apply config_eqb_eq in E. rewrite (bl_eqb10 BL). simpl. split; congruence.
    + apply config_eqb_neq in E. rewrite (bl_eqb00 BL). simpl. split; congruence.
Qed.

Lemma frun : forall dims init ls (c : circuit) ty me,
  dims <> [] -> valid dims init -> fgood dims init ls c ->
  c_out c = {| o_base := map Z.of_nat dims; o_type := ty; o_method := me |} ->
  exists c', api c CMeasureAll = Ok (c', true) /\ run B c' = Ok [(shown ty (lmoves ls init), s1)].
Proof.
  intros dims init ls c ty me Hne Hv Hg Hout.
  destruct (measure_all_good Hne (fgood_good Hg)) as [c' [before [last [mm [Eapi [Eo [Elast [Efl Em]]]]]]]].
  exists c'. split; [exact Eapi|].
  destruct Hg as [Hsh Hmeas [m0 [ms [El [Em0 HF]]]]].
  unfold run, flow_exec. rewrite Em, Efl.
  replace (before ++ [set_next (length (f_list (c_flow c))) last; mm])
    with ((before ++ [set_next (length (f_list (c_flow c))) last]) ++ [mm]) by (rewrite <- app_assoc; reflexivity).
  rewrite rev_unit.
  assert (Hshape : exists m0' ms', before ++ [set_next (length (f_list (c_flow c))) last] = m0' :: ms' /\
            m_list m0' = init_ops S dims init /\ Forall2 (flayer_of dims) ms' ls).
  { rewrite El in Elast. destruct before as [|x before]; simpl in Elast; injection Elast as -> ->.
    - eexists. exists []. split; [reflexivity|]. split; [exact Em0|]. exact HF.
    - exists x. eexists. split; [reflexivity|]. split; [exact Em0|].
      apply Forall2_snoc_l in HF as [ls0 [l [-> [HF1 HF2]]]].
      apply Forall2_app; [exact HF1|]. constructor; [exact HF2 | constructor]. }
  destruct Hshape as [m0' [ms' [Es [Em0' HF']]]]. rewrite Es.
  destruct (fexec_all _ Hne Hv Em0' HF') as [M [EM [_ RM]]].
  match goal with |- context [fold_left ?f ?l ?a] =>
    change (fold_left f l a) with (@fold_left (res (option B)) _ fexec_step l (Ok None)) end.
  rewrite EM. cbn [bind]. rewrite Eo, Hout.
  pose proof (flayers_valid HF Hv) as Hvl.
  assert (Hr : repr dims [] (b_toarray M) (fun s _ => basis S (lmoves ls init) s)).
  { pose proof (fo_arr FB _ _ _ _ RM) as HM. exact (@dense_repr dims [] (fun _ => lmoves ls init) (b_toarray M) (conj (fun _ _ => Hvl) HM)). }
  rewrite (@output_any S dims _ _ _ Hr), labelled_own by reflexivity. cbn [o_type o_method].
  rewrite (fanswer Hvl). unfold report. simpl. destruct me; simpl; rewrite ?(bl_mul11 BL); reflexivity.
Qed.

Theorem fsimulate : forall dims levels out ty me ks prog,
  dims <> [] -> (forall d, In d dims -> 2 <= d) ->
  length levels <= length dims -> valid dims (start dims levels) ->
  wants dims out ty me ->
  Forall2 (denotes dims) ks prog -> Forall (gate_ok dims) prog -> forallb (@is_classical S) prog = true ->
  simulate B (QList (map Z.of_nat dims)) (Some (map Z.of_nat levels)) out ks
  = Ok [(shown ty (moves dims prog (start dims levels)), s1)].
Proof.
  intros dims levels out ty me ks prog Hne Hd Hlen Hv Hw HF Hok Hcl.
  assert (Hpos : forall d, In d dims -> 0 < d) by (intros d H; specialize (Hd d H); lia).
  destruct (@mk_circuit_good S dims levels out Hd Hlen Hv) as [c0 [E0 [Hg0 Eo0]]].
  assert (Hf0 : fgood dims (start dims levels) [] c0).
  { destruct Hg0 as [H1 H2 [m0 [ms [El [Em0 HF0]]]]]. constructor; auto. exists m0, ms. inversion HF0; subst. auto. }
  unfold simulate. rewrite E0. cbn [bind]. rewrite script_app.
  destruct (fscript Hne Hpos Hv HF Hok Hcl Hf0) as [c1 [ls1 [E1 [Hg1 [Eo1 Ev1]]]]].
  rewrite E1. cbn [bind].
  destruct (@frun dims _ ls1 c1 ty me Hne Hv Hg1) as [c2 [E2 Er]].
  { rewrite Eo1, Eo0. destruct Hw as [->|[-> [-> ->]]]; reflexivity. }
  cbn [script]. rewrite E2. cbn [bind]. rewrite Er, Ev1. reflexivity.
Qed.

End BitRun.
