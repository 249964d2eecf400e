(** * AliasRun: running circuits whose cx gates share a list with the caller. *)
From Coq Require Import String.
From Verif Require Import Py Scalar Mat Utils Gates Circuit Spec Calls Lib Kern GateMat GateTof Flow Layers Blocks Refine Run
  Alias AliasSpec AliasLib.
Set Implicit Arguments.
Local Notation length := List.length.

Section AliasRun.
Variable S : scalar.
Hypothesis L : scalar_laws S.
Add Ring Sring : (sl_ring L).
Notation op := (op S).
Notation NB := (NumpyBackend S).
Notation block := (block S).
Notation circuit := (circuit S).
Notation moment := (moment S).
Notation call := (call S).
Notation kapply := (kapply S).
Infix "*s" := (@smul S) (at level 40, left associativity).

(** The contents of the shared list when the circuit runs. *)
Variable v : list Z.

Definition late_error : exn := match v with [_; _] => IndexError | _ => ValueError end.

(** A gate as a function of the contents of the shared list, with a block that
    stands for it at the end. *)
Definition sblock : Type := ((list Z -> op) * block)%type.
Definition const (b : block) : sblock := (fun _ => bo b, b).

Definition whole (sb : sblock) : Prop := unitary NB (fst sb v) = unitary NB (bo (snd sb)).
Definition broken (sb : sblock) : Prop := unitary NB (fst sb v) = Err late_error.

Record sb_ok (sb : sblock) : Prop := {
  so_acts : forall l, is_ok (acting_members (fst sb l)) = true;
  so_i : forall l, is_igate (fst sb l) = true -> forall l', fst sb l' = bo (snd sb);
  so_u : whole sb \/ broken sb }.

Record slayer (dims : list nat) (marks : list (nat * nat)) (cur : list Z) (k : nat) (ops : list op) (sbs : list sblock) : Prop := {
  sl_now : ops = map (fun sb => fst sb cur) sbs;
  sl_then : forall l, retarget_ops marks l k ops = map (fun sb => fst sb l) sbs;
  sl_seg : seg dims 0 (map snd sbs) (length dims);
  sl_ok : Forall sb_ok sbs }.

Inductive slayers (dims : list nat) (marks : list (nat * nat)) (cur : list Z) : nat -> list (list op) -> list (list sblock) -> Prop :=
| sls_nil : forall k, slayers dims marks cur k [] []
| sls_cons : forall k ops ls sbs sbss, slayer dims marks cur k ops sbs -> slayers dims marks cur (Datatypes.S k) ls sbss ->
    slayers dims marks cur k (ops :: ls) (sbs :: sbss).

Lemma slayers_snoc : forall dims marks cur ls k ops sbss sbs, slayers dims marks cur k ls sbss ->
  slayer dims marks cur (k + length ls) ops sbs -> slayers dims marks cur k (ls ++ [ops]) (sbss ++ [sbs]).
Proof.
  intros dims marks cur ls k ops sbss sbs H; induction H as [k|k o ls s ss H1 H2 IH]; intros Hs; simpl in *.
  - rewrite Nat.add_0_r in Hs. constructor; [exact Hs | constructor].
  - constructor; [exact H1|]. apply IH. rewrite <- Nat.add_succ_r. exact Hs.
Qed.

Lemma slayers_snoc_inv : forall dims marks cur ls k ops X, slayers dims marks cur k (ls ++ [ops]) X ->
  exists sbss sbs, X = sbss ++ [sbs] /\ slayers dims marks cur k ls sbss /\ slayer dims marks cur (k + length ls) ops sbs.
Proof.
  intros dims marks cur ls; induction ls as [|o ls IH]; intros k ops X H; simpl in H.
  - inversion H as [|k' o' l' s ss H1 H2]; subst. inversion H2; subst. exists [], s. simpl. rewrite Nat.add_0_r. repeat split; auto; try constructor; apply H1.
  - inversion H as [|k' o' l' s ss H1 H2]; subst. destruct (IH _ _ _ H2) as [sbss [sbs [-> [H3 H4]]]].
    exists (s :: sbss), sbs. split; [reflexivity|]. split; [constructor; assumption|].
    simpl. rewrite Nat.add_succ_r. exact H4.
Qed.

Lemma slayers_length : forall dims marks cur k ls sbss, slayers dims marks cur k ls sbss -> length sbss = length ls.
Proof. intros dims marks cur k ls sbss H; induction H; simpl; auto. Qed.

(** A mark on a later layer changes nothing. *)
Lemma retarget_ops_later : forall marks n j l k (ops : list op), k < n ->
  retarget_ops ((n, j) :: marks) l k ops = retarget_ops marks l k ops.
Proof.
  intros marks n j l k ops H. unfold retarget_ops.
  assert (E : forall q, holds ((n, j) :: marks) k q = holds marks k q).
  { intros q. unfold holds. cbn [existsb fst snd]. replace (n =? k) with false by (symmetry; apply Nat.eqb_neq; lia). reflexivity. }
  generalize 0 as q. induction ops as [|o ops IH]; intros q; cbn [mapi_from]; [reflexivity|]. rewrite E, IH. reflexivity.
Qed.

Lemma slayers_mark : forall dims marks cur n j k ls sbss, slayers dims marks cur k ls sbss -> k + length ls <= n ->
  slayers dims ((n, j) :: marks) cur k ls sbss.
Proof.
  intros dims marks cur n j k ls sbss H; induction H as [k|k o ls s ss H1 H2 IH]; intros Hn; simpl in *; constructor.
  - destruct H1 as [A1 A2 A3 A4]. constructor; auto. intros l. rewrite retarget_ops_later by lia. apply A2.
  - apply IH. lia.
Qed.

Lemma slayers_edit : forall dims marks cur l k ls sbss, slayers dims marks cur k ls sbss ->
  slayers dims marks l k (mapi_from (retarget_ops marks l) k ls) sbss.
Proof.
  intros dims marks cur l k ls sbss H; induction H as [k|k o ls s ss H1 H2 IH]; simpl; constructor; [|exact IH].
  destruct H1 as [A1 A2 A3 A4]. constructor; auto. intros l'. rewrite retarget_ops_twice. apply A2.
Qed.

Record sgood (dims : list nat) (init : config) (sbss : list (list sblock)) (st : shared S) : Prop := {
  sg_shaped : shaped dims (h_circuit st);
  sg_meas : f_meas (c_flow (h_circuit st)) = repeat false (length dims);
  sg_list : exists ls, map (@m_list S) (f_list (c_flow (h_circuit st))) = init_ops S dims init :: ls /\
            slayers dims (h_marks st) (h_list st) 1 ls sbss;
  sg_marks : forall m, In m (h_marks st) -> fst m < length (f_list (c_flow (h_circuit st))) }.

Definition blocks_of (sbss : list (list sblock)) : list (list block) := map (map snd) sbss.
Definition all_sb (P : sblock -> Prop) (sbss : list (list sblock)) : Prop := Forall (Forall P) sbss.
Definition some_sb (P : sblock -> Prop) (sbss : list (list sblock)) : Prop := Exists (Exists P) sbss.

Lemma const_ok : forall b, is_ok (acting_members (bo b)) = true -> sb_ok (const b).
Proof. intros b H. constructor; [intros l; exact H | reflexivity | left; reflexivity]. Qed.

Lemma seg_acts : forall dims p bs q, seg dims p bs q -> Forall sb_ok (map const bs).
Proof.
  intros dims p bs q H; induction H as [p Hp|p b bs q Hb Hs IH]; simpl; constructor; [|exact IH].
  apply const_ok. destruct (bok_acts Hb) as [a [-> _]]. reflexivity.
Qed.

Lemma whole_const : forall bs, Forall whole (map const bs).
Proof. induction bs; simpl; constructor; [reflexivity | assumption]. Qed.

Lemma map_const_bo : forall bs l, map (fun sb : sblock => fst sb l) (map const bs) = map (@bo S) bs.
Proof. intros bs l. rewrite map_map. reflexivity. Qed.
Lemma map_const_snd : forall bs, map snd (map const bs) = bs.
Proof. intros bs. rewrite map_map. apply map_id. Qed.

Lemma acts_layer : forall dims marks cur k ops sbs, slayer dims marks cur k ops sbs ->
  forall o, In o ops -> is_ok (acting_members o) = true.
Proof.
  intros dims marks cur k ops sbs [-> _ _ H] o Ho. apply in_map_iff in Ho as [sb [<- Hsb]].
  rewrite Forall_forall in H. apply (so_acts (H sb Hsb)).
Qed.

(** ** Adding a layer *)
Lemma snoc_map : forall A B (f : A -> B) l ls x, map f l = ls ++ [x] -> exists l' y, l = l' ++ [y] /\ map f l' = ls /\ f y = x.
Proof.
  intros A B f l ls x E. destruct (snoc_cases l) as [->|[l' [y ->]]]; [destruct ls; discriminate|].
  rewrite map_app in E. apply app_inj_tail in E as [E1 E2]. eauto.
Qed.

(** What an own call does. *)
Lemma call_step : forall dims init sbss st k g p b, dims <> [] -> sgood dims init sbss st -> offers dims k g p b ->
  exists st' sbss', perform st (ACall k) = Ok st' /\ sgood dims init sbss' st' /\
    h_list st' = h_list st /\ c_out (h_circuit st') = c_out (h_circuit st) /\
    (all_sb whole sbss -> all_sb whole sbss') /\ (some_sb broken sbss -> some_sb broken sbss') /\
    forall psi s, valid dims s -> vec dims psi (blocks_of sbss') s = kapply dims (amp dims g) (vec dims psi (blocks_of sbss)) s.
Proof.
  intros dims init sbss st k g p b Hne [Hsh Hmeas [ls [Els Hls]] Hmk] Ho.
  destruct st as [c cur marks]. cbn [h_circuit h_list h_marks] in *.
  destruct (of_api Ho Hsh) as [rv [Hrv Eapi]].
  set (M := mk_moment (length (f_list (c_flow c))) (map (@bo S) (fresh dims p b))) in *.
  pose proof (fresh_seg (of_ok Ho)) as Hfseg.
  assert (Hamp : forall s t, valid dims s -> valid dims t -> lkern (fresh dims p b) s t = amp dims g s t).
  { intros s t Hs Ht. symmetry. apply (of_amp Ho); assumption. }
  assert (Hn : 0 < length dims) by (destruct dims; [contradiction | simpl; lia]).
  assert (Hmf : forallb (fun b => b) (f_meas (c_flow c)) = false) by (rewrite Hmeas; apply all_false_meas; exact Hn).
  assert (Hnm : forallb (fun o => negb (is_meas o)) (m_list M) = true) by (apply (seg_no_meas Hfseg)).
  destruct (snoc_cases (f_list (c_flow c))) as [E|[before [last Elast]]]; [rewrite E in Els; discriminate|].
  assert (Hacts : filter (@is_igate S) (m_list last) = [] \/ forall o, In o (m_list last) -> is_ok (acting_members o) = true).
  { rewrite Elast, map_app in Els. cbn [map] in Els. destruct (map (@m_list S) before) as [|x xs] eqn:Eb; simpl in Els.
    - injection Els as -> _. left. apply no_igates_init.
    - injection Els as -> <-. right. apply slayers_snoc_inv in Hls as [ss [sb [_ [_ Hl]]]]. exact (acts_layer Hl). }
  destruct (@populate_cases S (c_flow c) before last M Elast Hmf Hnm Hacts) as [EP|[h [l1 [o [l2 [Efind [Elo [Hi [Hq EP]]]]]]]]];
    rewrite EP in Eapi; cbn [bind] in Eapi; rewrite Hrv in Eapi; cbn [perform h_circuit h_list h_marks]; rewrite Eapi; cbn [bind].
  - (* appended *)
    eexists. exists (sbss ++ [map const (fresh dims p b)]). split; [reflexivity|]. split; [|split; [|split; [|split; [|split]]]]; cbn [h_circuit h_list h_marks].
    + constructor; cbn [h_circuit h_list h_marks set_flow c_flow f_list f_meas].
      * apply shaped_set_flow; exact Hsh.
      * exact Hmeas.
      * exists (ls ++ [map (@bo S) (fresh dims p b)]). split.
        -- rewrite map_app. cbn [map set_next set_prev m_list M mk_moment]. rewrite app_comm_cons, <- Els, Elast, map_app, <- app_assoc. reflexivity.
        -- apply slayers_snoc; [exact Hls|].
           assert (Eln : 1 + length ls = length (f_list (c_flow c))) by (rewrite <- (map_length (@m_list S)), Els; reflexivity).
           constructor.
           ++ rewrite map_const_bo. reflexivity.
           ++ intros l. rewrite map_const_bo. apply retarget_ops_unmarked. intros m Hm. specialize (Hmk m Hm). lia.
           ++ rewrite map_const_snd. exact Hfseg.
           ++ apply (seg_acts Hfseg).
      * intros m Hm. specialize (Hmk m Hm). rewrite Elast in Hmk. rewrite app_length in *. simpl in *. lia.
    + reflexivity.
    + reflexivity.
    + intros H. apply Forall_app. split; [exact H|]. constructor; [apply whole_const | constructor].
    + intros H. apply Exists_app. left. exact H.
    + intros psi s Hs. unfold blocks_of. rewrite map_app. cbn [map]. rewrite map_const_snd, vec_snoc. apply kapply_ext; auto.
  - (* merged *)
    unfold M in Efind. cbn [m_list mk_moment] in Efind. rewrite find_fresh in Efind.
    destruct (is_hxz (bo b)) eqn:Ehxz; [|discriminate]. injection Efind as <-.
    destruct (of_hxz Ho Ehxz) as [Hw Hqb].
    assert (Hls' : exists ls0, ls = ls0 ++ [m_list last] /\ map (@m_list S) before = init_ops S dims init :: ls0).
    { rewrite Elast, map_app in Els. cbn [map] in Els. destruct (map (@m_list S) before) as [|x xs] eqn:Eb; simpl in Els.
      - injection Els as E _. pose proof (no_igates_init S dims init) as Hno. rewrite <- E, Elo, filter_app in Hno. cbn [filter] in Hno. rewrite Hi in Hno.
        destruct (filter (@is_igate S) l1); discriminate.
      - injection Els as -> <-. eauto. }
    destruct Hls' as [ls0 [-> Ebef]].
    apply slayers_snoc_inv in Hls as [sbss0 [sbs [-> [Hls0 Hl]]]].
    destruct Hl as [A1 A2 A3 A4]. rewrite Elo in A1, A2.
    symmetry in A1. apply map_eq_app in A1 as [s1 [s2' [-> [B1 B2]]]]. destruct s2' as [|s0 s2]; [discriminate|].
    cbn [map] in B2. injection B2 as B2 B3.
    assert (Hs0 : sb_ok s0) by (rewrite Forall_forall in A4; apply A4, in_or_app; right; left; reflexivity).
    assert (Ec : forall l', fst s0 l' = bo (snd s0)) by (apply (so_i Hs0 cur); rewrite B2; exact Hi).
    assert (Eo : o = bo (snd s0)) by (rewrite <- (Ec cur); symmetry; exact B2).
    rewrite map_app in A3. cbn [map] in A3.
    pose proof (seg_app_inv _ _ A3) as [q [Hs1 Hs2]].
    pose proof (seg_width Hs1) as Ewq. simpl in Ewq.
    inversion Hs2 as [|p' b' bs' q' Hb0 Hs3]; subst p' b' bs' q'.
    assert (Hib : is_igate (bo (snd s0)) = true) by (rewrite <- Eo; exact Hi).
    destruct (bok_i Hb0 Hib) as [Eb0 [Ew0 Ek0]].
    assert (Epq : p = q).
    { rewrite Eo, Eb0 in Hq. simpl in Hq. rewrite Hqb in Hq. lia. }
    assert (Hseg' : seg dims 0 (map snd s1 ++ b :: map snd s2) (length dims)).
    { apply merge_seg with (b0 := snd s0); [exact A3 | congruence|]. rewrite <- Ewq, <- Epq. apply (of_ok Ho). }
    eexists. exists (sbss0 ++ [s1 ++ const b :: s2]). split; [reflexivity|]. split; [|split; [|split; [|split; [|split]]]]; cbn [h_circuit h_list h_marks].
    + constructor; cbn [h_circuit h_list h_marks set_flow c_flow f_list f_meas].
      * apply shaped_set_flow; exact Hsh.
      * exact Hmeas.
      * exists (ls0 ++ [l1 ++ bo b :: l2]). split.
        -- rewrite map_app. cbn [map set_list m_list]. rewrite Ebef. reflexivity.
        -- apply slayers_snoc; [exact Hls0|]. constructor.
           ++ rewrite map_app. cbn [map const fst]. rewrite B1, B3. reflexivity.
           ++ intros l. rewrite map_app. cbn [map]. change (fst (const b) l) with (bo b).
              apply retarget_ops_put with (x := o).
              ** destruct o; try discriminate; reflexivity.
              ** destruct (bo b); try discriminate; reflexivity.
              ** rewrite map_length, <- (map_length (fun sb => fst sb cur) s1), B1. reflexivity.
              ** rewrite A2, map_app. cbn [map]. rewrite Ec, <- Eo. reflexivity.
           ++ rewrite map_app. exact Hseg'.
           ++ apply Forall_app in A4 as [A4 A5]. inversion A5; subst. apply Forall_app. split; [exact A4|]. constructor; [|assumption].
              apply const_ok. destruct (bok_acts (of_ok Ho)) as [a [-> _]]. reflexivity.
      * intros m Hm. specialize (Hmk m Hm). rewrite Elast in Hmk. rewrite app_length in *. simpl in *. lia.
    + reflexivity.
    + reflexivity.
    + intros H. apply Forall_app in H as [H1 H2]. inversion H2 as [|x y H3 _]; subst. apply Forall_app in H3 as [H3 H4]. inversion H4; subst.
      apply Forall_app. split; [exact H1|]. constructor; [|constructor]. apply Forall_app. split; [exact H3|]. constructor; [reflexivity | assumption].
    + intros H. apply Exists_app in H as [H|H]; apply Exists_app; [left; exact H | right].
      inversion H as [x y H'|x y H']; subst; [|inversion H']. left. apply Exists_app in H' as [H'|H']; apply Exists_app; [left; exact H' | right].
      inversion H' as [x y H''|x y H'']; subst; [|right; exact H''].
      exfalso. unfold broken in H''. rewrite Ec in H''. destruct (bok_u Hb0) as [Mx [EM _]]. rewrite EM in H''. discriminate.
    + intros psi s Hs. unfold blocks_of. rewrite !map_app. cbn [map]. rewrite !map_app. cbn [map]. change (snd (const b)) with b.
      rewrite !vec_snoc.
      rewrite kapply_ext with (K' := fun a t => bsum (fun u => lkern (fresh dims p b) a u *s lkern (map snd s1 ++ snd s0 :: map snd s2) u t) (all_configs dims))
                              (psi' := vec dims psi (map (map snd) sbss0)); auto.
      * rewrite (kapply_comp L). apply kapply_ext; auto.
      * intros u Hu. apply (@merge_kern S L dims (map snd s1) (snd s0) b (map snd s2) p s u A3); auto; congruence.
Qed.

(** An edit. *)
Lemma map_retarget : forall marks l fl k,
  map (@m_list S) (mapi_from (@retarget_moment S marks l) k fl) = mapi_from (retarget_ops marks l) k (map (@m_list S) fl).
Proof. intros marks l fl; induction fl as [|m fl IH]; intros k; simpl; [reflexivity|]. rewrite IH. reflexivity. Qed.

Lemma edit_step : forall dims init sbss st l, sgood dims init sbss st ->
  exists st', perform st (AEdit l) = Ok st' /\ sgood dims init sbss st' /\
    h_list st' = l /\ c_out (h_circuit st') = c_out (h_circuit st).
Proof.
  intros dims init sbss st l [Hsh Hmeas [ls [Els Hls]] Hmk]. eexists. split; [reflexivity|]. cbn [h_circuit h_list h_marks].
  split; [|split; reflexivity]. constructor; cbn [h_circuit h_list h_marks set_flow c_flow f_list f_meas retarget_flow].
  - apply shaped_set_flow; exact Hsh.
  - exact Hmeas.
  - exists (mapi_from (retarget_ops (h_marks st) l) 1 ls). split; [|apply (slayers_edit l Hls)].
    rewrite map_retarget, Els. cbn [mapi_from]. f_equal. apply retarget_ops_other. intros o Ho.
    unfold init_ops in Ho. apply in_map_iff in Ho as [i [<- _]]. reflexivity.
  - intros m Hm. rewrite mapi_length. apply Hmk, Hm.
Qed.

(** ** The shared cx *)
Lemma cx_rows_diff : forall q (x y x' y' : Z) p, (x - y = x' - y')%Z -> cx_rows S q [x; y] p = cx_rows S q [x'; y'] p.
Proof.
  intros q x y x' y' p E. unfold cx_rows.
  replace (x' <? y')%Z with (x <? y)%Z by (destruct (Z.ltb_spec x y); destruct (Z.ltb_spec x' y'); lia).
  replace (x' - y')%Z with (x - y)%Z by exact E. replace (y' - x')%Z with (y - x)%Z by lia. reflexivity.
Qed.

Lemma cx_diff : forall q (x y x' y' : Z) p, (x - y = x' - y')%Z ->
  unitary NB (OCX q [x; y] p) = unitary NB (OCX q [x'; y'] p).
Proof. intros q x y x' y' p E. cbn [unitary]. rewrite (cx_rows_diff q x y x' y' p E). reflexivity. Qed.

Lemma py_get_past : forall A (l : list A) i, (Z.of_nat (length l) <= i)%Z -> py_get l i = Err IndexError.
Proof.
  intros A l i H. unfold py_get, py_index.
  replace (0 <=? i)%Z with true by (symmetry; apply Z.leb_le; lia).
  replace (i <? Z.of_nat (length l))%Z with false by (symmetry; apply Z.ltb_ge; lia).
  cbn. replace (i <? 0)%Z with false by (symmetry; apply Z.ltb_ge; lia). destruct (- Z.of_nat (length l) <=? i)%Z; reflexivity.
Qed.

Section Shared.
Variable dims : list nat.
Hypothesis Hpos : forall d, In d dims -> 0 < d.
Variables a b : nat.
Hypothesis Ha : a < length dims.
Hypothesis Hb : b < length dims.
Variable p : Z.
Let lo := Nat.min a b.
Let hi := Nat.max a b.
Let w := hi - lo + 1.
Let ds := sub dims lo w.

Definition near (si ti : nat) : block :=
  {| bo := OCX (map Z.of_nat ds) [Z.of_nat (lo + si); Z.of_nat (lo + ti)] p; bw := w;
     bk := classical S (move_cx ds si ti p) |}.

Lemma ds_pos : forall d, In d ds -> 0 < d.
Proof.
  intros d Hd. apply Hpos. unfold ds, sub in Hd. apply In_nth with (d := 0) in Hd as [i [Hi <-]].
  rewrite firstn_length, skipn_length in Hi. rewrite nth_firstn', nth_skipn' by lia. apply nth_In. lia.
Qed.
Lemma ds_length : length ds = w.
Proof. apply sub_length. unfold w, lo, hi. lia. Qed.

Lemma near_ok : forall si ti, si < w -> ti < w -> si = 0 \/ ti = 0 -> blk_ok dims lo (near si ti).
Proof.
  intros si ti Hsi Hti Hz.
  destruct (@repr_cx S L ds (Z.of_nat (lo + si)) (Z.of_nat (lo + ti)) p si ti ds_pos) as [M [E R]].
  1,2: rewrite ds_length; assumption.
  1,2: destruct (Z.ltb_spec (Z.of_nat (lo + si)) (Z.of_nat (lo + ti))); lia.
  assert (HU : exists M, unitary NB (bo (near si ti)) = Ok M /\ repr (sub dims lo (bw (near si ti))) (sub dims lo (bw (near si ti))) M (bk (near si ti))).
  { exists M. split; [exact E | exact R]. }
  constructor; [cbn; unfold w; lia | cbn; unfold w, lo, hi; lia | exact HU | | discriminate | reflexivity].
  eexists. split; [reflexivity|]. intros q Hq. apply zmem_spec in Hq. cbn [bw near]. destruct Hq as [<-|[<-|[]]]; lia.
Qed.

Lemma near_amp : forall si ti, si < w -> ti < w -> forall s u, valid dims s -> valid dims u ->
  amp dims (GCX (S := S) (lo + si) (lo + ti) p) s u = lkern (fresh dims lo (near si ti)) s u.
Proof.
  intros si ti Hsi Hti s u Hs Hu.
  rewrite (fresh_kern L) by (cbn; assumption || (unfold w, lo, hi; lia)). cbn [amp bw bk near].
  assert (Hl : lo + w <= length u) by (rewrite (valid_length Hu); unfold w, lo, hi; lia).
  apply embed_classical.
  - exact L.
  - pose proof (valid_length Hs) as H1. pose proof (valid_length Hu) as H2. unfold config in *. lia.
  - exact Hl.
  - unfold move_cx, move_x. destruct (top _ _ _); rewrite ?put_length, firstn_length, skipn_length; lia.
  - apply move_cx_mid; assumption.
Qed.

Definition now : block := {| bo := OCX (map Z.of_nat ds) [Z.of_nat a; Z.of_nat b] p; bw := w; bk := delta S |}.

Lemma shared_api : forall c : circuit, shaped dims c ->
  api c (CCX [Z.of_nat a; Z.of_nat b] p)
  = ('(f, r) <- populate_opflow (c_flow c)
                  (mk_moment (length (f_list (c_flow c))) (map (@bo S) (fresh dims lo now))) ;;
     Ok (set_flow c f, r)).
Proof.
  intros ct Hct. cbn [api].
  change (py_get [Z.of_nat a; Z.of_nat b] 0) with (Ok (Z.of_nat a)).
  change (py_get [Z.of_nat a; Z.of_nat b] 1) with (Ok (Z.of_nat b)). cbn [bind].
  assert (Es : forall x z, x <= z -> z < length dims ->
            py_slice (c_dims ct) (Z.of_nat x) (Z.of_nat z + 1) = map Z.of_nat (sub dims x (z - x + 1))).
  { intros x z Hxz Hz. rewrite (sh_dims Hct). unfold py_slice, py_clip. rewrite map_length.
    replace (Z.of_nat x <? 0)%Z with false by (symmetry; apply Z.ltb_ge; lia).
    replace (Z.of_nat z + 1 <? 0)%Z with false by (symmetry; apply Z.ltb_ge; lia).
    replace (Nat.min (Z.to_nat (Z.of_nat z + 1)) (length dims) - Nat.min (Z.to_nat (Z.of_nat x)) (length dims))
      with (z - x + 1) by lia.
    replace (Nat.min (Z.to_nat (Z.of_nat x)) (length dims)) with x by lia.
    rewrite skipn_map, firstn_map. reflexivity. }
  assert (Eds : (if (Z.of_nat a <? Z.of_nat b)%Z
                 then py_slice (c_dims ct) (Z.of_nat a) (Z.of_nat b + 1)
                 else py_slice (c_dims ct) (Z.of_nat b) (Z.of_nat a + 1)) = map Z.of_nat ds).
  { destruct (Z.of_nat a <? Z.of_nat b)%Z eqn:El; [apply Z.ltb_lt in El | apply Z.ltb_ge in El];
    rewrite Es by lia; unfold ds, w, lo, hi; repeat f_equal; lia. }
  rewrite Eds. change (OCX (map Z.of_nat ds) [Z.of_nat a; Z.of_nat b] p) with (bo now).
  apply (@add_moment_list S dims ct lo hi [Z.of_nat a; Z.of_nat b] now); auto; try (unfold lo, hi; lia).
  - apply (@py_min_nat [a; b] lo); unfold lo; simpl; [lia|]. intros y [<-|[<-|[]]]; lia.
  - apply (@py_max_nat [a; b] hi); unfold hi; simpl; [lia|]. intros y [<-|[<-|[]]]; lia.
Qed.

Definition linked (si ti : nat) : sblock := (fun l => OCX (map Z.of_nat ds) l p, near si ti).
Definition slinked (si ti : nat) : list sblock :=
  map const (idblocks S dims 0 lo) ++ linked si ti :: map const (idblocks S dims (lo + w) (length dims - (lo + w))).

Lemma slinked_snd : forall si ti, map snd (slinked si ti) = fresh dims lo (near si ti).
Proof. intros si ti. unfold slinked. rewrite map_app. cbn [map]. rewrite !map_const_snd. reflexivity. Qed.

Lemma id_cx : forall i k o, In o (map (@bo S) (idblocks S dims i k)) -> is_cx o = false.
Proof. intros i k o Ho. apply in_map_iff in Ho as [x [<- Hx]]. unfold idblocks in Hx. apply in_map_iff in Hx as [j [<- _]]. reflexivity. Qed.

Lemma id_first : forall k i (os : list op), first_cx (map (@bo S) (idblocks S dims i k) ++ os) = k + first_cx os.
Proof. induction k as [|k IH]; intros i os; [reflexivity|]. cbn. f_equal. apply (IH (Datatypes.S i) os). Qed.

Lemma shared_step : forall init sbss st si ti, dims <> [] -> sgood dims init sbss st -> h_list st = [Z.of_nat a; Z.of_nat b] ->
  si < w -> ti < w -> si = 0 \/ ti = 0 -> whole (linked si ti) \/ broken (linked si ti) ->
  exists st' sbss', perform st (AShared p) = Ok st' /\ sgood dims init sbss' st' /\
    h_list st' = h_list st /\ c_out (h_circuit st') = c_out (h_circuit st) /\ sbss' = sbss ++ [slinked si ti] /\
    forall psi s, valid dims s -> vec dims psi (blocks_of sbss') s
      = kapply dims (amp dims (GCX (S := S) (lo + si) (lo + ti) p)) (vec dims psi (blocks_of sbss)) s.
Proof.
  intros init sbss st si ti Hne [Hsh Hmeas [ls [Els Hls]] Hmk] Hcur Hsi Hti Hz Hu.
  destruct st as [c cur marks]. cbn [h_circuit h_list h_marks] in *. subst cur.
  pose proof (shared_api Hsh) as Eapi.
  set (M := mk_moment (length (f_list (c_flow c))) (map (@bo S) (fresh dims lo now))) in *.
  assert (Hnm : forallb (fun o => negb (is_meas o)) (m_list M) = true).
  { cbn [M mk_moment m_list]. unfold fresh. rewrite map_app, forallb_app. cbn [map forallb]. 
    assert (G : forall i k, forallb (fun o => negb (is_meas o)) (map (@bo S) (idblocks S dims i k)) = true).
    { intros i k. apply forallb_forall. intros o Ho. apply in_map_iff in Ho as [x [<- Hx]]. apply in_map_iff in Hx as [j [<- _]]. reflexivity. }
    rewrite !G. reflexivity. }
  assert (Hn : 0 < length dims) by lia.
  assert (Hmf : forallb (fun b => b) (f_meas (c_flow c)) = false) by (rewrite Hmeas; apply all_false_meas; exact Hn).
  destruct (snoc_cases (f_list (c_flow c))) as [E|[before [last Elast]]]; [rewrite E in Els; discriminate|].
  assert (Hacts : filter (@is_igate S) (m_list last) = [] \/ forall o, In o (m_list last) -> is_ok (acting_members o) = true).
  { rewrite Elast, map_app in Els. cbn [map] in Els. destruct (map (@m_list S) before) as [|x xs] eqn:Eb; simpl in Els.
    - injection Els as -> _. left. apply no_igates_init.
    - injection Els as -> <-. right. apply slayers_snoc_inv in Hls as [ss [sb [_ [_ Hl]]]]. exact (acts_layer Hl). }
  destruct (@populate_cases S (c_flow c) before last M Elast Hmf Hnm Hacts) as [EP|[h [l1 [o [l2 [Efind _]]]]]].
  2: { unfold M in Efind. cbn [m_list mk_moment] in Efind. rewrite find_fresh in Efind. discriminate. }
  rewrite EP in Eapi. cbn [bind] in Eapi. cbn [perform h_circuit h_list h_marks]. rewrite Eapi. cbn [bind set_flow c_flow f_list].
  assert (En : length (f_list (c_flow c)) = length (before ++ [set_next (m_name M) last])) by (rewrite Elast, !app_length; reflexivity).
  assert (Enth : nth_error (before ++ [set_next (m_name M) last; set_prev (m_name last) M]) (length (f_list (c_flow c))) = Some (set_prev (m_name last) M)).
  { replace (before ++ [set_next (m_name M) last; set_prev (m_name last) M])
      with ((before ++ [set_next (m_name M) last]) ++ [set_prev (m_name last) M]) by (rewrite <- app_assoc; reflexivity).
    rewrite nth_error_app2 by lia. rewrite En, Nat.sub_diag. reflexivity. }
  rewrite Enth. cbn [set_prev m_list].
  assert (Ef : first_cx (m_list M) = lo).
  { cbn [M mk_moment m_list]. unfold fresh. rewrite map_app, id_first. cbn [map first_cx now bo is_cx]. apply Nat.add_0_r. }
  rewrite Ef.
  eexists. exists (sbss ++ [slinked si ti]). split; [reflexivity|]. cbn [h_circuit h_list h_marks].
  split; [|split; [reflexivity | split; [reflexivity | split; [reflexivity|]]]].
  - constructor; cbn [h_circuit h_list h_marks set_flow c_flow f_list f_meas].
    + apply shaped_set_flow; exact Hsh.
    + exact Hmeas.
    + assert (Eln : 1 + length ls = length (f_list (c_flow c))) by (rewrite <- (map_length (@m_list S)), Els; reflexivity).
      exists (ls ++ [m_list M]). split.
      * rewrite map_app. cbn [map set_next set_prev m_list]. rewrite app_comm_cons, <- Els, Elast, map_app, <- app_assoc. reflexivity.
      * apply slayers_snoc; [apply slayers_mark; [exact Hls | simpl; lia]|].
        rewrite Eln. constructor.
        -- unfold slinked. rewrite map_app. cbn [map]. rewrite !map_const_bo. cbn [M mk_moment m_list]. unfold fresh. rewrite map_app. reflexivity.
        -- intros l. unfold slinked. rewrite map_app. cbn [map]. rewrite !map_const_bo. cbn [M mk_moment m_list]. unfold fresh. rewrite map_app. cbn [map].
           unfold retarget_ops. rewrite mapi_app. cbn [mapi_from]. rewrite map_length. unfold idblocks at 2. rewrite map_length, seq_length, Nat.add_0_l.
           assert (Eh : holds ((length (f_list (c_flow c)), lo) :: marks) (length (f_list (c_flow c))) lo = true).
           { unfold holds. cbn [existsb fst snd]. rewrite !Nat.eqb_refl. reflexivity. }
           rewrite Eh. f_equal; [|f_equal].
           ++ apply mapi_id. intros j x Hx. pose proof (id_cx _ _ _ Hx) as Hc. match goal with |- (if ?h then _ else _) = _ => destruct h end; [|reflexivity]. destruct x; try reflexivity; discriminate.
           ++ apply mapi_id. intros j x Hx. pose proof (id_cx _ _ _ Hx) as Hc. match goal with |- (if ?h then _ else _) = _ => destruct h end; [|reflexivity]. destruct x; try reflexivity; discriminate.
        -- rewrite slinked_snd. apply fresh_seg, near_ok; assumption.
        -- unfold slinked. apply Forall_app.
           assert (G : forall i k, i + k <= length dims -> Forall sb_ok (map const (idblocks S dims i k))) by (intros i k H; apply (seg_acts (@idblocks_seg S dims k i H))).
           split; [apply G; unfold lo; lia|]. constructor; [|apply G; unfold w, lo, hi; lia].
           constructor; [reflexivity | discriminate | exact Hu].
    + intros m [<-|Hm].
      * cbn [fst]. rewrite Elast, !app_length. simpl. lia.
      * specialize (Hmk m Hm). rewrite Elast in Hmk. rewrite app_length in *. simpl in *. lia.
  - intros psi s Hs. unfold blocks_of. rewrite map_app. cbn [map]. rewrite slinked_snd, vec_snoc.
    apply kapply_ext; auto. intros u Hu'. symmetry. apply near_amp; assumption.
Qed.

(** Which of the two it is. *)
Lemma linked_whole : forall c t, lands v a b c t ->
  exists si ti, si < w /\ ti < w /\ (si = 0 \/ ti = 0) /\ c = lo + si /\ t = lo + ti /\ whole (linked si ti).
Proof.
  intros c t [x [y [Ev [Hct [Hc Ht]]]]].
  assert (G : forall si ti, (x - y = Z.of_nat (lo + si) - Z.of_nat (lo + ti))%Z -> whole (linked si ti)).
  { intros si ti E. unfold whole, linked. cbn [fst snd near bo]. rewrite Ev. apply cx_diff, E. }
  destruct Hct as [[Hxy [-> ->]]|[Hxy [-> ->]]].
  - exists 0, (Z.to_nat (y - x)). fold lo in Ht |- *. fold hi in Ht. unfold w.
    split; [lia|]. split; [lia|]. split; [auto|]. split; [lia|]. split; [reflexivity|]. apply G. lia.
  - exists (Z.to_nat (x - y)), 0. fold lo in Hc |- *. fold hi in Hc. unfold w.
    split; [lia|]. split; [lia|]. split; [auto|]. split; [lia|]. split; [lia|]. apply G. lia.
Qed.

Lemma linked_broken : outgrows v a b -> broken (linked 0 0).
Proof.
  intros H. unfold broken, late_error, linked. cbn [fst unitary].
  assert (E : cx_rows S (map Z.of_nat ds) v p = Err late_error).
  { unfold late_error, outgrows, cx_rows in *. destruct v as [|x [|y [|z r]]]; try reflexivity.
    assert (Eln : length (map Z.of_nat ds) = w) by (rewrite map_length; apply ds_length).
    assert (Hw : (Z.of_nat w <= Z.abs (x - y))%Z) by (unfold w, hi, lo; lia).
    assert (Hw0 : 0 < length (map Z.of_nat ds)) by (rewrite Eln; unfold w; lia).
    destruct (Z.ltb_spec x y).
    - change 0%Z with (Z.of_nat 0) at 1. rewrite (@py_get_nat Z _ 0 0%Z Hw0). cbn [bind]. rewrite py_get_past by lia. reflexivity.
    - rewrite py_get_past by lia. reflexivity. }
  rewrite E. reflexivity.
Qed.

End Shared.

(** ** All the acts *)
Definition stands (g : option (gate S)) (lo : nat) : gate S := match g with Some g => g | None => GCX lo lo 0%Z end.

Lemma acts_good : forall dims init acts cur gs, dims <> [] -> (forall d, In d dims -> 0 < d) ->
  amounts dims v cur acts gs ->
  forall sbss st, sgood dims init sbss st -> h_list st = cur ->
  exists st' sbss' prog, perform_all st acts = Ok st' /\ sgood dims init sbss' st' /\ h_list st' = contents cur acts /\
    c_out (h_circuit st') = c_out (h_circuit st) /\
    ((forall g, In g gs -> g <> None) -> gs = map Some prog) /\
    ((forall g, In g gs -> g <> None) -> all_sb whole sbss -> all_sb whole sbss') /\
    (In None gs \/ some_sb broken sbss -> some_sb broken sbss') /\
    forall psi s, valid dims s -> vec dims psi (blocks_of sbss') s = final dims prog (vec dims psi (blocks_of sbss)) s.
Proof.
  intros dims init acts cur gs Hne Hpos H;
    induction H as [cur|cur k g rest gs Hd Hok H IH|cur l rest gs H IH|a b p c t rest gs Ha Hb Hl H IH|a b p rest gs Ha Hb Hl H IH];
    intros sbss st Hg Hcur.
  - exists st, sbss, []. split; [reflexivity|]. split; [exact Hg|]. split; [exact Hcur|]. split; [reflexivity|].
    split; [reflexivity|]. split; [auto|]. split; [intros [[]|Hx]; exact Hx | reflexivity].
  - destruct (denotes_offers L Hpos Hd Hok) as [q [blk Ho]].
    destruct (call_step Hne Hg Ho) as [st1 [sbss1 [E1 [Hg1 [El1 [Eo1 [Hw1 [Hb1 Ev1]]]]]]]].
    destruct (IH sbss1 st1 Hg1 ltac:(congruence)) as [st2 [sbss2 [prog [E2 [Hg2 [El2 [Eo2 [Hp2 [Hw2 [Hb2 Ev2]]]]]]]]]].
    exists st2, sbss2, (g :: prog). cbn [perform_all]. rewrite E1. cbn [bind]. split; [exact E2|]. split; [exact Hg2|].
    split; [exact El2|]. split; [congruence|]. split; [|split; [|split]].
    + intros Hn. cbn [map]. rewrite <- Hp2; [reflexivity|]. intros g' Hg'. apply Hn. right; exact Hg'.
    + intros Hn Hw. apply Hw2; [|apply Hw1, Hw]. intros g' Hg'. apply Hn. right; exact Hg'.
    + intros [[Hx|Hx]|Hx]; [discriminate | apply Hb2; left; exact Hx | apply Hb2; right; apply Hb1, Hx].
    + intros psi s Hs. rewrite Ev2 by exact Hs. simpl. apply final_ext; [|exact Hs]. intros u Hu. rewrite apply_kapply. apply Ev1; exact Hu.
  - destruct (edit_step l Hg) as [st1 [E1 [Hg1 [El1 Eo1]]]].
    destruct (IH sbss st1 Hg1 El1) as [st2 [sbss2 [prog [E2 [Hg2 [El2 [Eo2 R]]]]]]].
    exists st2, sbss2, prog. cbn [perform_all]. rewrite E1. cbn [bind]. split; [exact E2|]. split; [exact Hg2|].
    split; [exact El2|]. split; [congruence|]. exact R.
  - destruct (@linked_whole dims a b Ha Hb p c t Hl) as [si [ti [Hsi [Hti [Hz [-> [-> Hwl]]]]]]].
    destruct (@shared_step dims Hpos a b Ha Hb p init sbss st si ti Hne Hg Hcur Hsi Hti Hz (or_introl Hwl))
      as [st1 [sbss1 [E1 [Hg1 [El1 [Eo1 [Es1 Ev1]]]]]]].
    destruct (IH sbss1 st1 Hg1 ltac:(congruence)) as [st2 [sbss2 [prog [E2 [Hg2 [El2 [Eo2 [Hp2 [Hw2 [Hb2 Ev2]]]]]]]]]].
    eexists st2, sbss2, (GCX _ _ p :: prog). cbn [perform_all]. rewrite E1. cbn [bind]. split; [exact E2|]. split; [exact Hg2|].
    split; [exact El2|]. split; [congruence|]. split; [|split; [|split]].
    + intros Hn. cbn [map]. rewrite <- Hp2; [reflexivity|]. intros g' Hg'. apply Hn. right; exact Hg'.
    + intros Hn Hw. apply Hw2; [intros g' Hg'; apply Hn; right; exact Hg'|]. subst sbss1. apply Forall_app. split; [exact Hw|].
      constructor; [|constructor]. unfold slinked. apply Forall_app. split; [apply whole_const|]. constructor; [exact Hwl | apply whole_const].
    + intros [[Hx|Hx]|Hx]; [discriminate | apply Hb2; left; exact Hx | apply Hb2; right; subst sbss1; apply Exists_app; left; exact Hx].
    + intros psi s Hs. rewrite Ev2 by exact Hs. simpl. apply final_ext; [|exact Hs]. intros u Hu. rewrite apply_kapply. apply Ev1; exact Hu.
  - pose proof (@linked_broken dims a b Ha Hb p Hl) as Hbl.
    destruct (@shared_step dims Hpos a b Ha Hb p init sbss st 0 0 Hne Hg Hcur ltac:(lia) ltac:(lia) ltac:(auto) (or_intror Hbl))
      as [st1 [sbss1 [E1 [Hg1 [El1 [Eo1 [Es1 Ev1]]]]]]].
    destruct (IH sbss1 st1 Hg1 ltac:(congruence)) as [st2 [sbss2 [prog [E2 [Hg2 [El2 [Eo2 [Hp2 [Hw2 [Hb2 Ev2]]]]]]]]]].
    eexists st2, sbss2, (GCX _ _ p :: prog). cbn [perform_all]. rewrite E1. cbn [bind]. split; [exact E2|]. split; [exact Hg2|].
    split; [exact El2|]. split; [congruence|]. split; [|split; [|split]].
    + intros Hn. exfalso. apply (Hn None); [left; reflexivity | reflexivity].
    + intros Hn. exfalso. apply (Hn None); [left; reflexivity | reflexivity].
    + intros _. apply Hb2. right. subst sbss1. apply Exists_app. right. left. unfold slinked. apply Exists_app. right. left. exact Hbl.
    + intros psi s Hs. rewrite Ev2 by exact Hs. simpl. apply final_ext; [|exact Hs]. intros u Hu. rewrite apply_kapply. apply Ev1; exact Hu.
Qed.

(** ** Measuring and running *)
Lemma measure_all_any : forall dims (c : circuit), dims <> [] -> shaped dims c ->
  f_meas (c_flow c) = repeat false (length dims) -> f_list (c_flow c) <> [] ->
  exists c' mm, api c CMeasureAll = Ok (c', true) /\ c_out c' = c_out c /\
    forallb (fun b => b) (f_meas (c_flow c')) = true /\
    map (@m_list S) (f_list (c_flow c')) = map (@m_list S) (f_list (c_flow c)) ++ [mm].
Proof.
  intros dims c Hne Hsh Hmeas Hnil.
  assert (Hn : 0 < length dims) by (destruct dims; [contradiction | simpl; lia]).
  destruct (snoc_cases (f_list (c_flow c))) as [E|[before [last Elast]]]; [congruence|].
  cbn [api]. rewrite (shaped_len_ok Hsh), map_map, (sh_dims Hsh), map_length.
  set (ops := map (fun x => OMeas (S := S) (Z.of_nat x)) (seq 0 (length dims))).
  assert (Ef : find (@is_hxz S) ops = None) by (unfold ops; induction (seq 0 (length dims)); simpl; auto).
  unfold populate_opflow. rewrite Elast, rev_unit, Hmeas, all_false_meas by exact Hn.
  cbn [mk_moment m_list]. rewrite Ef. cbn [bind]. unfold ops at 1. rewrite detect_all by (rewrite repeat_length; lia).
  cbn [bind]. rewrite append_moment_snoc.
  eexists. exists ops. split; [reflexivity|]. split; [reflexivity|]. split.
  - cbn [set_flow c_flow f_meas]. simpl firstn. rewrite skipn_all2 by (rewrite repeat_length; lia).
    simpl app. rewrite app_nil_r. clear. induction (length dims); simpl; auto.
  - cbn [set_flow c_flow f_list]. rewrite !map_app, <- app_assoc. reflexivity.
Qed.

Definition exec_ops (acc : res (option (mat S))) (ops : list op) : res (option (mat S)) :=
  a <- acc ;;
  k <- moment_exec NB ops ;;
  match a with
  | None => Ok (Some k)
  | Some d => p <- b_dot (b := NB) d k ;; Ok (Some p)
  end.

Lemma exec_ops_steps : forall ms acc, fold_left (@exec_step S) ms acc = fold_left exec_ops (map (@m_list S) ms) acc.
Proof. induction ms as [|m ms IH]; intros acc; simpl; [reflexivity|]. apply IH. Qed.

Lemma exec_ops_err : forall ls e, fold_left exec_ops ls (Err e) = Err e.
Proof. induction ls as [|ops ls IH]; intros e; simpl; [reflexivity|]. apply IH. Qed.

(** One layer. *)
Lemma moment_whole : forall sbs, Forall whole sbs -> moment_exec NB (map (fun sb : sblock => fst sb v) sbs) = moment_exec NB (map (@bo S) (map snd sbs)).
Proof.
  intros sbs H. destruct H as [|sb sbs H1 H2]; [reflexivity|]. cbn [map moment_exec]. rewrite H1.
  destruct (unitary NB (bo (snd sb))) as [u|e]; [|reflexivity]. cbn [bind].
  generalize (Ok u). induction H2 as [|x l Hx Hl IH]; intros acc; [reflexivity|]. cbn [map fold_left]. rewrite Hx. apply IH.
Qed.

Lemma kron_err : forall (ops : list op) e,
  fold_left (fun acc h => a <- acc ;; b <- unitary NB h ;; Ok (b_kron a b)) ops (Err e) = Err e.
Proof. induction ops as [|o ops IH]; intros e; simpl; [reflexivity|]. apply IH. Qed.

Lemma moment_broken : forall dims sbs q k, seg dims k (map snd sbs) q -> Forall sb_ok sbs -> Exists broken sbs ->
  moment_exec NB (map (fun sb : sblock => fst sb v) sbs) = Err late_error.
Proof.
  assert (G : forall dims sbs q k, seg dims k (map snd sbs) q -> Forall sb_ok sbs -> Exists broken sbs -> forall u : mat S,
    fold_left (fun acc h => a <- acc ;; b <- unitary NB h ;; Ok (b_kron a b)) (map (fun sb : sblock => fst sb v) sbs) (Ok u) = Err late_error).
  { intros dims sbs; induction sbs as [|sb sbs IH]; intros q k Hs Hok Hex u; [inversion Hex|].
    cbn [map fold_left bind]. inversion Hok as [|x y Hsb Hok']; subst. cbn [map] in Hs.
    inversion Hs as [|k' b' bs' q' Hb0 Hs3]; subst k' b' bs' q'.
    destruct (so_u Hsb) as [Hw|Hbr].
    - rewrite Hw. destruct (bok_u Hb0) as [M [EM _]]. rewrite EM. cbn [bind]. apply (IH _ _ Hs3 Hok').
      inversion Hex as [x y Hx|x y Hx]; subst; [|exact Hx]. unfold broken in Hx. rewrite Hw, EM in Hx. discriminate.
    - rewrite Hbr. cbn [bind]. apply kron_err. }
  intros dims sbs q k Hs Hok Hex. destruct sbs as [|sb sbs]; [inversion Hex|]. cbn [map moment_exec].
  inversion Hok as [|x y Hsb Hok']; subst. cbn [map] in Hs.
  inversion Hs as [|k' b' bs' q' Hb0 Hs3]; subst k' b' bs' q'.
  destruct (so_u Hsb) as [Hw|Hbr].
  - rewrite Hw. destruct (bok_u Hb0) as [M [EM _]]. rewrite EM. cbn [bind]. apply (G _ _ _ _ Hs3 Hok').
    inversion Hex as [x y Hx|x y Hx]; subst; [|exact Hx]. unfold broken in Hx. rewrite Hw, EM in Hx. discriminate.
  - rewrite Hbr. reflexivity.
Qed.

Lemma slayers_whole : forall dims marks k ls sbss, slayers dims marks v k ls sbss -> all_sb whole sbss ->
  map (moment_exec NB) ls = map (fun bs => moment_exec NB (map (@bo S) bs)) (blocks_of sbss) /\
  Forall2 (layer_of dims) (map (fun bs => mk_moment 0 (map (@bo S) bs)) (blocks_of sbss)) (blocks_of sbss).
Proof.
  intros dims marks k ls sbss H; induction H as [k|k ops ls sbs sbss H1 H2 IH]; intros Hw; [split; [reflexivity | constructor]|].
  inversion Hw as [|x y Hw1 Hw2]; subst. destruct (IH Hw2) as [E F]. destruct H1 as [-> _ Hs _]. split.
  - cbn [map blocks_of]. f_equal; [exact (moment_whole Hw1) | exact E].
  - cbn [map blocks_of]. constructor; [split; [reflexivity | exact Hs] | exact F].
Qed.

Lemma exec_ops_ext : forall ls ls' acc, map (moment_exec NB) ls = map (moment_exec NB) ls' -> fold_left exec_ops ls acc = fold_left exec_ops ls' acc.
Proof.
  induction ls as [|o ls IH]; intros [|o' ls'] acc E; try discriminate; [reflexivity|]. cbn [map] in E. injection E as E1 E2.
  cbn [fold_left]. unfold exec_ops at 2 4. rewrite E1. apply IH, E2.
Qed.

(** The layers of a broken circuit, from the last to the first. *)
Lemma exec_broken : forall dims marks ls sbss k first, dims <> [] -> slayers dims marks v k ls sbss -> some_sb broken sbss ->
  (fold_left exec_ops (rev (first :: ls)) (Ok None) = Err late_error) /\
  forall A Ka, repr dims dims A Ka -> fold_left exec_ops (rev (first :: ls)) (Ok (Some A)) = Err late_error.
Proof.
  intros dims marks ls; induction ls as [|ops ls IH] using rev_ind; intros sbss k first Hne H Hb.
  - inversion H; subst. inversion Hb.
  - apply slayers_snoc_inv in H as [sbss0 [sbs [-> [H0 H1]]]]. rewrite app_comm_cons, rev_unit. cbn [fold_left].
    destruct H1 as [Eops _ Hs Hok]. change (ops = @map sblock op (fun sb : sblock => fst sb v) sbs) in Eops. subst ops.
    assert (C : Exists broken sbs \/ Forall whole sbs).
    { clear - Hok. induction Hok as [|x l Hx Hl IHl]; [right; constructor|]. destruct (so_u Hx) as [Hw|Hbr]; [|left; left; exact Hbr].
      destruct IHl as [I|I]; [left; right; exact I | right; constructor; assumption]. }
    destruct C as [C|C].
    + pose proof (@moment_broken dims sbs _ _ Hs Hok C) as E. split.
      * unfold exec_ops at 2. cbn [bind]. rewrite E. cbn [bind]. apply exec_ops_err.
      * intros A Ka _. unfold exec_ops at 2. cbn [bind]. rewrite E. cbn [bind]. apply exec_ops_err.
    + assert (Hb0 : some_sb broken sbss0).
      { apply Exists_app in Hb as [Hb|Hb]; [exact Hb|]. exfalso. inversion Hb as [x y Hx|x y Hx]; subst; [|inversion Hx].
        apply Exists_exists in Hx as [sb [Hin Hsb]]. rewrite Forall_forall in C. specialize (C sb Hin). unfold whole, broken in *.
        rewrite C in Hsb. apply in_map with (f := snd) in Hin.
        assert (Hu : exists M, unitary NB (bo (snd sb)) = Ok M).
        { clear - Hs Hin. revert Hs Hin. generalize (map snd sbs). generalize 0 at 1. intros p0 l Hs. induction Hs as [p Hp|p b bs q Hbk Hs IH]; intros Hin; [contradiction|].
          destruct Hin as [<-|Hin]; [|apply IH, Hin]. destruct (bok_u Hbk) as [M [EM _]]. eauto. }
        destruct Hu as [M EM]. rewrite EM in Hsb. discriminate. }
      destruct (IH sbss0 k first Hne H0 Hb0) as [I1 I2].
      destruct (exec_layer L Hs Hne) as [Mb [Eb Rb]].
      pose proof (eq_trans (moment_whole C) Eb) as Eb2. clear Eb. rename Eb2 into Eb. split.
      * unfold exec_ops at 2. cbn [bind]. rewrite Eb. cbn [bind]. exact (I2 Mb _ Rb).
      * intros A Ka RA. unfold exec_ops at 2. cbn [bind]. rewrite Eb. cbn [bind].
        destruct (repr_dot RA Rb) as [M1 [ED R1]]. cbn [b_dot NumpyBackend]. rewrite ED. cbn [bind]. exact (I2 M1 _ R1).
Qed.

Theorem run_shared : forall dims init sbss st, dims <> [] -> (forall d, In d dims -> 0 < d) -> valid dims init ->
  sgood dims init sbss st -> h_list st = v ->
  exists c', api (h_circuit st) CMeasureAll = Ok (c', true) /\
    (all_sb whole sbss -> run NB c' = labelled S dims (c_out (h_circuit st)) (answer dims (vec dims (basis S init) (blocks_of sbss)))) /\
    (some_sb broken sbss -> run NB c' = Err late_error).
Proof.
  intros dims init sbss [c cur marks] Hne Hpos Hv [Hsh Hmeas [ls [Els Hls]] Hmk] Hcur. cbn [h_circuit h_list h_marks] in *. subst cur.
  destruct (measure_all_any Hne Hsh Hmeas) as [c' [mm [E1 [E2 [E3 E4]]]]].
  { intros E. rewrite E in Els. discriminate. }
  exists c'. split; [exact E1|].
  assert (Erun : run NB c' = (r <- fold_left exec_ops (rev (init_ops S dims init :: ls)) (Ok None) ;;
                   match r with None => Err AttributeError | Some m => output_call (c_out c) m end)).
  { unfold run, flow_exec. rewrite E3. rewrite Els in E4.
    destruct (@snoc_map _ _ _ _ _ _ E4) as [fl [y [Efl [Em _]]]]. rewrite Efl, rev_unit, E2.
    match goal with |- context [fold_left ?f ?l ?a] => change (fold_left f l a) with (@fold_left (res (option (mat S))) _ (@exec_step S) l (Ok None)) end.
    rewrite exec_ops_steps, map_rev, Em. reflexivity. }
  rewrite Erun. split.
  - intros Hw. destruct (slayers_whole Hls Hw) as [Em HF].
    set (ms := map (fun bs => mk_moment 0 (map (@bo S) bs)) (blocks_of sbss)) in *.
    destruct (@exec_all S L dims init (mk_moment 0 (init_ops S dims init)) (blocks_of sbss) ms Hne Hv eq_refl HF) as [M [EM RM]].
    rewrite exec_ops_steps in EM.
    rewrite (@exec_ops_ext _ (map (@m_list S) (rev (mk_moment 0 (init_ops S dims init) :: ms)))).
    + rewrite EM. cbn [bind]. apply output_any. exact RM.
    + rewrite map_map, !map_rev. f_equal. cbn [map mk_moment m_list]. f_equal. rewrite Em. unfold ms. rewrite !map_map. reflexivity.
  - intros Hb. rewrite (proj1 (@exec_broken dims marks ls sbss 1 (init_ops S dims init) Hne Hls Hb)). reflexivity.
Qed.

End AliasRun.

Section AliasMain.
Variable S : scalar.
Hypothesis L : scalar_laws S.
Notation NB := (NumpyBackend S).

Lemma start_sgood : forall v dims init (c : circuit S) pair, good dims init [] c ->
  sgood v dims init [] {| h_circuit := c; h_list := pair; h_marks := [] |}.
Proof.
  intros v dims init c pair [Hsh Hmeas [m0 [ms [El [Em HF]]]]]. inversion HF; subst. constructor; cbn [h_circuit h_list h_marks]; auto.
  - exists []. rewrite El. cbn [map]. rewrite Em. split; [reflexivity | constructor].
  - intros m [].
Qed.

Theorem simulate_shared_correct : forall dims levels out ty me pair acts prog,
  dims <> [] -> (forall d, In d dims -> 2 <= d) -> length levels <= length dims -> valid dims (start dims levels) ->
  wants dims out ty me -> amounts dims (contents pair acts) pair acts (map Some prog) ->
  simulate_shared NB (QList (map Z.of_nat dims)) (Some (map Z.of_nat levels)) out pair acts
  = Ok (report ty me (answer dims (final dims prog (basis S (start dims levels))))).
Proof.
  intros dims levels out ty me pair acts prog Hne Hd Hlen Hv Hw Ha.
  assert (Hpos : forall d, In d dims -> 0 < d) by (intros d H; specialize (Hd d H); lia).
  destruct (@mk_circuit_good S dims levels out Hd Hlen Hv) as [c0 [E0 [Hg0 Eo0]]].
  unfold simulate_shared. rewrite E0. cbn [bind].
  set (v := contents pair acts) in *.
  assert (Hn : forall g, In g (map Some prog) -> g <> None) by (intros g Hg; apply in_map_iff in Hg as [x [<- _]]; discriminate).
  destruct (acts_good L Hne Hpos Ha (start_sgood v pair Hg0) eq_refl)
    as [st' [sbss' [prog' [E1 [Hg1 [El1 [Eo1 [Hp1 [Hw1 [_ Ev1]]]]]]]]]].
  rewrite E1. cbn [bind].
  assert (Epr : prog' = prog).
  { specialize (Hp1 Hn). clear - Hp1. revert prog' Hp1. induction prog as [|g prog IH]; intros [|g' prog'] E; try discriminate; [reflexivity|].
    cbn [map] in E. injection E as -> E. f_equal. apply IH, E. }
  subst prog'.
  destruct (run_shared L Hne Hpos Hv Hg1 El1) as [c' [E2 [Er _]]]. rewrite E2. cbn [bind].
  rewrite (Er (Hw1 Hn (Forall_nil _))). rewrite Eo1. cbn [h_circuit]. rewrite Eo0.
  rewrite (answer_ext S _ _ (fun s Hs => Ev1 _ s Hs)).
  destruct Hw as [->|[-> [-> ->]]]; rewrite labelled_own; reflexivity.
Qed.

Theorem simulate_shared_lost : forall dims levels out pair acts gs,
  dims <> [] -> (forall d, In d dims -> 2 <= d) -> length levels <= length dims -> valid dims (start dims levels) ->
  amounts dims (contents pair acts) pair acts gs -> In None gs ->
  simulate_shared NB (QList (map Z.of_nat dims)) (Some (map Z.of_nat levels)) out pair acts
  = Err (late_error (contents pair acts)).
Proof.
  intros dims levels out pair acts gs Hne Hd Hlen Hv Ha Hin.
  assert (Hpos : forall d, In d dims -> 0 < d) by (intros d H; specialize (Hd d H); lia).
  destruct (@mk_circuit_good S dims levels out Hd Hlen Hv) as [c0 [E0 [Hg0 Eo0]]].
  unfold simulate_shared. rewrite E0. cbn [bind].
  set (v := contents pair acts) in *.
  destruct (acts_good L Hne Hpos Ha (start_sgood v pair Hg0) eq_refl)
    as [st' [sbss' [prog' [E1 [Hg1 [El1 [Eo1 [Hp1 [_ [Hb1 Ev1]]]]]]]]]].
  rewrite E1. cbn [bind].
  destruct (run_shared L Hne Hpos Hv Hg1 El1) as [c' [E2 [_ Er]]]. rewrite E2. cbn [bind].
  apply Er, Hb1. left. exact Hin.
Qed.

End AliasMain.
