(** * AttrsLib: lemmas about questions asked to layers. *)
From Verif Require Import Py Scalar Mat Utils Gates Circuit Spec HistSpec Lib History Attrs.
Set Implicit Arguments.

Section AttrsLib.
Variable S : scalar.
Notation op := (op S).

Lemma meas_layer_tiles : forall n, tiles n (meas_layer S n).
Proof.
  intros n. assert (E : forall i, i < n -> occupies n (OMeas (Z.of_nat i) : op) = [i]).
  { intros i Hi. rewrite (occupies_ranges n (ranges_single (OMeas (Z.of_nat i) : op) eq_refl)). unfold highr, lowr.
    rewrite Nat2Z.id. replace (Nat.max _ _ - _) with 1 by lia. simpl. f_equal. lia. }
  split.
  - unfold meas_layer. rewrite map_map. rewrite (@map_ext_in _ _ _ (fun i => [i])) by (intros i Hi; apply in_seq in Hi; apply E; lia).
    clear E. induction (seq 0 n) as [|i l IH]; [reflexivity|]. simpl. rewrite IH. reflexivity.
  - intros o Ho. apply in_map_iff in Ho as [i [<- Hi]]. apply in_seq in Hi. rewrite E by lia. discriminate.
Qed.

(** Every layer but the first. *)
Lemma later_layers : forall q init out ks (c : circuit S) i m, history q init out ks c ->
  nth_error (f_list (c_flow c)) (Datatypes.S i) = Some m -> tiles (nregs q) (m_list m) /\ not_init_layer (m_list m).
Proof.
  intros q init out ks c i m H Hm. destruct (history_inv H) as [l0 [ls I]]. pose proof (i_list I) as E. unfold layers in E.
  assert (N : nth_error (l0 :: ls ++ (if (0 <? nregs q) && existsb (@is_measure_all S) ks then [meas_layer S (nregs q)] else [])) (Datatypes.S i) = Some (m_list m))
    by (rewrite <- E; apply map_nth_error; exact Hm).
  cbn [nth_error] in N. apply nth_error_In in N. apply in_app_or in N as [N|N].
  - split; [apply (proj1 (Forall_forall _ _) (i_tile I) _ N) | apply (proj1 (Forall_forall _ _) (i_gates I) _ N)].
  - destruct ((0 <? nregs q) && existsb (@is_measure_all S) ks); [|destruct N]. destruct N as [<-|[]]. split; [apply meas_layer_tiles|].
    intros o Ho. apply in_map_iff in Ho as [k [<- _]]. reflexivity.
Qed.
Lemma first_layer : forall q init out ks (c : circuit S) m, history q init out ks c -> nth_error (f_list (c_flow c)) 0 = Some m ->
  forallb (@is_init S) (m_list m) = true /\ length (m_list m) = nregs q.
Proof.
  intros q init out ks c m H Hm. destruct (history_inv H) as [l0 [ls I]]. pose proof (i_list I) as E. unfold layers in E.
  destruct (f_list (c_flow c)) as [|m0 ms]; [discriminate|]. injection Hm as ->. cbn [map] in E. injection E as E _.
  destruct (i_m0 I) as [M1 M2]. rewrite E. split; [exact M1|]. apply (f_equal (@List.length _)) in M2. rewrite !map_length, seq_length in M2. exact M2.
Qed.

(** At most one object of a layer covers a register. *)
Lemma covers_in : forall (o : op) z, In z (registers o) -> (0 <= z)%Z -> covers o (Z.to_nat z) = true.
Proof.
  intros o z H Hz. unfold covers. apply andb_true_iff. rewrite !existsb_exists. split; exists z; (split; [exact H | apply Z.leb_le; lia]).
Qed.
Lemma covers_once : forall n l1 (o : op) l2 r x, tiles n (l1 ++ o :: l2) -> r < n -> covers o r = true -> In x (l1 ++ l2) -> covers x r = false.
Proof.
  intros n l1 o l2 r x [T _] Hr Ho Hx. destruct (covers x r) eqn:E; [|reflexivity]. exfalso.
  assert (O : forall y : op, covers y r = true -> In r (occupies n y)) by (intros y Hy; apply filter_In; split; [apply in_seq; lia | exact Hy]).
  rewrite map_app, concat_app in T. cbn [map concat] in T. pose proof (seq_NoDup n 0) as N. rewrite <- T in N.
  apply in_app_or in Hx as [Hx|Hx].
  - apply (@NoDup_app_disjoint _ _ _ r N).
    + apply in_concat. exists (occupies n x). split; [apply in_map; exact Hx | apply O; exact E].
    + apply in_or_app. left. apply O. exact Ho.
  - rewrite app_assoc in N. apply (@NoDup_app_disjoint _ _ _ r N).
    + apply in_or_app. right. apply O. exact Ho.
    + apply in_concat. exists (occupies n x). split; [apply in_map; exact Hx | apply O; exact E].
Qed.

Lemma members_registers : forall o : op, is_init o = false -> exists a, acting_members o = Ok a /\ forall r, In r a -> In r (registers o).
Proof.
  intros [] H; try discriminate; simpl; try (eexists; split; [reflexivity | auto]; fail).
  - eexists. split; [reflexivity|]. intros r [<-|[]]. left. reflexivity.
  - destruct qreg; eexists; (split; [reflexivity|]); auto.
Qed.

Lemma zmem_iff : forall z l, zmem z l = true <-> In z l.
Proof.
  intros z l. unfold zmem. rewrite existsb_exists. split; [intros [x [H E]]; apply Z.eqb_eq in E; subst; exact H|].
  intros H. exists z. split; [exact H | apply Z.eqb_refl].
Qed.

Lemma lookup_at : forall l1 (o : op) l2 q a k, (forall x, In x l1 -> is_init x = false /\ ~ In q (registers x)) ->
  acting_members o = Ok a -> In q a -> get_qreg_moment_from k (l1 ++ o :: l2) q = Ok (Some (o, k + length l1)).
Proof.
  induction l1 as [|x l1 IH]; intros o l2 q a k H Ha Hq; cbn [app get_qreg_moment_from].
  - rewrite Ha. cbn [bind]. rewrite (proj2 (zmem_iff q a) Hq), Nat.add_0_r. reflexivity.
  - destruct (H x (or_introl eq_refl)) as [H1 H2]. destruct (members_registers x H1) as [b [Eb Hb]]. rewrite Eb. cbn [bind].
    destruct (zmem q b) eqn:E; [apply zmem_iff in E; destruct (H2 (Hb _ E))|].
    rewrite (IH o l2 q a) by (try assumption; intros y Hy; apply H; right; exact Hy). cbn [length]. do 3 f_equal. lia.
Qed.
Lemma lookup_none : forall (l : list op) q k, (forall x, In x l -> exists a, acting_members x = Ok a /\ ~ In q a) -> get_qreg_moment_from k l q = Ok None.
Proof.
  induction l as [|x l IH]; intros q k H; cbn [get_qreg_moment_from]; [reflexivity|].
  destruct (H x (or_introl eq_refl)) as [a [-> Ha]]. cbn [bind]. destruct (zmem q a) eqn:E; [apply zmem_iff in E; contradiction|].
  apply IH. intros y Hy. apply H. right. exact Hy.
Qed.

(** The object that stands for register [r] in a layer of one-register objects. *)
Lemma narrow_tiles : forall n (l : list op), tiles n l -> (forall o, In o l -> length (occupies n o) = 1) ->
  map (occupies n) l = map (fun i => [i]) (seq 0 n).
Proof.
  intros n l [T _] H. rewrite <- T. clear T. induction l as [|o l IH]; [reflexivity|]. cbn [map concat].
  pose proof (H o (or_introl eq_refl)) as E. destruct (occupies n o) as [|i [|? ?]]; try discriminate E.
  cbn [app map]. f_equal. apply IH. intros x Hx. apply H. right. exact Hx.
Qed.
Lemma wide_short : forall n (l : list op), tiles n l -> (exists o, In o l /\ 2 <= length (occupies n o)) -> length l < n.
Proof.
  intros n l [T Hne] [o [Ho Hw]]. apply (f_equal (@length _)) in T. rewrite seq_length in T. rewrite <- T. clear T.
  assert (G : forall l : list op, (forall x, In x l -> occupies n x <> []) -> length l <= length (concat (map (occupies n) l))).
  { clear. induction l as [|x l IH]; intros H; [simpl; lia|]. cbn [map concat length]. rewrite app_length.
    specialize (IH (fun y Hy => H y (or_intror Hy))). destruct (occupies n x) eqn:E; [destruct (H x (or_introl eq_refl) E)|]. simpl. lia. }
  apply in_split in Ho as [l1 [l2 ->]]. rewrite map_app, concat_app, !app_length. cbn [map concat length]. rewrite app_length.
  pose proof (G l1 (fun y Hy => Hne y (in_or_app _ _ _ (or_introl Hy)))). pose proof (G l2 (fun y Hy => Hne y (in_or_app l1 (o :: l2) y (or_intror (or_intror Hy))))). lia.
Qed.
End AttrsLib.
