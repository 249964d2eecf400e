(** * InfoDepth: the depth of a history of valid calls. *)
From Verif Require Import Py Scalar Mat Utils Gates Circuit Spec Calls HistSpec CallSpec Lib Kern GateMat GateTof Flow Layers Blocks Refine Run History Merge Info InfoSpec InfoLib InfoCount DepthSpec.
Set Implicit Arguments.

Section InfoDepth.
Variable S : scalar.
Hypothesis L : scalar_laws S.
Notation op := (op S).
Notation circuit := (circuit S).
Notation call := (call S).

Lemma layering_ext : forall (prog : list (gate S)) b b', (forall r, b r = b' r) -> layering b prog = layering b' prog.
Proof.
  induction prog as [|g prog IH]; intros b b' H; [reflexivity|].
  destruct g; cbn [layering]; try reflexivity; rewrite H; destruct (b' r); try reflexivity;
    apply IH; intros x; rewrite H; reflexivity.
Qed.

(** The registers an issued gate covers. *)
Lemma existsb_map_le : forall l r, existsb (fun a => (a <=? Z.of_nat r)%Z) (map Z.of_nat l) = existsb (fun a => a <=? r) l.
Proof.
  intros l r; induction l as [|x l IH]; simpl; [reflexivity|]. rewrite IH. f_equal.
  destruct (Z.leb_spec (Z.of_nat x) (Z.of_nat r)), (Nat.leb_spec x r); try reflexivity; lia.
Qed.
Lemma existsb_map_ge : forall l r, existsb (fun b => (Z.of_nat r <=? b)%Z) (map Z.of_nat l) = existsb (fun b => r <=? b) l.
Proof.
  intros l r; induction l as [|x l IH]; simpl; [reflexivity|]. rewrite IH. f_equal.
  destruct (Z.leb_spec (Z.of_nat r) (Z.of_nat x)), (Nat.leb_spec r x); try reflexivity; lia.
Qed.

Lemma within_ext : forall l m r, (forall x, In x l <-> In x m) -> within l r = within m r.
Proof.
  intros l m r H. unfold within.
  assert (E : forall f, existsb f l = existsb f m).
  { intros f. apply eq_true_iff_eq. rewrite !existsb_exists. split; intros [x [Hx E]]; exists x; (split; [apply H; exact Hx | exact E]). }
  rewrite !E. reflexivity.
Qed.

Lemma covers_within : forall (g : op) l r, registers g = map Z.of_nat l -> covers g r = within l r.
Proof. intros g l r E. unfold covers, within. rewrite E, existsb_map_le, existsb_map_ge. reflexivity. Qed.

Lemma issued_covers : forall dims (c : circuit) k g o r, denotes dims k g -> issues c k o -> gate_ok dims g ->
  covers o r = within (touches g) r.
Proof.
  intros dims c k g o r Hk Hi Hok. destruct Hk; inversion Hi; subst; cbn [touches].
  1-3: apply covers_within; reflexivity.
  - apply (covers_within _ [c0; t]). reflexivity.
  - rewrite (covers_within _ (t :: cs)) by reflexivity. apply within_ext. intros x. rewrite in_app_iff. simpl. tauto.
  - apply covers_within. reflexivity.
  - rewrite (covers_within _ l) by reflexivity. destruct Hok as [Hk1 _].
    unfold within. apply eq_true_iff_eq. rewrite !andb_true_iff, !existsb_exists. split.
    + intros [[x [X1 X2]] [y [Y1 Y2]]]. apply H2 in X1. apply H2 in Y1. apply Nat.leb_le in X2. apply Nat.leb_le in Y2.
      split; exists r; (split; [apply in_seq; lia | apply Nat.leb_refl]).
    + intros [[x [X1 X2]] [y [Y1 Y2]]]. apply in_seq in X1. apply in_seq in Y1. apply Nat.leb_le in X2. apply Nat.leb_le in Y2.
      split; [exists r0 | exists (r0 + k - 1)]; (split; [assumption | apply Nat.leb_le; lia]).
Qed.

(** Idle registers of a new layer. *)
Lemma idle_layer : forall n (dims : list Z) lo hi (g : op) r, is_igate g = false -> ranges g lo hi -> r < n ->
  ((exists d, In (OI (Z.of_nat r) d) (layer_list dims lo hi g n)) <-> covers g r = false).
Proof.
  intros n dims lo hi g r Hg Hr Hn. rewrite (Hr r), layer_list_split.
  destruct (lowr_le n lo hi) as [A1 A2]. split.
  - intros [d H]. rewrite !in_app_iff, !in_map_iff in H. destruct H as [[i [E Hi]]|[H|[i [E Hi]]]].
    + injection E as E _. apply in_seq in Hi. apply andb_false_iff. left. apply Z.leb_gt. unfold lowr in *. lia.
    + destruct (lowr n lo <? highr n lo hi); [|contradiction]. destruct H as [->|[]]. discriminate.
    + injection E as E _. apply in_seq in Hi. apply andb_false_iff.
      destruct (Z.leb_spec lo (Z.of_nat r)); [right; apply Z.leb_gt; unfold highr, lowr in *; lia | left; reflexivity].
  - intros H. exists (nth r dims 0%Z). rewrite !in_app_iff, !in_map_iff.
    destruct (Nat.lt_ge_cases r (lowr n lo)) as [Hl|Hl].
    + left. exists r. split; [reflexivity | apply in_seq; lia].
    + right; right. exists r. split; [reflexivity | apply in_seq].
      apply andb_false_iff in H. rewrite !Z.leb_gt in H. unfold highr, lowr in *. lia.
Qed.

(** A register is idle at most once in a layer. *)
Lemma idle_once : forall n (l1 l2 : list op) q d d', tiles n (l1 ++ OI q d :: l2) -> In (OI q d') (l1 ++ l2) -> False.
Proof.
  intros n l1 l2 q d d' [T1 T2] Hin.
  assert (Hne : occupies n (OI q d : op) <> []) by (apply T2; apply in_app_iff; right; left; reflexivity).
  destruct (occupies n (OI q d : op)) as [|x xs] eqn:Ex; [congruence|].
  assert (Ho : occupies n (OI q d' : op) = x :: xs) by exact Ex.
  rewrite map_app, concat_app in T1. cbn [map concat] in T1. rewrite Ex in T1.
  assert (ND : NoDup (concat (map (occupies n) l1) ++ (x :: xs) ++ concat (map (occupies n) l2))) by (rewrite T1; apply seq_NoDup).
  cbn [app] in ND. apply NoDup_remove_2 in ND. apply ND. apply in_app_iff in Hin as [Hin|Hin]; apply in_app_iff.
  - left. apply in_concat. exists (occupies n (OI q d' : op)). split; [apply in_map; exact Hin | rewrite Ho; left; reflexivity].
  - right. apply in_app_iff. right. apply in_concat. exists (occupies n (OI q d' : op)).
    split; [apply in_map; exact Hin | rewrite Ho; left; reflexivity].
Qed.

Definition tracks (n : nat) (c : circuit) (busy : nat -> bool) : Prop :=
  forall r, r < n -> (idle_at_end c (Z.of_nat r) <-> busy r = false).

Lemma asks_depth : forall dims ks prog, dims <> [] -> (forall d, In d dims -> 0 < d) ->
  Forall2 (denotes dims) ks prog -> Forall (gate_ok dims) prog ->
  forall init bss (c : circuit) l0 ls busy, good dims init bss c -> minv (length dims) c false l0 ls ->
  tracks (length dims) c busy ->
  exists ls', minv (length dims) (after c ks) false l0 ls' /\ length ls' = length ls + layering busy prog.
Proof.
  intros dims ks prog Hne Hpos HF; induction HF as [|k g ks prog Hk HF IH]; intros Hok init bss c l0 ls busy Hg I HT.
  - exists ls. split; [exact I|]. cbn [layering]. lia.
  - inversion Hok as [|? ? Hok1 Hok2]; subst.
    destruct (script_good L Hne Hpos (Forall2_cons k g Hk (Forall2_nil _)) (Forall_cons _ Hok1 (Forall_nil _)) Hg)
      as [c1 [bss1 [E1 [Hg1 _]]]]. cbn [script] in E1.
    destruct (api c k) as [[c' b]|e] eqn:Ea; cbn [bind] in E1; [|discriminate]. injection E1 as ->.
    assert (Hn : 0 < length dims) by (destruct dims; [congruence|simpl; lia]).
    assert (Hm : k <> CMeasureAll) by (intros ->; inversion Hk).
    destruct (gate_call I Hn Hm Ea) as [o [lo [hi [ls1 [Hi [Hr [I1 [_ [Had D]]]]]]]]].
    change (after c (k :: ks)) with (after (step c k) ks). unfold step. rewrite Ea.
    destruct (issues_not_init Hi) as [_ [_ Hig]].
    assert (Hcov : forall r, covers o r = within (touches g) r) by (intros r; apply (issued_covers r Hk Hi Hok1)).
    (* what the last layer looks like afterwards *)
    assert (New : length ls1 = Datatypes.S (length ls) -> tracks (length dims) c1 (within (touches g))).
    { intros El r Hrn. destruct Had as [Els _|lsb l1 d l2 _ Els Els' _].
      2: { exfalso. rewrite Els, Els', !app_length in El. simpl in El. lia. }
      rewrite (idle_last _ (proj1 I1)), <- Hcov, <- (@idle_layer (length dims) (c_dims c) lo hi o r Hig Hr Hrn). split.
      - intros [lsb [l [d [E Ho]]]]. rewrite Els in E. apply app_inj_tail in E as [_ <-]. exists d. exact Ho.
      - intros [d Ho]. exists ls, (layer_list (c_dims c) lo hi o (length dims)), d. auto. }
    assert (Old : forall q, (forall r, may_share k r <-> r = Z.of_nat q) -> length ls1 = length ls ->
                  tracks (length dims) c1 (fun x => Nat.eqb q x || busy x)).
    { intros q Hq El r Hrn. destruct Had as [Els _|lsb l1 d l2 Hx Els Els' Hrg].
      { exfalso. rewrite Els, app_length in El. simpl in El. lia. }
      assert (Eq : qreg_of o = Z.of_nat q) by (apply Hq; apply (issues_share _ Hi); auto).
      assert (HT' : tiles (length dims) (l1 ++ OI (qreg_of o) d :: l2)).
      { pose proof (i_tile (proj1 I)) as T. rewrite Forall_forall in T. apply T. rewrite Els. apply in_app_iff. right; left; reflexivity. }
      rewrite (idle_last _ (proj1 I1)), orb_false_iff, <- (HT r Hrn), (idle_last _ (proj1 I)), Nat.eqb_neq. split.
      - intros [lsb' [l [d' [E Ho]]]]. rewrite Els' in E. apply app_inj_tail in E as [-> <-].
        assert (Hin : In (OI (Z.of_nat r) d') (l1 ++ l2)).
        { apply in_app_iff in Ho as [Ho|[Ho|Ho]]; apply in_app_iff; auto. subst o. discriminate. }
        split.
        + intros ->. rewrite <- Eq in Hin. exact (@idle_once _ _ _ _ _ _ HT' Hin).
        + exists lsb', (l1 ++ OI (qreg_of o) d :: l2), d'. split; [exact Els|].
          apply in_app_iff in Hin as [Hin|Hin]; apply in_app_iff; [left | right; right]; exact Hin.
      - intros [Hne' [lsb' [l [d' [E Ho]]]]]. rewrite Els in E. apply app_inj_tail in E as [-> <-].
        exists lsb', (l1 ++ o :: l2), d'. split; [exact Els'|].
        apply in_app_iff in Ho as [Ho|[Ho|Ho]]; apply in_app_iff; [left; exact Ho | | right; right; exact Ho].
        exfalso. injection Ho as Ho _. lia. }
    assert (Multi : (forall r, ~ may_share k r) -> exists ls', minv (length dims) (after c1 ks) false l0 ls' /\
                      length ls' = length ls + (1 + layering (within (touches g)) prog)).
    { intros Hs. destruct D as [[_ [r [X _]]]|[El _]]; [elim (Hs r X)|].
      destruct (IH Hok2 _ _ _ _ _ _ Hg1 I1 (New El)) as [ls' [I' E']]. exists ls'. split; [exact I' | lia]. }
    assert (Single : forall q, q < length dims -> touches g = [q] -> (forall r, may_share k r <-> r = Z.of_nat q) ->
              exists ls', minv (length dims) (after c1 ks) false l0 ls' /\
                length ls' = length ls + (if busy q then 1 + layering (Nat.eqb q) prog
                                          else layering (fun x => Nat.eqb q x || busy x) prog)).
    { intros q Hqn Et Hs. destruct D as [[El [r [X Y]]]|[El X]].
      - apply Hs in X. subst r. apply (HT q Hqn) in Y. rewrite Y.
        destruct (IH Hok2 _ _ _ _ _ _ Hg1 I1 (Old q Hs El)) as [ls' [I' E']]. exists ls'. split; [exact I' | lia].
      - assert (Y : busy q = true).
        { destruct (busy q) eqn:Eb; [reflexivity|]. exfalso. apply X. exists (Z.of_nat q).
          split; [apply Hs; reflexivity | apply (HT q Hqn); exact Eb]. }
        rewrite Y. destruct (IH Hok2 _ _ _ _ _ _ Hg1 I1 (New El)) as [ls' [I' E']]. exists ls'. split; [exact I'|].
        rewrite E', (layering_ext prog (within (touches g)) (Nat.eqb q)); [lia|].
        intros r. rewrite Et. unfold within. simpl. rewrite !orb_false_r.
        destruct (Nat.eqb_spec q r), (Nat.leb_spec q r), (Nat.leb_spec r q); try reflexivity; lia. }
    destruct Hk; cbn [layering]; cbn [gate_ok] in Hok1.
    + apply Single; [tauto | reflexivity | intros x; cbn [may_share]; split; intros ->; reflexivity].
    + apply Single; [tauto | reflexivity | intros x; cbn [may_share]; split; intros ->; reflexivity].
    + apply Single; [tauto | reflexivity | intros x; cbn [may_share]; split; intros ->; reflexivity].
    + apply Multi. intros x X. exact X.
    + apply Multi. intros x X. exact X.
    + apply Multi. intros x X. exact X.
    + apply Multi. intros x X. exact X.
Qed.

Theorem asks_depth_reported : forall dims levels out ks prog tail (c : circuit),
  dims <> [] -> (forall d, In d dims -> 2 <= d) ->
  length levels <= length dims -> valid dims (start dims levels) ->
  Forall2 (denotes dims) ks prog -> Forall (gate_ok dims) prog ->
  tail = [] \/ (exists rest, tail = CMeasureAll :: rest) ->
  history (QList (map Z.of_nat dims)) (Some (map Z.of_nat levels)) out (ks ++ tail) c ->
  get_circuit_config c = Ok (WInt (Z.of_nat (length dims)), Z.of_nat (layering (fun _ => true) prog)).
Proof.
  intros dims levels out ks prog tail c Hne Hd Hlen Hv HF Hok Ht H.
  assert (Hq := history_qregs H). destruct H as [c0 [E0 ->]].
  assert (Hpos : forall d, In d dims -> 0 < d) by (intros d X; specialize (Hd d X); lia).
  assert (Hn : 0 < length dims) by (destruct dims; [congruence|simpl; lia]).
  destruct (@mk_circuit_good S dims levels out Hd Hlen Hv) as [c0' [E0' [Hg0 _]]]. rewrite E0 in E0'. injection E0' as <-.
  destruct (new_minv _ _ _ E0) as [l0 I0]. cbn [nregs] in I0. rewrite map_length in I0.
  assert (HT : tracks (length dims) c0 (fun _ => true)).
  { intros r Hr. rewrite (idle_last _ (proj1 I0)). split; [|discriminate]. intros [lsb [l [d [E _]]]]. destruct lsb; discriminate. }
  destruct (asks_depth Hne Hpos HF Hok Hg0 I0 HT) as [ls [I El]]. cbn [length] in El.
  assert (W : config_width (after c0 (ks ++ tail)) = WInt (Z.of_nat (length dims))).
  { unfold config_width. rewrite Hq. rewrite map_length. reflexivity. }
  destruct Ht as [->|[rest ->]].
  - rewrite app_nil_r in *. rewrite (minv_config I), W, El. reflexivity.
  - unfold after in *. rewrite fold_left_app in *. fold (after c0 ks) in *. cbn [fold_left] in *.
    fold (after (step (after c0 ks) CMeasureAll) rest) in *.
    destruct (step_minv CMeasureAll I) as [ls' I']. cbn [is_measure_all] in I'.
    rewrite (proj2 (Nat.ltb_lt 0 _) Hn), orb_true_r in I'. rewrite (after_measured rest I') in *.
    destruct (inv_measure (proj1 I)) as [c2 [E2 X]]. unfold step in *. rewrite E2 in *.
    destruct X as [[X _]|[_ [_ [X _]]]]; [destruct X; [discriminate | lia]|].
    rewrite (minv_config (conj X (proj2 I))), W, El. reflexivity.
Qed.
End InfoDepth.
