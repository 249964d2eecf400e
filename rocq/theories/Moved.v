(** * Moved: reversible gates move the outcomes of what came before. *)
From Coq Require Import Permutation.
From Verif Require Import Py Scalar Mat Utils Gates Circuit Spec Calls Run Lib Kern Layers Refine GateMat Reversible Merge Parts PartsSpec.
Set Implicit Arguments.

Section Moved.
Variable S : scalar.
Hypothesis L : scalar_laws S.
Notation gate := (gate S).

Lemma moves_valid : forall dims (prog : list gate) s, Forall (gate_ok dims) prog -> valid dims s -> valid dims (moves dims prog s).
Proof.
  intros dims prog. induction prog as [|g prog IH]; intros s Hg Hs; [exact Hs|]. inversion Hg; subst.
  cbn [moves]. apply IH; [assumption|]. apply move_valid; assumption.
Qed.

Lemma final_moved : forall dims (prog : list gate) psi s, Forall (gate_ok dims) prog -> (forall g, In g prog -> reversible g) ->
  valid dims s -> final dims prog psi (moves dims prog s) = psi s.
Proof.
  intros dims prog. induction prog as [|g prog IH]; intros psi s Hg Hr Hs; [reflexivity|]. inversion Hg; subst.
  cbn [moves final]. rewrite IH; [|assumption | intros x Hx; apply Hr; right; exact Hx | apply move_valid; assumption].
  assert (Rg : reversible g) by (apply Hr; left; reflexivity).
  rewrite (apply_reversible L) by (try assumption; apply move_valid; assumption).
  rewrite move_undo by assumption. reflexivity.
Qed.

Lemma moves_inj : forall dims (prog : list gate) s t, Forall (gate_ok dims) prog -> (forall g, In g prog -> reversible g) ->
  valid dims s -> valid dims t -> moves dims prog s = moves dims prog t -> s = t.
Proof.
  intros dims prog. induction prog as [|g prog IH]; intros s t Hg Hr Hs Ht E; [exact E|]. inversion Hg; subst. cbn [moves] in E.
  assert (Rg : reversible g) by (apply Hr; left; reflexivity).
  assert (E' : move dims g s = move dims g t).
  { apply IH; try assumption; try (apply move_valid; assumption). intros x Hx. apply Hr. right. exact Hx. }
  rewrite <- (move_undo g Rg H1 Hs), <- (move_undo g Rg H1 Ht), E'. reflexivity.
Qed.

(** A bijection of the configurations permutes the list of all of them. *)
Lemma bijection_permutes : forall dims (f : config -> config), (forall s, valid dims s -> valid dims (f s)) ->
  (forall s t, valid dims s -> valid dims t -> f s = f t -> s = t) -> Permutation (map f (all_configs dims)) (all_configs dims).
Proof.
  intros dims f Hv Hi. apply NoDup_Permutation_bis.
  - assert (G : forall l, NoDup l -> (forall s, In s l -> valid dims s) -> NoDup (map f l)).
    { intros l Hn. induction Hn as [|x l Hx Hn IH]; intros Hl; [constructor|]. cbn [map]. constructor.
      - rewrite in_map_iff. intros [y [E Hy]]. apply Hx. replace x with y; [exact Hy|].
        apply Hi; [apply Hl; right; exact Hy | apply Hl; left; reflexivity | exact E].
      - apply IH. intros s Hs. apply Hl. right. exact Hs. }
    apply G; [apply all_configs_NoDup | intros s Hs; apply in_all_configs; exact Hs].
  - rewrite map_length. apply le_n.
  - intros s Hs. apply in_map_iff in Hs as [t [<- Ht]]. apply in_all_configs, Hv, in_all_configs. exact Ht.
Qed.

Lemma filter_map : forall A B (f : A -> B) P l, filter P (map f l) = map f (filter (fun x => P (f x)) l).
Proof. intros A B f P l. induction l as [|x l IH]; [reflexivity|]. cbn [map filter]. destruct (P (f x)); cbn [map]; rewrite IH; reflexivity. Qed.

Lemma Permutation_filter : forall A (P : A -> bool) l l', Permutation l l' -> Permutation (filter P l) (filter P l').
Proof.
  intros A P l l' H. induction H as [|x l l' H IH|x y l|l l' l'' H IH H' IH']; cbn [filter].
  - constructor.
  - destruct (P x); [constructor|]; exact IH.
  - destruct (P x), (P y); try apply Permutation_refl. apply perm_swap.
  - eapply Permutation_trans; eassumption.
Qed.

(** If every configuration [f s] has the amplitude [s] had before, the outcomes
    are the old ones, moved by [f]. *)
Lemma answer_moved : forall dims (f : config -> config) (psi psi' : config -> S), (forall s, valid dims s -> valid dims (f s)) ->
  (forall s t, valid dims s -> valid dims t -> f s = f t -> s = t) -> (forall s, valid dims s -> psi' (f s) = psi s) ->
  Permutation (answer dims psi') (map (fun '(s, a) => (f s, a)) (answer dims psi)).
Proof.
  intros dims f psi psi' Hv Hi He. unfold answer. rewrite map_map.
  eapply Permutation_trans.
  { apply Permutation_map. apply Permutation_filter. apply Permutation_sym. exact (@bijection_permutes dims f Hv Hi). }
  rewrite filter_map, map_map.
  assert (E : filter (fun x => negb (seqb (psi' (f x)) s0)) (all_configs dims) = filter (fun s => negb (seqb (psi s) s0)) (all_configs dims)).
  { apply filter_ext_in. intros s Hs. rewrite He; [reflexivity | apply in_all_configs; exact Hs]. }
  rewrite E. erewrite map_ext_in; [apply Permutation_refl|]. intros s Hs. apply filter_In in Hs as [Hs _]. cbn.
  rewrite He; [reflexivity | apply in_all_configs; exact Hs].
Qed.

Lemma answer_moves : forall dims (prog : list gate) psi, Forall (gate_ok dims) prog -> (forall g, In g prog -> reversible g) ->
  Permutation (answer dims (final dims prog psi)) (map (fun '(s, a) => (moves dims prog s, a)) (answer dims psi)).
Proof.
  intros dims prog psi Hg Hr. apply answer_moved.
  - intros s Hs. apply moves_valid; assumption.
  - intros s t Hs Ht. apply moves_inj; assumption.
  - intros s Hs. apply final_moved; assumption.
Qed.

Lemma answer_valid : forall dims (psi : config -> S) s a, In (s, a) (answer dims psi) -> valid dims s.
Proof.
  intros dims psi s a H. unfold answer in H. apply in_map_iff in H as [t [E Ht]]. inversion E; subst.
  apply filter_In in Ht as [Ht _]. apply in_all_configs. exact Ht.
Qed.
End Moved.

(** ** Two short programs *)
Section Short.
Variable S : scalar.
Notation gate := (gate S).

Lemma put_length : forall (s : config) r v, length (put s r v) = length s.
Proof. induction s as [|x s IH]; intros [|r] v; simpl; auto. Qed.

Lemma level_move_x : forall dims r p s q, valid dims s -> r < length dims ->
  level (move_x dims r p s) q = if Nat.eqb q r then shift (nth r dims 0) (level s r) p else level s q.
Proof. intros dims r p s q Hs Hr. unfold move_x. apply level_put. rewrite (valid_length Hs). exact Hr. Qed.

Lemma shift_2 : forall x, x < 2 -> shift 2 x 1 = 1 - x.
Proof. intros [|[|x]] H; [reflexivity | reflexivity | lia]. Qed.

Lemma swap_moves : forall dims a b s, a < length dims -> b < length dims -> a <> b -> nth a dims 0 = 2 -> nth b dims 0 = 2 ->
  valid dims s -> moves dims [GCX a b 1; GCX b a 1; GCX (S := S) a b 1] s = put (put s a (level s b)) b (level s a).
Proof.
  intros dims a b s Ha Hb Hn Da Db Hs. cbn [moves move].
  pose proof (valid_level Hs Ha) as La. pose proof (valid_level Hs Hb) as Lb. rewrite Da in La. rewrite Db in Lb.
  assert (V : forall c t u, valid dims u -> c < length dims -> t < length dims -> valid dims (move_cx dims c t 1 u))
    by (intros; apply move_cx_valid; assumption).
  assert (G : forall c t u q, valid dims u -> c < length dims -> t < length dims -> nth c dims 0 = 2 -> nth t dims 0 = 2 ->
    level (move_cx dims c t 1 u) q = if Nat.eqb q t then (if Nat.eqb (level u c) 1 then 1 - level u t else level u t) else level u q).
  { intros c t u q Hu Hc Ht Dc Dt. unfold move_cx, top. rewrite Dc.
    replace (level u c + 1 =? 2) with (level u c =? 1)
      by (destruct (Nat.eqb_spec (level u c) 1), (Nat.eqb_spec (level u c + 1) 2); lia || reflexivity).
    pose proof (valid_level Hu Ht) as X. rewrite Dt in X.
    destruct (level u c =? 1).
    - rewrite level_move_x by assumption. rewrite Dt, shift_2 by exact X. reflexivity.
    - destruct (Nat.eqb_spec q t); subst; reflexivity. }
  assert (V1 := V a b s Hs Ha Hb). assert (V2 := V b a _ V1 Hb Ha). assert (V3 := V a b _ V2 Ha Hb).
  apply level_ext.
  - rewrite (valid_length V3), !put_length, (valid_length Hs). reflexivity.
  - intros q Hq. rewrite !G by assumption. rewrite !level_put by (rewrite ?put_length, (valid_length Hs); assumption).
    rewrite !Nat.eqb_refl.
    assert (Nat.eqb a b = false) as -> by (apply Nat.eqb_neq; exact Hn).
    assert (Nat.eqb b a = false) as -> by (apply Nat.eqb_neq; lia).
    destruct (Nat.eqb_spec q b) as [->|]; [|destruct (Nat.eqb_spec q a) as [->|]; [|reflexivity]];
    destruct (level s a) as [|[|]]; try lia; destruct (level s b) as [|[|]]; try lia; reflexivity.
Qed.

(** What a cx from [a] to [b] does to one level of [b], and back. *)
Lemma raised_moves : forall dims a b t p q s, a < length dims -> b < length dims -> t < length dims -> a <> b -> b <> t -> a <> t ->
  valid dims s -> sums_to (nth b dims 0) 1 q 0 -> level s b + 1 < nth b dims 0 ->
  moves dims [GCX a b 1; GCX b t p; GCX (S := S) a b q] s
  = if top dims s a && Nat.eqb (level s b + 2) (nth b dims 0) then move_x dims t p s else s.
Proof.
  intros dims a b t p q s Ha Hb Ht Hab Hbt Hat Hs Hq Hl. cbn [moves move].
  unfold move_cx at 3. destruct (top dims s a) eqn:Ta; cbn [andb].
  - set (s1 := move_x dims b 1 s).
    assert (V1 : valid dims s1) by (apply move_x_valid; assumption).
    assert (B1 : level s1 b = level s b + 1).
    { unfold s1. rewrite level_move_x, Nat.eqb_refl by assumption. unfold shift. rewrite Z.mod_small; lia. }
    assert (E : forall u, valid dims u -> level u b = level s b + 1 -> (forall r, r <> b -> r <> t -> level u r = level s r) ->
      move_cx dims a b q u = put u b (level s b)).
    { intros u Vu Bu Ou. unfold move_cx. replace (top dims u a) with (top dims s a) by (unfold top; rewrite Ou by assumption; reflexivity).
      rewrite Ta. unfold move_x. f_equal. rewrite Bu. destruct Hq as [k Hk]. unfold shift.
      replace (Z.of_nat (level s b + 1) + q)%Z with (Z.of_nat (level s b) + k * Z.of_nat (nth b dims O))%Z by lia.
      rewrite Z.mod_add, Z.mod_small by lia. lia. }
    unfold move_cx at 2. replace (top dims s1 b) with (level s b + 2 =? nth b dims 0)
      by (unfold top; rewrite B1; f_equal; lia).
    destruct (Nat.eqb_spec (level s b + 2) (nth b dims 0)) as [Eb|Eb].
    + rewrite E.
      * unfold s1, move_x at 1. rewrite level_move_x by assumption. rewrite (proj2 (Nat.eqb_neq t b)) by lia.
        unfold move_x. apply level_ext.
        -- rewrite !put_length. reflexivity.
        -- intros r Hr. rewrite !level_put by (rewrite ?put_length, (valid_length Hs); assumption).
           destruct (Nat.eqb_spec r b) as [->|]; [rewrite (proj2 (Nat.eqb_neq b t)) by exact Hbt; reflexivity | reflexivity].
      * apply move_x_valid; assumption.
      * rewrite level_move_x by assumption. rewrite (proj2 (Nat.eqb_neq b t)) by exact Hbt. exact B1.
      * intros r H1 H2. rewrite level_move_x by assumption. rewrite (proj2 (Nat.eqb_neq r t)) by exact H2.
        unfold s1. rewrite level_move_x by assumption. rewrite (proj2 (Nat.eqb_neq r b)) by exact H1. reflexivity.
    + rewrite E; [|exact V1 | exact B1|].
      * unfold s1, move_x. rewrite put_put, put_level. reflexivity.
      * intros r H1 _. unfold s1. rewrite level_move_x by assumption. rewrite (proj2 (Nat.eqb_neq r b)) by exact H1. reflexivity.
  - unfold move_cx at 2. replace (top dims s b) with false by (symmetry; apply Nat.eqb_neq; lia).
    unfold move_cx. rewrite Ta. reflexivity.
Qed.
End Short.

(** ** Gates that move every configuration alike *)
Section Alike.
Variable S : scalar.
Hypothesis L : scalar_laws S.

Lemma alike_apply : forall dims (g h : gate S) psi s, is_classical g = true -> is_classical h = true ->
  (forall u, move dims g u = move dims h u) -> valid dims s -> apply dims g psi s = apply dims h psi s.
Proof.
  intros dims g h psi s Hg Hh E Hs. rewrite !apply_kapply, !amp_reversible by assumption.
  unfold kapply. apply bsum_ext. intros u _. unfold classical. rewrite E. reflexivity.
Qed.

Lemma alike_simulate : forall dims levels out ty me ks1 ks2 k k' prog1 prog2 (g h : gate S),
  dims <> [] -> (forall d, In d dims -> 2 <= d) -> length levels <= length dims -> valid dims (start dims levels) ->
  wants dims out ty me ->
  Forall2 (denotes dims) ks1 prog1 -> Forall (gate_ok dims) prog1 -> Forall2 (denotes dims) ks2 prog2 -> Forall (gate_ok dims) prog2 ->
  denotes dims k g -> denotes dims k' h -> gate_ok dims g -> gate_ok dims h -> is_classical g = true -> is_classical h = true ->
  (forall u, move dims g u = move dims h u) ->
  simulate (NumpyBackend S) (QList (map Z.of_nat dims)) (Some (map Z.of_nat levels)) out (ks1 ++ k :: ks2)
  = simulate (NumpyBackend S) (QList (map Z.of_nat dims)) (Some (map Z.of_nat levels)) out (ks1 ++ k' :: ks2).
Proof.
  intros dims levels out ty me ks1 ks2 k k' prog1 prog2 g h H1 H2 H3 H4 Hw F1 O1 F2 O2 Dk Dk' Og Oh Cg Ch E.
  apply (simulate_same L) with (ty := ty) (me := me) (prog := prog1 ++ g :: prog2) (prog' := prog1 ++ h :: prog2); try assumption.
  1,3: apply Forall2_app; [exact F1|]; constructor; assumption.
  1,2: apply Forall_app; split; [exact O1|]; constructor; assumption.
  intros psi s Hs. rewrite !final_app. cbn [final]. apply final_ext; [|exact Hs]. intros u Hu. apply alike_apply; assumption.
Qed.
End Alike.
