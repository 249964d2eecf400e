(** * TreeGates: the fields of the gates in the decomposition. *)
From Verif Require Import Py Scalar Mat Utils Gates Circuit Spec Lib Tree TreeSpec TreeLib TreeMap TreeRun TreeEnd.
Open Scope Z_scope.
Ltac Zify.zify_post_hook ::= Z.div_mod_to_equations.

Section Fields.
Variables c D : Z.
Hypothesis Hc : 2 <= c.
Hypothesis HD : Z.log2 c <= D.

Lemma in_all_gates : forall levels g, In g (all_gates levels) <->
  exists level l r, In level levels /\ In (l, r) level /\ (l = Some g \/ r = Some g).
Proof.
  intros levels g. unfold all_gates. rewrite in_flat_map. split.
  - intros [level [H1 H2]]. apply in_flat_map in H2 as [[l r] [H2 H3]]. exists level, l, r. split; [exact H1|]. split; [exact H2|].
    unfold decomp_gates in H3. cbn [fst snd] in H3. apply in_app_iff in H3 as [H3|H3].
    + left. destruct l; [|contradiction]. destruct H3 as [->|[]]. reflexivity.
    + right. destruct r; [|contradiction]. destruct H3 as [->|[]]. reflexivity.
  - intros [level [l [r [H1 [H2 H3]]]]]. exists level. split; [exact H1|]. apply in_flat_map. exists (l, r). split; [exact H2|].
    unfold decomp_gates. cbn [fst snd]. apply in_app_iff. destruct H3 as [->| ->]; [left|right]; left; reflexivity.
Qed.

Lemma in_levels : forall (f : Z -> decomp) l g, (l = zrange 0 D \/ l = rev (zrange 0 D)) ->
  (In g (all_gates (map (fun i => map f (lev c D i)) l)) <-> exists v, 1 <= v /\ int c v = true /\ In g (decomp_gates (f v))).
Proof.
  intros f l g Hl. rewrite all_gates_levels, in_flat_map. split.
  - intros [i [_ H]]. apply in_flat_map in H as [v [H1 H2]]. apply in_lev in H1 as [H1 [H3 _]]. exists v. auto.
  - intros [v [H1 [H2 H3]]]. exists (idx c D v). assert (Hi : 0 <= idx c D v < D) by (apply idx_range; assumption || lia). split.
    + assert (K : In (idx c D v) (zrange 0 D)) by (apply in_zrange; exact Hi).
      destruct Hl as [-> | ->]; [exact K | apply -> in_rev; exact K].
    + apply in_flat_map. exists v. split; [|exact H3]. apply in_lev; auto.
Qed.

Lemma in_final : forall g, In g (all_gates (final_levels c D)) <->
  g = main_gate (c + 1) \/
  exists v, 1 <= v /\ int c v = true /\ (In g (decomp_gates (dec c v)) \/ In g (decomp_gates (rdec c v))).
Proof.
  intros g. unfold final_levels. rewrite !all_gates_app, !in_app_iff. unfold the_levels, the_reflection.
  rewrite !in_levels by auto. split.
  - intros [[v [H1 [H2 H3]]]|[[H|[]]|[v [H1 [H2 H3]]]]]; [right | left | right].
    + exists v. auto.
    + auto.
    + exists v. auto.
  - intros [->|[v [H1 [H2 [H3|H3]]]]].
    + right; left. left. reflexivity.
    + left. exists v. auto.
    + right; right. exists v. auto.
Qed.

Lemma rdec_flip : forall v g, In g (decomp_gates (rdec c v)) <-> exists h, In h (decomp_gates (dec c v)) /\ g = flip h.
Proof.
  intros v g. unfold rdec, decomp_gates. destruct (dec c v) as [[l|] [r|]]; cbn [fst snd option_map opt_list app]; split.
  all: try (intros [<-|[<-|[]]]; [exists r | exists l]; simpl; auto; fail).
  all: try (intros [<-|[]]; (exists l + exists r); simpl; auto; fail).
  all: try (intros [h [[<-|[<-|[]]] ->]]; simpl; auto; fail).
  all: try (intros [h [[<-|[]] ->]]; simpl; auto; fail).
  - intros [].
  - intros [h [[] _]].
Qed.

(** The control and target of one gate and what it is labelled with. *)
Definition off (v : Z) : Z := if (4 <=? c) && (c mod 4 <? 2) && (v =? 2 * (c / 4) + 1) then 1 else 0.
Definition labelled_well (g : tgate) : Prop :=
  g_cstate g = Z.of_nat (nd c (g_control g)) - 1 + off (g_control g) /\
  (g_target g = g_control g + 1 /\ Z.even (g_control g) = true /\ g_tstate g = Z.of_nat (nd c (g_target g)) + off (g_target g) \/
   g_target g = g_control g / 2 /\ 2 <= g_control g <= c /\ g_tstate g = 3) /\
  (g_tq g = Quaternary <-> g_tstate g = 4 \/ g_cstate g = 3).

Lemma dec_labels : forall v g, 1 <= v -> int c v = true -> In g (decomp_gates (dec c v)) -> labelled_well g /\ g_sign g = Plus.
Proof.
  intros v g H1 H2 Hg. apply (int_le c v) in H2.
  assert (O1 : Z.odd (v * 2) = false) by (rewrite Z.odd_mul; apply andb_false_r).
  assert (O2 : Z.odd (v * 2 + 1) = true) by (rewrite Z.odd_add, O1; reflexivity).
  assert (E1 : Z.even (v * 2) = true) by (rewrite <- Z.negb_odd, O1; reflexivity).
  unfold dec in Hg. rewrite !Z.gtb_ltb in Hg.
  destruct (Z.ltb_spec (gp c) v) as [G|G]; [destruct (Z.ltb_spec c (v * 2 + 1)) as [R|R] | destruct (Z.eqb_spec v (gp c)) as [W|W]].
  all: unfold make_gates, mk_gate, decomp_gates in Hg; cbn [fst snd opt_list app] in Hg.
  all: unfold gp in *.
  all: repeat (destruct Hg as [<-|Hg]); try contradiction.
  all: split; [|reflexivity]; unfold labelled_well; cbn [g_cstate g_tstate g_control g_target g_tq].
  all: unfold off, nd, int, rgt; rewrite ?O1, ?O2.
  all: repeat (match goal with |- context [Z.eqb ?a ?b] => destruct (Z.eqb_spec a b) end; try lia).
  all: repeat (match goal with |- context [Z.leb ?a ?b] => destruct (Z.leb_spec a b) end; try lia).
  all: repeat (match goal with |- context [Z.ltb ?a ?b] => destruct (Z.ltb_spec a b) end; try lia).
  all: cbn [andb negb Nat.b2n Nat.add]; repeat split; try lia; try (intros; discriminate).
  all: try (intros [K|K]; lia || reflexivity).
  all: try (left; repeat split; (assumption || lia)).
  all: try (right; repeat split; lia).
Qed.
End Fields.
