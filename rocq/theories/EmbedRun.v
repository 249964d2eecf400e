(** * EmbedRun: runs that end with a program on some registers. *)
From Verif Require Import Py Scalar Mat Utils Gates Circuit Spec Calls Lib Flow Layers Blocks Refine Run Reversible Parts PartsSpec Moved Local Product Jozsa RenameSpec EmbedSpec Embed Protocols Props_Run.
Set Implicit Arguments.

Section EmbedRun.
Variable S : scalar.
Variable L : scalar_laws S.
Add Ring Sring : (sl_ring L).
Notation gate := (gate S).

Lemma listed_answer : forall dims (psi : state S) s, valid dims s -> listed (answer dims psi) s = psi s.
Proof.
  intros dims psi s Hs. apply in_all_configs in Hs. unfold listed, answer.
  induction (all_configs dims) as [|t l IH]; [destruct Hs|]. cbn [filter].
  destruct (seqb (psi t) s0) eqn:E; cbn [negb].
  - destruct Hs as [->|Hs]; [|apply IH, Hs]. apply (sl_eqb L) in E. rewrite E. clear IH.
    induction l as [|u l IH]; [reflexivity|]. cbn [filter]. destruct (seqb (psi u) s0) eqn:F; cbn [negb]; [exact IH|].
    cbn [map find]. destruct (config_eqb u s) eqn:G; [|exact IH]. apply config_eqb_eq in G. subst u. rewrite (proj2 (sl_eqb L _ _) E) in F. discriminate.
  - cbn [map find]. destruct (config_eqb t s) eqn:G; [apply config_eqb_eq in G; subst; reflexivity|].
    destruct Hs as [->|Hs]; [rewrite config_eqb_refl in G; discriminate | apply IH, Hs].
Qed.

Lemma listed_in : forall (l : list (config * S)) s, listed l s = s0 \/ In (s, listed l s) l.
Proof.
  intros l s. unfold listed. destruct (find _ l) as [[t a]|] eqn:E; [right | left; reflexivity].
  apply find_some in E as [Hin E]. apply config_eqb_eq in E. subst t. exact Hin.
Qed.

Lemma asks_both : forall dims (ks1 ks2 : list (call S)) p1 p2, asks dims ks1 p1 -> asks dims ks2 p2 -> asks dims (ks1 ++ ks2) (p1 ++ p2).
Proof. intros dims ks1 ks2 p1 p2 [A B] [C D]. split; [apply Forall2_app; assumption | apply Forall_app; split; assumption]. Qed.

Variables (B : backend S) (dims levels : list nat) (out : option output) (ty : output_type) (me : output_method).
Hypothesis HB : supported B.
Hypothesis HL : line dims levels.
Hypothesis Hw : wants dims out ty me.
Let go := simulate B (QList (map Z.of_nat dims)) (Some (map Z.of_nat levels)) out.

Theorem part_run : forall ks1 ks2 prog1 rs (prog : list gate), NoDup rs -> (forall r, In r rs -> r < length dims) ->
  let f := fun i => nth i rs 0 in
  asks dims ks1 prog1 -> asks dims ks2 (map (rename f) prog) -> Forall (gate_ok (part rs dims)) prog -> (forall g, In g prog -> together f g) ->
  let l1 := answer dims (final dims prog1 (basis S (start dims levels))) in
  exists l2, go ks1 = Ok (report ty me l1) /\ go (ks1 ++ ks2) = Ok (report ty me l2) /\
    (forall s a, In (s, a) (l1 ++ l2) -> valid dims s) /\
    forall s, valid dims s -> listed l2 s = final (part rs dims) prog (fun t => listed l1 (puts s rs t)) (there rs s).
Proof.
  intros ks1 ks2 prog1 rs prog Hn Hr f A1 A2 Hg Hto l1.
  exists (answer dims (final dims (prog1 ++ map (rename f) prog) (basis S (start dims levels)))).
  split; [exact (C01_run_applies_gates_in_order S L B dims levels out ty me ks1 prog1 HB HL Hw A1)|].
  split; [exact (C01_run_applies_gates_in_order S L B dims levels out ty me _ _ HB HL Hw (asks_both A1 A2))|].
  split; [intros s a H; apply in_app_iff in H as [H|H]; eapply answer_valid; exact H|].
  intros s Hs. rewrite listed_answer by exact Hs. rewrite final_app.
  rewrite (final_embed L Hn Hr) by (try assumption; apply A2). apply final_ext.
  - intros t Ht. unfold l1. symmetry. apply listed_answer. apply puts_valid; assumption.
  - apply there_valid; assumption.
Qed.

(** A register that starts at level 0 and is not changed. *)
Lemma still_zero : forall ks1 prog1 b s, asks dims ks1 prog1 -> b < length dims -> level (start dims levels) b = 0 ->
  (forall g, In g prog1 -> ~ In b (changes g)) -> level s b <> 0 ->
  listed (answer dims (final dims prog1 (basis S (start dims levels)))) s = s0.
Proof.
  intros ks1 prog1 b s A Hb H0 Hc Hl. destruct (listed_in (answer dims (final dims prog1 (basis S (start dims levels)))) s) as [E|Hs]; [exact E|].
  apply answer_valid in Hs. rewrite listed_answer by exact Hs.
  apply (final_holds L) with (r := b) (a := 0); [apply A | exact Hc | | exact Hs | exact Hl].
  intros t Ht Hne. unfold basis. destruct (config_eqb _ t) eqn:E; [|reflexivity]. apply config_eqb_eq in E. subst t. contradiction.
Qed.
End EmbedRun.
