(** * BatchLib: the names of result files and the effect of a batch. *)
From Coq Require Import Ascii String.
From Verif Require Import Py Scalar Mat Utils Gates Circuit Info Qasm Batch BackendEq.
Set Implicit Arguments.
Open Scope list_scope.

Lemma name_eqb_eq : forall a b, name_eqb a b = true <-> a = b.
Proof. intros a b. unfold name_eqb. destruct (list_eq_dec ascii_dec a b); split; congruence. Qed.
Lemma name_eqb_refl : forall a, name_eqb a a = true.
Proof. intros a. apply name_eqb_eq. reflexivity. Qed.
Lemma name_eqb_neq : forall a b, a <> b -> name_eqb a b = false.
Proof. intros a b H. destruct (name_eqb a b) eqn:E; [|reflexivity]. apply name_eqb_eq in E. contradiction. Qed.

Lemma split_on_nonempty : forall sep s cur, split_on sep cur s <> [].
Proof. intros sep s. induction s as [|c s IH]; intros cur; simpl; [discriminate|]. destruct (Ascii.eqb c sep); [discriminate | apply IH]. Qed.

Lemma join_cons : forall sep x l, l <> [] -> str_join sep (x :: l) = x ++ sep ++ str_join sep l.
Proof. intros sep x [|y l] H; [contradiction | reflexivity]. Qed.

(** Splitting and joining. *)
Lemma split_on_app : forall sep e, ~ In sep e -> forall base cur,
  split_on sep cur (base ++ sep :: e) = split_on sep cur base ++ [e].
Proof.
  intros sep e He base. induction base as [|c base IH]; intros cur; simpl.
  - rewrite Ascii.eqb_refl. f_equal.
    assert (G : forall s acc, ~ In sep s -> split_on sep acc s = [rev acc ++ s]).
    { induction s as [|x s IHs]; intros acc Hs; simpl; [rewrite app_nil_r; reflexivity|].
      destruct (Ascii.eqb_spec x sep) as [->|N]; [exfalso; apply Hs; left; reflexivity|].
      rewrite IHs by (intros H; apply Hs; right; exact H). simpl. rewrite <- app_assoc. reflexivity. }
    rewrite G by exact He. reflexivity.
  - destruct (Ascii.eqb c sep); [|apply IH]. rewrite IH. reflexivity.
Qed.

Lemma join_split : forall sep base cur, str_join [sep] (split_on sep cur base) = rev cur ++ base.
Proof.
  intros sep base. induction base as [|c base IH]; intros cur; simpl split_on; [simpl; rewrite app_nil_r; reflexivity|].
  destruct (Ascii.eqb_spec c sep) as [->|N].
  - rewrite join_cons by apply split_on_nonempty. rewrite IH. reflexivity.
  - rewrite IH. simpl. rewrite <- app_assoc. reflexivity.
Qed.

Lemma output_name_ext : forall base ext suffix, ~ In "."%char ext ->
  output_name (base ++ "."%char :: ext) suffix = base ++ lit "-" ++ suffix ++ lit ".pkl".
Proof.
  intros base ext suffix H. unfold output_name, str_split. rewrite split_on_app by exact H. rewrite removelast_last.
  change (lit ".") with ["."%char]. rewrite join_split. reflexivity.
Qed.

(** A name without a dot is dropped altogether. *)
Lemma output_name_nodot : forall file suffix, ~ In "."%char file -> output_name file suffix = lit "-" ++ suffix ++ lit ".pkl".
Proof.
  intros file suffix H. unfold output_name, str_split.
  assert (G : forall s acc, ~ In "."%char s -> split_on "." acc s = [rev acc ++ s]).
  { induction s as [|x s IHs]; intros acc Hs; simpl; [rewrite app_nil_r; reflexivity|].
    destruct (Ascii.eqb_spec x ".") as [->|N]; [exfalso; apply Hs; left; reflexivity|].
    rewrite IHs by (intros H'; apply Hs; right; exact H'). simpl. rewrite <- app_assoc. reflexivity. }
  rewrite G by exact H. reflexivity.
Qed.

(** Names with the ending .pkl are no sources. *)
Lemma output_not_source : forall file suffix base ext, output_name file suffix = base ++ "."%char :: ext -> ~ In "."%char ext -> ext = lit "pkl".
Proof.
  intros file suffix base ext E He. unfold output_name in E.
  set (p := str_join (lit ".") (removelast (str_split "." file)) ++ lit "-" ++ suffix).
  assert (E' : p ++ "."%char :: lit "pkl" = base ++ "."%char :: ext) by (rewrite <- E; unfold p; rewrite <- !app_assoc; reflexivity).
  assert (F : split_on "." [] (p ++ "."%char :: lit "pkl") = split_on "." [] (base ++ "."%char :: ext)) by (rewrite E'; reflexivity).
  rewrite !split_on_app in F; [|exact He | intros H; cbv in H; repeat (destruct H as [H|H]; [discriminate|]); exact H].
  apply app_inj_tail in F as [_ F]. symmetry. exact F.
Qed.

Section Batch.
Variable S : scalar.
Variable B : backend S.
Variable suffix : text.
Notation routine := (routine B suffix).

Lemma write_same : forall (d : disk S) n e, write d n e n = Some e.
Proof. intros. unfold write. rewrite name_eqb_refl. reflexivity. Qed.
Lemma write_other : forall (d : disk S) n e m, m <> n -> write d n e m = d m.
Proof. intros. unfold write. rewrite name_eqb_neq by assumption. reflexivity. Qed.

Lemma routine_other : forall d file m, m <> output_name file suffix -> routine d file m = d m.
Proof. intros d file m H. unfold Batch.routine. destruct (evaluate B d file) as [[v w]|e]; [apply write_other; exact H | reflexivity]. Qed.

Lemma routines_other : forall files d m, (forall f, In f files -> m <> output_name f suffix) -> fold_left routine files d m = d m.
Proof.
  induction files as [|f files IH]; intros d m H; [reflexivity|]. simpl. rewrite IH by (intros; apply H; right; assumption).
  apply routine_other, H. left. reflexivity.
Qed.

(** Sources [base.ext] are not written to, so each file is judged by what was
    in it at the start. *)
Lemma batch_effect : forall ext files d, ~ In "."%char ext -> ext <> lit "pkl" -> NoDup files ->
  (forall f, In f files -> exists base, f = base ++ "."%char :: ext) ->
  forall f, In f files -> fold_left routine files d (output_name f suffix)
    = match evaluate B d f with Ok (v, w) => Some (Saved v w) | Err _ => d (output_name f suffix) end.
Proof.
  intros ext files d He Hp. revert d. induction files as [|g files IH]; intros d Hn Hb f Hf; [contradiction|].
  inversion Hn as [|? ? Hg Hn']; subst. simpl.
  assert (Inj : forall a b, In a (g :: files) -> In b (g :: files) -> output_name a suffix = output_name b suffix -> a = b).
  { intros a b Ha Hb' E. destruct (Hb a Ha) as [x ->], (Hb b Hb') as [y ->]. rewrite !output_name_ext in E by exact He.
    apply app_inv_tail in E. subst. reflexivity. }
  assert (Src : forall a b, In a (g :: files) -> In b (g :: files) -> b <> output_name a suffix).
  { intros a b Ha Hb' E. destruct (Hb b Hb') as [y ->]. apply Hp. symmetry in E. exact (@output_not_source _ _ _ _ E He). }
  assert (Ev : evaluate B (routine d g) f = evaluate B d f).
  { unfold evaluate. rewrite routine_other by (apply Src; [left; reflexivity | exact Hf]). reflexivity. }
  destruct Hf as [<-|Hf].
  - rewrite routines_other by (intros h Hh E; apply Hg; replace g with h; [exact Hh|]; symmetry; apply Inj;
      [left; reflexivity | right; exact Hh | exact E]).
    unfold Batch.routine. destruct (evaluate B d g) as [[v w]|e]; [apply write_same | reflexivity].
  - rewrite IH; [|exact Hn' | intros h Hh; apply Hb; right; exact Hh | exact Hf]. rewrite Ev.
    rewrite routine_other; [reflexivity|]. intros E. apply Hg. replace g with f; [exact Hf|].
    apply Inj; [right; exact Hf | left; reflexivity | exact E].
Qed.
End Batch.

Lemma evaluate_backends : forall S (L : scalar_laws S) (d : disk S) f, evaluate (NumpyBackend S) d f = evaluate (SparseBackend S) d f.
Proof.
  intros S L d f. unfold evaluate. destruct (d f) as [[t|v w]|]; try reflexivity.
  destruct (circuit_from_qasm S t) as [c|e]; [|reflexivity]. cbn [bind]. rewrite (run_backends L c). reflexivity.
Qed.
