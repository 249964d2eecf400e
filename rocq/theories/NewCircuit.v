(** * NewCircuit: the constructor facts in the form the properties use. *)
From Verif Require Import Py Scalar Mat Utils Gates Circuit Spec Calls HistSpec Lib Flow History Relate Construct.
Set Implicit Arguments.

Lemma fine_iff : forall L lv, (forall i, i < Nat.max (length L) (length lv) -> fine L (Some lv) i) <->
  length lv <= length L /\ forall i d, nth_error L i = Some d -> (2 <= d)%Z /\ (- d <= nth i lv 0 < d)%Z.
Proof.
  intros L lv. split.
  - intros H. assert (Hl : length lv <= length L).
    { destruct (Nat.le_gt_cases (length lv) (length L)) as [Hle|Hgt]; [exact Hle|].
      destruct (H (length L)) as [d [E _]]; [lia|]. rewrite (proj2 (nth_error_None L (length L))) in E by lia. discriminate. }
    split; [exact Hl|]. intros i d Hi. assert (i < length L) by (apply nth_error_Some; congruence).
    destruct (H i ltac:(lia)) as [d' [E X]]. rewrite E in Hi. injection Hi as ->. exact X.
  - intros [Hl H] i Hi. destruct (nth_error L i) as [d|] eqn:E; [|apply nth_error_None in E; lia].
    exists d. split; [exact E|]. apply H; exact E.
Qed.

Theorem new_iff : forall S L lv out,
  (exists c, mk_circuit S (QList L) (Some lv) out = Ok c) <->
  length lv <= length L /\ forall i d, nth_error L i = Some d -> (2 <= d)%Z /\ (- d <= nth i lv 0 < d)%Z.
Proof.
  intros S L lv out. rewrite <- fine_iff. split.
  - intros [c H]. exact (new_ok_fine _ _ _ H).
  - intros H. exact (@new_fine S L (Some lv) out H).
Qed.

Theorem new_first_error : forall S L lv out e, mk_circuit S (QList L) (Some lv) out = Err e ->
  exists i,
    (forall j, j < i -> exists d, nth_error L j = Some d /\ (2 <= d)%Z /\ (- d <= nth j lv 0 < d)%Z) /\
    (i = length L /\ length L < length lv /\ e = IndexError \/
     exists d, nth_error L i = Some d /\
       ((d < 2 \/ d < nth i lv 0)%Z /\ e = ValueError \/
        (2 <= d /\ (nth i lv 0 = d \/ nth i lv 0 < - d))%Z /\ e = IndexError)).
Proof.
  intros S L lv out e H. apply new_error in H as [i [Hi [Hj He]]]. exists i. split; [exact Hj|].
  simpl given in Hi. unfold level_at in He. simpl given in He. destruct (nth_error L i) as [d|] eqn:E.
  - right. exists d. split; [reflexivity|]. destruct He as [He|[H1 [H2 H3]]]; [left; exact He | right; auto].
  - left. apply nth_error_None in E. assert (i <= length L).
    { destruct (Nat.le_gt_cases i (length L)) as [|Hgt]; [assumption|]. destruct (Hj (length L) Hgt) as [d [X _]].
      rewrite (proj2 (nth_error_None L (length L))) in X by lia. discriminate. }
    split; [lia|]. split; [lia | exact He].
Qed.

Lemma pad_more : forall n lv k, length lv + k <= n -> pad_init (Z.of_nat n) (lv ++ repeat 0%Z k) = pad_init (Z.of_nat n) lv.
Proof.
  intros n lv k H. unfold pad_init. rewrite app_length, repeat_length.
  destruct (Z.ltb_spec (Z.of_nat (length lv + k)) (Z.of_nat n)); destruct (Z.ltb_spec (Z.of_nat (length lv)) (Z.of_nat n)); try lia.
  - rewrite <- app_assoc. unfold zrepeat. rewrite <- repeat_app. do 2 f_equal. lia.
  - unfold zrepeat. do 2 f_equal. lia.
  - replace k with 0 by lia. apply app_nil_r.
Qed.

Theorem new_missing : forall S L lv out k, length lv + k <= length L ->
  mk_circuit S (QList L) (Some (lv ++ repeat 0%Z k)) out = mk_circuit S (QList L) (Some lv) out /\
  mk_circuit S (QList L) None out = mk_circuit S (QList L) (Some []) out.
Proof.
  intros S L lv out k H. split; [|reflexivity]. unfold mk_circuit, reg_layout. cbn [bind]. rewrite pad_more by exact H. reflexivity.
Qed.

Theorem simulate_negative : forall S (B : backend S) L lv out ks, length lv <= length L ->
  (forall i d, nth_error L i = Some d -> (2 <= d)%Z /\ (- d <= nth i lv 0 < d)%Z) ->
  simulate B (QList L) (Some lv) out ks
  = simulate B (QList L) (Some (map (fun '(d, s) => if (s <? 0)%Z then (d + s)%Z else s) (combine L lv))) out ks.
Proof.
  intros S B L lv out ks Hl H. rewrite (@simulate_wrapped S B L lv out ks Hl H). do 2 f_equal. unfold wrapped.
  revert lv Hl H. induction L as [|d L IH]; intros [|s lv] Hl H; try reflexivity. cbn [combine map].
  destruct (H 0 d eq_refl) as [H2 H3]. cbn [nth] in H3. f_equal.
  - destruct (Z.ltb_spec s 0).
    + rewrite <- (Z_mod_plus_full s 1 d). rewrite Z.mod_small; lia.
    + apply Z.mod_small; lia.
  - apply IH; [simpl in Hl; lia|]. intros i d' E. exact (H (Datatypes.S i) d' E).
Qed.

Theorem init_extended : forall L lv, lv <> [] -> length lv < length L ->
  init_arg_after (QList L) lv = Ok (lv ++ repeat 0%Z (length L - length lv)).
Proof.
  intros L lv Hne Hl. unfold init_arg_after, reg_layout. cbn [bind]. destruct lv as [|x lv]; [congruence|]. f_equal.
  unfold pad_init. destruct (Z.ltb_spec (Z.of_nat (length (x :: lv))) (Z.of_nat (length L))); [|lia].
  unfold zrepeat. do 2 f_equal. lia.
Qed.

Theorem second_use : forall S L L' lv out, lv <> [] -> length lv <= length L' -> length L' < length L ->
  (forall i d, nth_error L i = Some d -> (2 <= d)%Z /\ (- d <= nth i lv 0 < d)%Z) ->
  (forall i d, nth_error L' i = Some d -> (2 <= d)%Z /\ (- d <= nth i lv 0 < d)%Z) ->
  (exists c, mk_circuit S (QList L) (Some lv) out = Ok c) /\
  (exists c, mk_circuit S (QList L') (Some lv) out = Ok c) /\
  exists lv', init_arg_after (QList L) lv = Ok lv' /\ mk_circuit S (QList L') (Some lv') out = Err IndexError.
Proof.
  intros S L L' lv out Hne H1 H2 H3 H4. split; [apply new_iff; split; [lia | exact H3]|].
  split; [apply new_iff; split; [lia | exact H4]|].
  eexists. split; [apply init_extended; [exact Hne | lia]|].
  destruct (mk_circuit S (QList L') (Some (lv ++ repeat 0%Z (length L - length lv))) out) as [c|e] eqn:E.
  - exfalso. destruct (proj1 (new_iff S L' (lv ++ repeat 0%Z (length L - length lv)) out) (ex_intro _ c E)) as [X _].
    rewrite app_length, repeat_length in X. lia.
  - f_equal. apply new_first_error in E as [i [_ [[_ [_ E]]|[d [Ed E]]]]]; [exact E|].
    assert (N : nth i (lv ++ repeat 0%Z (length L - length lv)) 0%Z = nth i lv 0%Z).
    { destruct (Nat.lt_ge_cases i (length lv)) as [Hi|Hi]; [apply app_nth1; exact Hi|].
      rewrite app_nth2 by exact Hi. rewrite nth_repeat, nth_overflow by exact Hi. reflexivity. }
    rewrite N in E. apply H4 in Ed. destruct E as [[E _]|[_ E]]; [lia | exact E].
Qed.
