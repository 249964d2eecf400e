(** * QasmMarks: section markers of any text (C41). *)
From Coq Require Import String Ascii.
From Verif Require Import Py Scalar Mat Utils Gates Circuit Spec HistSpec Lib Flow History Qasm QasmSpec RegexLib QasmLib.
Set Implicit Arguments.
Local Notation length := List.length.
Local Notation T s := (lit s%string).

(** ** Inverting matches *)
Lemma span : forall (p : ascii -> bool) s, exists u t, s = u ++ t /\ Forall (fun c => p c = true) u /\ stops p t.
Proof.
  intros p s; induction s as [|c s [u [t [E [F St]]]]]; [exists [], []; repeat split; constructor|].
  destruct (p c) eqn:Ec.
  - exists (c :: u), t. rewrite E. repeat split; [constructor; assumption | exact St].
  - exists [], (c :: s). repeat split; [constructor | exact Ec].
Qed.

Lemma plus_inv : forall p s w, re_here (RPlus p) s = Some w -> exists u t, s = u ++ t /\ u <> [] /\ Forall (fun c => p c = true) u /\ stops p t /\ w = ([], u, t).
Proof.
  intros p s w H. destruct (span p s) as [u [t [E [F St]]]]. subst s. destruct u as [|c u].
  - rewrite here_plus_none in H by exact St. discriminate H.
  - rewrite here_plus in H by (assumption || discriminate). injection H as <-. exists (c :: u), t. repeat split; auto; discriminate.
Qed.

Lemma number_inv : forall w s g u t, re_here (number_of w) s = Some (g, u, t) ->
  exists d, d <> [] /\ digits d /\ g = [d] /\ s = lit w ++ d ++ t /\ stops is_digit t.
Proof.
  intros w s g u t H. unfold number_of in H. destruct (starts (lit w) s) eqn:E; [|rewrite here_word_none in H by exact E; discriminate H].
  apply starts_app in E as [b ->]. rewrite here_word, here_group in H.
  destruct (re_here (RPlus is_digit) b) as [x|] eqn:Ex; [|discriminate H]. apply plus_inv in Ex as [d [r [-> [N [D [St ->]]]]]].
  cbn in H. injection H as <- <- <-. exists d. repeat split; auto.
Qed.

Lemma number_some : forall w s c, begins (lit w ++ [c]) s -> is_digit c = true -> re_here (number_of w) s <> None.
Proof.
  intros w s c [b ->] Hc. rewrite <- app_assoc. unfold number_of. rewrite here_word, here_group.
  destruct (span is_digit ([c] ++ b)) as [u [t [E [F St]]]]. destruct u as [|x u].
  - cbn in E. subst t. cbn in St. congruence.
  - rewrite E. rewrite here_plus by (assumption || discriminate). discriminate.
Qed.

Lemma word1_inv : forall w s x, w <> [] -> re_here (word1 w) s = Some x -> starts w s = true /\ fst (fst x) = [].
Proof.
  induction w as [|a w IH]; intros s x N H; [congruence|]. destruct w as [|b w].
  - cbn [word1] in H. destruct s as [|c s]; [discriminate H|]. rewrite here_char in H. unfold is_char in H.
    destruct (Ascii.eqb a c) eqn:E; [|discriminate H]. injection H as <-. cbn. rewrite E. auto.
  - change (word1 (a :: b :: w)) with (RSeq (RChar (is_char a)) (word1 (b :: w))) in H. destruct s as [|c s]; [discriminate H|].
    rewrite here_char_seq in H. unfold is_char in H at 1. destruct (Ascii.eqb a c) eqn:E; [|discriminate H].
    destruct (re_here (word1 (b :: w)) s) as [y|] eqn:Ey; [|discriminate H]. destruct (IH _ _ ltac:(discriminate) Ey) as [G F].
    destruct y as [[g u] t]. cbn in H. injection H as <-. cbn in F. subst g. split; [|reflexivity].
    change (starts (a :: b :: w) (c :: s)) with (Ascii.eqb a c && starts (b :: w) s). rewrite E, G. reflexivity.
Qed.

(** ** Markers with a set of words *)
Definition marks (W : text -> Prop) (s : text) : Prop := exists w, W w /\ begins (nlc :: "."%char :: w) s.

Definition words0 (w : text) : Prop := w = T "begin" \/ w = T "end" \/ exists c d, white c /\ d < 10 /\ w = T "qudit" ++ [c; digit d].
Definition plus_word (W : text -> Prop) (k : string) (w : text) : Prop := W w \/ exists d, d < 10 /\ w = lit k ++ " "%char :: [digit d].

Lemma white_space : forall c, is_space c = true <-> white c.
Proof.
  intro c. unfold is_space, white, code. split; intro H.
  - apply orb_true_iff in H as [H|H]; apply andb_true_iff in H as [H1 H2]; apply Nat.leb_le in H1, H2; simpl;
      destruct (nat_of_ascii c) as [|n]; [lia| |lia|]; do 33 (destruct n as [|n]; [try lia; try tauto|]); lia.
  - simpl in H. repeat (destruct H as [<-|H]; [reflexivity|]). destruct H.
Qed.

Lemma marker_inv : forall s g u t, re_here re_marker s = Some (g, u, t) -> length g = 1 /\ marks words0 s.
Proof.
  intros s g u t H. destruct s as [|a s]; [discriminate H|].
  destruct (Ascii.eqb_spec a nlc) as [->|N]; [|rewrite marker_not_nl in H by exact N; discriminate H].
  destruct (starts (T ".") s) eqn:E; [|rewrite marker_not_dot in H; [discriminate H | intro B; apply starts_app in B; congruence]].
  apply starts_app in E as [s' ->]. cbn [app lit list_ascii_of_string] in *. unfold re_marker in H. rewrite here_char_seq in H.
  change (is_char nlc nlc) with true in H. cbn match in H. rewrite here_char_seq in H. change (is_char "." ".") with true in H. cbn match in H.
  rewrite here_group, here_alt in H.
  destruct (re_here (word (lit "qudit") (RSeq (RChar is_space) (RPlus is_digit))) s') as [x|] eqn:Ex.
  - destruct (starts (T "qudit") s') eqn:Es; [|rewrite here_word_none in Ex by exact Es; discriminate Ex].
    apply starts_app in Es as [b ->]. rewrite here_word in Ex. destruct b as [|c b]; [discriminate Ex|]. rewrite here_char_seq in Ex.
    destruct (is_space c) eqn:Ec; [|discriminate Ex]. destruct (re_here (RPlus is_digit) b) as [y|] eqn:Ey; [|discriminate Ex].
    apply plus_inv in Ey as [d [r [-> [Nd [D [St ->]]]]]]. cbn in Ex. injection Ex as <-. cbn in H. injection H as <- <- <-. split; [reflexivity|].
    destruct D as [|e d He D]; [congruence|]. destruct (digit_cases _ He) as [k [Hk ->]].
    exists (T "qudit" ++ [c; digit k]). split; [right; right; exists c, k; repeat split; [apply white_space; exact Ec | exact Hk]|].
    exists (d ++ r). reflexivity.
  - rewrite here_alt in H. destruct (re_here (word1 (lit "begin")) s') as [x|] eqn:Eb.
    + destruct (@word1_inv (T "begin") s' x ltac:(discriminate) Eb) as [G F]. destruct x as [[g1 u1] t1]. cbn in F. subst g1. cbn in H. injection H as <- <- <-.
      split; [reflexivity|]. apply starts_app in G as [b ->]. exists (T "begin"). split; [left; reflexivity | exists b; reflexivity].
    + destruct (re_here (word1 (lit "end")) s') as [x|] eqn:En; [|discriminate H].
      destruct (@word1_inv (T "end") s' x ltac:(discriminate) En) as [G F]. destruct x as [[g1 u1] t1]. cbn in F. subst g1. cbn in H. injection H as <- <- <-.
      split; [reflexivity|]. apply starts_app in G as [b ->]. exists (T "end"). split; [right; left; reflexivity | exists b; reflexivity].
Qed.

(** ** Counting *)
Inductive tallies (P : text -> Prop) : text -> nat -> Prop :=
| ta_none : tallies P [] 0
| ta_here : forall c s k, P (c :: s) -> tallies P s k -> tallies P (c :: s) (k + 1)
| ta_skip : forall c s k, ~ P (c :: s) -> tallies P s k -> tallies P (c :: s) k.

Lemma tallies_ext : forall P Q s k, (forall x, P x <-> Q x) -> tallies P s k -> tallies Q s k.
Proof.
  intros P Q s k E H; induction H as [|c s k Hp H IH|c s k Hp H IH]; [constructor | constructor; [apply E; exact Hp | exact IH]|].
  apply ta_skip; [intro Hq; apply Hp, E, Hq | exact IH].
Qed.

Lemma tallies_tail : forall P u t k, tallies P (u ++ t) k -> exists k', k' <= k /\ tallies P t k'.
Proof.
  intros P u t; induction u as [|c u IH]; intros k H; [exists k; auto|].
  cbn [app] in H. inversion H as [|? ? k1 Hp H1 |? ? k1 Hp H1]; subst; destruct (IH _ H1) as [k' [Le Hk]]; exists k'; split; auto; lia.
Qed.

Lemma split_bound : forall s cur k, tallies (marks words0) s k -> length (split_from re_marker 0 cur s) <= 1 + 2 * k.
Proof.
  intro s. remember (length s) as n eqn:En. revert s En. induction n as [n IH] using (well_founded_induction lt_wf). intros s -> cur k H.
  destruct s as [|c s]; [cbn; lia|]. destruct (re_here re_marker (c :: s)) as [[[g u] t]|] eqn:E.
  - rewrite (@split_hit _ cur _ _ _ _ E). destruct (@marker_inv _ _ _ _ E) as [G M]. destruct (@here_app _ _ _ _ _ E) as [Eu Nu].
    destruct u as [|c' u]; [congruence|]. cbn [app] in Eu. injection Eu as <- ->.
    inversion H as [|? ? k1 Hp H1 |? ? k1 Hp H1]; subst; [|contradiction].
    destruct (@tallies_tail _ _ _ _ H1) as [k' [Le Hk]]. cbn [length]. rewrite app_length, G.
    assert (B : length (split_from re_marker 0 [] t) <= 1 + 2 * k').
    { apply (IH (length t)); [cbn [length]; rewrite app_length; lia | reflexivity | exact Hk]. }
    unfold re_split. lia.
  - rewrite split_miss by exact E. inversion H as [|? ? k1 Hp H1 |? ? k1 Hp H1]; subst.
    + specialize (IH (length s) ltac:(cbn; lia) s eq_refl (c :: cur) k1 H1). lia.
    + specialize (IH (length s) ltac:(cbn; lia) s eq_refl (c :: cur) k H1). lia.
Qed.

(** ** Substituting .qubit and .qutrit *)
Section Sub.
Variables (W : text -> Prop) (k : string).
Hypothesis W_nodot : forall w, W w -> ~ In "."%char w.
Hypothesis W_qudit : forall d, d < 10 -> W (T "qudit " ++ [digit d]).
Let r := number_of (String "." (k ++ " ")).
Notation sub := (re_sub r to_dot_qudit).

Lemma lit_app : forall a b, lit (a ++ b) = lit a ++ lit b.
Proof. induction a as [|x a IH]; intro b; [reflexivity|]. cbn. f_equal. apply IH. Qed.

Lemma hit_form : forall s g u t, re_here r s = Some (g, u, t) ->
  exists d, d <> [] /\ digits d /\ s = "."%char :: (lit k ++ " "%char :: d) ++ t /\ sub s = "."%char :: T "qudit " ++ d ++ sub t.
Proof.
  intros s g u t H. rewrite (@sub_hit _ to_dot_qudit _ _ _ _ H). apply number_inv in H as [d [N [D [-> [-> St]]]]]. exists d.
  split; [exact N|]. split; [exact D|]. split; [|reflexivity].
  change (lit (String "." (k ++ " "))) with ("."%char :: lit (k ++ " ")). rewrite lit_app. cbn [app]. rewrite <- !app_assoc. reflexivity.
Qed.

Lemma begins_cons : forall (a : ascii) w x s, begins (a :: w) (x :: s) <-> a = x /\ begins w s.
Proof.
  intros a w x s. split; [intros [b E]; cbn in E; injection E as <- ->; split; [reflexivity | exists b; reflexivity]|].
  intros [<- [b ->]]. exists b. reflexivity.
Qed.

Lemma begins_sub : forall w s, ~ In "."%char w -> (begins w (sub s) <-> begins w s).
Proof.
  induction w as [|a w IH]; intros s N; [split; intros _; eexists; reflexivity|].
  destruct s as [|x s]; [split; intros [b E]; discriminate E|].
  destruct (re_here r (x :: s)) as [[[g u] t]|] eqn:E.
  - destruct (@hit_form _ _ _ _ E) as [d [_ [_ [Es ->]]]]. injection Es as -> _.
    split; intros [b Eb]; cbn in Eb; injection Eb as <- _; exfalso; apply N; left; reflexivity.
  - rewrite sub_miss by exact E. rewrite !begins_cons. rewrite IH by (intro I; apply N; right; exact I). reflexivity.
Qed.

Lemma marks_nl : forall V c s, marks V (c :: s) -> c = nlc.
Proof. intros V c s [w [_ [b E]]]. cbn in E. injection E as -> _. reflexivity. Qed.

(** A newline before [s]. *)
Lemma marks_sub : forall s, marks W (nlc :: sub s) <-> marks (plus_word W k) (nlc :: s).
Proof.
  intro s. destruct s as [|x s].
  - split; intros [w [Hw [b E]]]; discriminate E.
  - destruct (re_here r (x :: s)) as [[[g u] t]|] eqn:E.
    + destruct (@hit_form _ _ _ _ E) as [d [N [D [Es ->]]]]. split; intros _.
      * rewrite Es. destruct D as [|c d Hc D]; [congruence|]. destruct (digit_cases _ Hc) as [n [Hn ->]].
        exists (lit k ++ " "%char :: [digit n]). split; [right; exists n; auto|]. exists (d ++ t). cbn [app]. rewrite <- !app_assoc. reflexivity.
      * destruct D as [|c d Hc D]; [congruence|]. destruct (digit_cases _ Hc) as [n [Hn ->]].
        exists (T "qudit " ++ [digit n]). split; [apply W_qudit; exact Hn | exists (d ++ sub t); reflexivity].
    + rewrite sub_miss by exact E. split; intros [w [Hw B]]; apply begins_cons in B as [_ B]; apply begins_cons in B as [<- B].
      * exists w. split; [left; exact Hw|]. apply begins_cons. split; [reflexivity|]. apply begins_cons. split; [reflexivity|].
        apply begins_sub; [apply W_nodot; exact Hw | exact B].
      * destruct Hw as [Hw|[n [Hn ->]]].
        -- exists w. split; [exact Hw|]. apply begins_cons. split; [reflexivity|]. apply begins_cons. split; [reflexivity|].
           apply begins_sub; [apply W_nodot; exact Hw | exact B].
        -- exfalso. revert E. apply (@number_some _ _ (digit n)); [|apply digit_is; exact Hn].
           change (lit (String "." (k ++ " ")) ++ [digit n]) with ("."%char :: lit (k ++ " ") ++ [digit n]). apply begins_cons. split; [reflexivity|].
           rewrite lit_app, <- app_assoc. exact B.
Qed.

Lemma tallies_skip : forall V u t n, ~ In nlc u -> (tallies (marks V) (u ++ t) n <-> tallies (marks V) t n).
Proof.
  intros V u t n N; induction u as [|c u IH]; [reflexivity|].
  assert (Nc : forall s, ~ marks V (c :: s)) by (intros s M; apply marks_nl in M; apply N; left; exact M).
  cbn [app]. rewrite <- IH by (intro I; apply N; right; exact I). split; intro H; [|apply ta_skip; auto].
  inversion H as [|? ? k1 Hp H1 |? ? k1 Hp H1]; subst; [exfalso; eapply Nc; eauto | exact H1].
Qed.

Lemma tallies_sub : ~ In nlc (lit k) -> forall s n, tallies (marks (plus_word W k)) s n -> tallies (marks W) (sub s) n.
Proof.
  intros Nk s. remember (length s) as m eqn:Em. revert s Em. induction m as [m IH] using (well_founded_induction lt_wf). intros s -> n H.
  destruct s as [|c s]; [inversion H; constructor|]. destruct (re_here r (c :: s)) as [[[g u] t]|] eqn:E.
  - destruct (@hit_form _ _ _ _ E) as [d [N [D [Es Eb]]]]. rewrite Eb. rewrite Es in H.
    assert (Nd : ~ In nlc d) by (eapply digits_no; [exact D | reflexivity]).
    apply (@tallies_skip W ("."%char :: T "qudit " ++ d) (sub t)).
    { intros [X|X]; [discriminate X|]. apply in_app_iff in X as [X|X]; [|exact (Nd X)]. simpl in X. repeat (destruct X as [X|X]; [discriminate X|]). destruct X. }
    apply (IH (length t)); [rewrite Es; cbn [length]; rewrite app_length; lia | reflexivity|].
    apply (@tallies_skip (plus_word W k) ("."%char :: lit k ++ " "%char :: d) t); [|exact H].
    intros [X|X]; [discriminate X|]. apply in_app_iff in X as [X|[X|X]]; [exact (Nk X) | discriminate X | exact (Nd X)].
  - rewrite sub_miss by exact E.
    inversion H as [|? ? k1 Hp H1 |? ? k1 Hp H1]; subst.
    + pose proof (marks_nl Hp) as ->. apply ta_here; [apply marks_sub; exact Hp|]. apply (IH (length s)); [cbn; lia | reflexivity | exact H1].
    + apply ta_skip; [|apply (IH (length s)); [cbn; lia | reflexivity | exact H1]].
      intro M. pose proof (marks_nl M) as ->. apply Hp, marks_sub, M.
Qed.
End Sub.

Lemma words0_nodot : forall w, words0 w -> ~ In "."%char w.
Proof.
  intros w [->|[->|[c [d [Hc [Hd ->]]]]]] H.
  - simpl in H. repeat (destruct H as [H|H]; [discriminate H|]). destruct H.
  - simpl in H. repeat (destruct H as [H|H]; [discriminate H|]). destruct H.
  - simpl in H. do 5 (destruct H as [H|H]; [discriminate H|]). destruct H as [->|[H|[]]].
    + apply white_space in Hc. discriminate Hc.
    + destruct (digit_is Hd) as [G _]. rewrite H in G. discriminate G.
Qed.

Lemma plus_nodot : forall (W : text -> Prop) k, (forall w, W w -> ~ In "."%char w) -> ~ In "."%char (lit k) -> forall w, plus_word W k w -> ~ In "."%char w.
Proof.
  intros W k HW Hk w [H|[d [Hd ->]]]; [apply HW; exact H|]. intro H. apply in_app_iff in H as [H|[H|[H|[]]]]; [exact (Hk H) | discriminate H|].
  destruct (digit_is Hd) as [G _]. rewrite H in G. discriminate G.
Qed.

Lemma words0_qudit : forall d, d < 10 -> words0 (T "qudit " ++ [digit d]).
Proof.
  intros d Hd. right. right. exists " "%char, d. split; [apply white_space; reflexivity|]. split; [exact Hd | reflexivity].
Qed.

Lemma marker_words : forall s, marker s <-> marks (plus_word (plus_word words0 "qutrit") "qubit") s.
Proof.
  intro s. split.
  - intros [H|[H|[[c [d [Hc [Hd H]]]]|[[d [Hd H]]|[d [Hd H]]]]]].
    + exists (T "begin"). split; [left; left; left; reflexivity | exact H].
    + exists (T "end"). split; [left; left; right; left; reflexivity | exact H].
    + exists (T "qudit" ++ [c; digit d]). split; [left; left; right; right; exists c, d; auto | exact H].
    + exists (T "qubit" ++ " "%char :: [digit d]). split; [right; exists d; auto | exact H].
    + exists (T "qutrit" ++ " "%char :: [digit d]). split; [left; right; exists d; auto | exact H].
  - intros [w [[[[->|[->|[c [d [Hc [Hd ->]]]]]]|[d [Hd ->]]]|[d [Hd ->]]] B]].
    + left; exact B.
    + right; left; exact B.
    + right; right; left. exists c, d. auto.
    + do 4 right. exists d. auto.
    + do 3 right. left. exists d. auto.
Qed.

Lemma markers_tallies : forall s k, markers s k -> tallies marker s k.
Proof. intros s k H; induction H; [constructor | constructor; assumption | apply ta_skip; assumption]. Qed.

Theorem too_few_markers : forall S s k, markers s k -> k < 3 -> circuit_from_qasm S s = Err IndexError.
Proof.
  intros S s k H Hk. unfold circuit_from_qasm, sections. apply markers_tallies in H. apply (@tallies_ext _ _ _ _ marker_words) in H.
  apply tallies_sub in H.
  - apply tallies_sub in H.
    + unfold re_split. pose proof (split_bound [] H) as B. unfold py_pop at 1.
      replace (6 <? _) with false; [reflexivity|]. symmetry. apply Nat.ltb_ge. 
      change re_dot_qutrit with (number_of (String "." ("qutrit" ++ " "))). change re_dot_qubit with (number_of (String "." ("qubit" ++ " "))). lia.
    + apply words0_nodot.
    + apply words0_qudit.
    + simpl. intros X. repeat (destruct X as [X|X]; [discriminate X|]). destruct X.
  - apply plus_nodot; [apply words0_nodot|]. simpl. intros X. repeat (destruct X as [X|X]; [discriminate X|]). destruct X.
  - intros d Hd. left. apply words0_qudit. exact Hd.
  - simpl. intros X. repeat (destruct X as [X|X]; [discriminate X|]). destruct X.
Qed.

(** ** Counting the markers of a concrete text *)
Definition digit_next (w s : text) : bool := starts w s && match skipn (length w) s with d :: _ => is_digit d | [] => false end.
Definition markb (s : text) : bool :=
  starts (nlc :: T ".begin") s || starts (nlc :: T ".end") s ||
  (starts (nlc :: T ".qudit") s && match skipn 7 s with c :: d :: _ => is_space c && is_digit d | _ => false end) ||
  digit_next (nlc :: T ".qubit ") s || digit_next (nlc :: T ".qutrit ") s.
Fixpoint count_marks (s : text) : nat :=
  match s with [] => 0 | c :: t => if markb (c :: t) then count_marks t + 1 else count_marks t end.

Lemma digit_next_spec : forall w s, digit_next w s = true <-> exists d, d < 10 /\ begins (w ++ [digit d]) s.
Proof.
  intros w s. unfold digit_next. rewrite andb_true_iff, starts_app. split.
  - intros [[b ->] H]. rewrite skipn_app_exact in H. destruct b as [|c b]; [discriminate H|]. destruct (digit_cases _ H) as [d [Hd ->]].
    exists d. split; [exact Hd|]. exists b. rewrite <- app_assoc. reflexivity.
  - intros [d [Hd [b ->]]]. rewrite <- app_assoc. split; [exists ([digit d] ++ b); reflexivity|]. rewrite skipn_app_exact. apply digit_is. exact Hd.
Qed.

Lemma markb_spec : forall s, markb s = true <-> marker s.
Proof.
  intro s. unfold markb, marker. rewrite !orb_true_iff, !starts_app, !digit_next_spec, andb_true_iff, starts_app.
  assert (Q : (begins (nlc :: T ".qudit") s /\ match skipn 7 s with c :: d :: _ => is_space c && is_digit d | _ => false end = true) <->
              exists c d, white c /\ d < 10 /\ begins (newline :: T ".qudit" ++ [c; digit d]) s).
  { split.
    - intros [[b ->] H]. change 7 with (length (nlc :: T ".qudit")) in H. rewrite skipn_app_exact in H.
      destruct b as [|c [|d b]]; try discriminate H. apply andb_true_iff in H as [H1 H2]. destruct (digit_cases _ H2) as [k [Hk ->]].
      exists c, k. split; [apply white_space; exact H1|]. split; [exact Hk | exists b; reflexivity].
    - intros [c [d [Hc [Hd [b ->]]]]]. split; [exists ([c; digit d] ++ b); reflexivity|].
      change (is_space c && is_digit (digit d) = true). apply andb_true_iff. split; [apply white_space; exact Hc | apply digit_is; exact Hd]. }
  rewrite Q. change nlc with newline. cbn [app]. tauto.
Qed.

Theorem count_markers : forall t, markers t (count_marks t).
Proof.
  induction t as [|c t IH]; [constructor|]. cbn [count_marks]. destruct (markb (c :: t)) eqn:E.
  - apply mk_here; [apply markb_spec; exact E | exact IH].
  - apply mk_skip; [intro H; apply markb_spec in H; congruence | exact IH].
Qed.

Fixpoint containsb (w s : text) : bool := starts w s || match s with [] => false | _ :: t => containsb w t end.
Lemma contains_b : forall w s, contains w s -> containsb w s = true.
Proof.
  intros w s [a [b E]]. revert s E. induction a as [|c a IH]; intros s ->.
  - assert (H : starts w (w ++ b) = true) by (apply starts_app; exists b; reflexivity). cbn [app]. destruct (w ++ b); cbn [containsb]; rewrite H; reflexivity.
  - cbn [app containsb]. rewrite IH by reflexivity. apply Bool.orb_true_r.
Qed.
