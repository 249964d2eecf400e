(** * QasmLib: lemmas about the QASM reader. *)
From Coq Require Import String Ascii.
From Verif Require Import Py Scalar Mat Utils Gates Circuit Spec HistSpec Lib Flow History Qasm QasmSpec RegexLib.
Set Implicit Arguments.
Local Notation length := List.length.
Local Notation T s := (lit s%string).

(** ** Numerals *)
Lemma digit_is : forall d, d < 10 -> is_digit (digit d) = true /\ digit_value (digit d) = Z.of_nat d.
Proof. intros d H. do 10 (destruct d as [|d]; [split; reflexivity|]). lia. Qed.

Definition digits (s : text) : Prop := Forall (fun c => is_digit c = true) s.

Lemma numeral_facts : forall s n, numeral s n -> s <> [] /\ digits s /\ digits_value s = Z.of_nat n.
Proof.
  intros s n H; induction H as [d Hd|s n d H [IH1 [IH2 IH3]] Hd]; destruct (digit_is Hd) as [E1 E2].
  - split; [discriminate|]. split; [repeat constructor; exact E1|]. unfold digits_value. cbn [fold_left]. rewrite E2. lia.
  - split; [destruct s; discriminate|]. split; [apply Forall_app; split; [exact IH2 | repeat constructor; exact E1]|].
    unfold digits_value in *. rewrite fold_left_app. cbn [fold_left]. rewrite IH3, E2. lia.
Qed.

Lemma int_body_digits : forall s b acc, digits s -> b = true \/ s <> [] ->
  int_body b acc s = Ok (fold_left (fun a c => 10 * a + digit_value c)%Z s acc).
Proof.
  intros s; induction s as [|c s IH]; intros b acc H Hb; simpl.
  - destruct Hb as [->|Hb]; [reflexivity | congruence].
  - inversion H as [|? ? Hc H']; subst. rewrite Hc. apply IH; [exact H' | left; reflexivity].
Qed.

Lemma digit_cases : forall c, is_digit c = true -> exists d, d < 10 /\ c = digit d.
Proof.
  intros c H. unfold is_digit in H. apply andb_true_iff in H as [H1 H2]. apply Nat.leb_le in H1, H2.
  exists (code c - 48). split; [lia|]. unfold digit, code in *. replace (48 + (nat_of_ascii c - 48)) with (nat_of_ascii c) by lia.
  symmetry. apply ascii_nat_embedding.
Qed.

Lemma digit_not : forall c x, is_digit c = true -> is_digit x = false -> Ascii.eqb c x = false /\ Ascii.eqb x c = false.
Proof.
  intros c x H H'. split; apply Ascii.eqb_neq; intros ->; congruence.
Qed.

Lemma digit_not_space : forall c, is_digit c = true -> is_space c = false /\ is_blank c = false.
Proof. intros c H. apply digit_cases in H as [d [Hd ->]]. do 10 (destruct d as [|d]; [split; reflexivity|]). lia. Qed.

Lemma py_int_integer : forall p v, integer p v -> py_int p = Ok v.
Proof.
  intros p v H; destruct H as [s n H|s n H|s n H]; destruct (numeral_facts H) as [N [D V]].
  - destruct s as [|c s]; [congruence|]. inversion D as [|? ? Hc D']; subst. unfold py_int. cbn [skip_blank].
    rewrite (proj2 (digit_not_space _ Hc)). rewrite (proj1 (@digit_not c "-"%char Hc eq_refl)), (proj1 (@digit_not c "+"%char Hc eq_refl)).
    rewrite int_body_digits by (auto; right; discriminate). f_equal. exact V.
  - unfold py_int. cbn [skip_blank]. change (is_blank "+") with false. cbn match. cbn.
    rewrite int_body_digits by auto. f_equal. exact V.
  - unfold py_int. cbn [skip_blank]. change (is_blank "-") with false. cbn match. cbn.
    rewrite int_body_digits by auto. cbn. f_equal. f_equal. exact V.
Qed.

Lemma find_digits_pass : forall a t, Forall (fun c => is_digit c = false) a ->
  re_findall (RPlus is_digit) (a ++ t) = re_findall (RPlus is_digit) t.
Proof.
  intros a t H; induction H as [|c a Hc H IH]; [reflexivity|]. cbn [app].
  rewrite find_miss by (apply here_plus_none; exact Hc). exact IH.
Qed.

Lemma find_digits_hit : forall s t, s <> [] -> digits s -> stops is_digit t ->
  re_findall (RPlus is_digit) (s ++ t) = s :: re_findall (RPlus is_digit) t.
Proof. intros s t N D St. eapply find_hit. apply here_plus; assumption. Qed.

Lemma first_int_reg : forall a s n t, Forall (fun c => is_digit c = false) a -> numeral s n -> stops is_digit t ->
  first_int (a ++ s ++ t) = Ok (Z.of_nat n).
Proof.
  intros a s n t Ha Hs Ht. destruct (numeral_facts Hs) as [N [D V]]. unfold first_int.
  rewrite find_digits_pass by exact Ha. rewrite find_digits_hit by assumption. cbn. f_equal. exact V.
Qed.

(** ** number_of *)
Lemma number_hit : forall w f s t, s <> [] -> digits s -> stops is_digit t ->
  re_sub (number_of w) f (lit w ++ s ++ t) = f [s] ++ re_sub (number_of w) f t.
Proof.
  intros w f s t N D St. apply sub_hit with (u := lit w ++ s). unfold number_of. rewrite here_word, here_group, here_plus by assumption.
  reflexivity.
Qed.

(** The first character of the pattern occurs only where the word does not
    start. *)
Lemma number_same : forall w f l, (forall x y, l = x ++ y -> starts (lit w) y = false) -> re_sub (number_of w) f l = l.
Proof. intros w f l H. apply sub_same. intros x y E. apply here_word_none. eauto. Qed.

Lemma no_start : forall a w l, ~ In a l -> forall x y, l = x ++ y -> starts (a :: w) y = false.
Proof.
  intros a w l H x y ->. destruct y as [|c y]; [reflexivity|]. simpl. replace (Ascii.eqb a c) with false; [reflexivity|].
  symmetry. apply Ascii.eqb_neq. intros ->. apply H. apply in_app_iff. right. left. reflexivity.
Qed.

Lemma no_start_once : forall a w l, ~ In a l -> starts w l = false -> forall x y, a :: l = x ++ y -> starts (a :: w) y = false.
Proof.
  intros a w l H Hs x y E. destruct x as [|b x].
  - simpl in E. subst y. simpl. rewrite Hs. apply andb_false_r.
  - injection E as -> E. eapply no_start; eauto.
Qed.

Lemma not_contains_starts : forall w l, ~ contains w l -> forall x y, l = x ++ y -> starts w y = false.
Proof. intros w l H x y ->. apply starts_no. intros [b ->]. apply H. exists x, b. reflexivity. Qed.

(** ** Lines *)
Definition U (l : list text) : text := concat (map (cons nlc) l).

Lemma sub_lines : forall r f x l, avoids nlc r = true -> re_sub r f (x ++ U l) = re_sub r f x ++ U (map (re_sub r f) l).
Proof.
  intros r f x l H; revert x; induction l as [|y l IH]; intros x; [unfold U; simpl; rewrite !app_nil_r; reflexivity|].
  unfold U in *. cbn [map concat app]. rewrite sub_line by exact H. rewrite IH. reflexivity.
Qed.

Lemma find_lines : forall r x l, avoids nlc r = true -> re_findall r (x ++ U l) = re_findall r x ++ concat (map (re_findall r) l).
Proof.
  intros r x l H; revert x; induction l as [|y l IH]; intros x; [unfold U; simpl; rewrite !app_nil_r; reflexivity|].
  unfold U in *. cbn [map concat app]. rewrite find_line by exact H. rewrite IH. reflexivity.
Qed.

Lemma sub_text : forall r f l, avoids nlc r = true -> re_sub r f (text_of_lines l) = text_of_lines (map (re_sub r f) l).
Proof. intros r f [|x l] H; [reflexivity|]. simpl. change (concat (map (cons newline) l)) with (U l). rewrite sub_lines by exact H. reflexivity. Qed.

Lemma U_app : forall a b, U (a ++ b) = U a ++ U b.
Proof. intros a b. unfold U. rewrite map_app, concat_app. reflexivity. Qed.

Lemma split_on_app : forall sep a b cur, ~ In sep a -> split_on sep cur (a ++ sep :: b) = (rev cur ++ a) :: split_on sep [] b.
Proof.
  intros sep a; induction a as [|c a IH]; intros b cur H; simpl.
  - rewrite Ascii.eqb_refl, app_nil_r. reflexivity.
  - replace (Ascii.eqb c sep) with false by (symmetry; apply Ascii.eqb_neq; intros ->; apply H; left; reflexivity).
    rewrite IH by (intros X; apply H; right; exact X). simpl. rewrite <- app_assoc. reflexivity.
Qed.

Lemma split_on_end : forall sep a cur, ~ In sep a -> split_on sep cur a = [rev cur ++ a].
Proof.
  intros sep a; induction a as [|c a IH]; intros cur H; simpl; [rewrite app_nil_r; reflexivity|].
  replace (Ascii.eqb c sep) with false by (symmetry; apply Ascii.eqb_neq; intros ->; apply H; left; reflexivity).
  rewrite IH by (intros X; apply H; right; exact X). simpl. rewrite <- app_assoc. reflexivity.
Qed.

Lemma split_lines : forall x l, ~ In nlc x -> Forall (fun y => ~ In nlc y) l -> str_split nlc (x ++ U l) = x :: l.
Proof.
  intros x l Hx H; revert x Hx; induction H as [|y l Hy H IH]; intros x Hx; unfold str_split.
  - unfold U. simpl. rewrite app_nil_r. rewrite split_on_end by exact Hx. reflexivity.
  - unfold U. cbn [map concat app]. rewrite split_on_app by exact Hx. simpl. f_equal. apply IH. exact Hy.
Qed.

(** ** Sections *)
Lemma marker_not_nl : forall c t, c <> nlc -> re_here re_marker (c :: t) = None.
Proof.
  intros c t H. unfold re_marker. rewrite here_char_seq. unfold is_char.
  replace (Ascii.eqb nlc c) with false; [reflexivity|]. symmetry. apply Ascii.eqb_neq. congruence.
Qed.

Lemma marker_not_dot : forall t, ~ begins (T ".") t -> re_here re_marker (nlc :: t) = None.
Proof.
  intros t H. unfold re_marker. rewrite here_char_seq. unfold is_char at 1. rewrite Ascii.eqb_refl.
  destruct t as [|c t]; [rewrite here_nil; reflexivity|]. rewrite here_char_seq. unfold is_char.
  destruct (Ascii.eqb_spec "." c) as [<-|N]; [|reflexivity]. exfalso. apply H. exists t. reflexivity.
Qed.

Lemma pass_plain : forall b t cur, ~ In nlc b -> split_from re_marker 0 cur (b ++ t) = split_from re_marker 0 (rev b ++ cur) t.
Proof.
  intros b t cur H. apply split_pass. intros x y -> Hy. destruct y as [|c y]; [congruence|]. apply marker_not_nl.
  intros ->. apply H. apply in_app_iff. right. left. reflexivity.
Qed.

Definition tame (l : text) : Prop := ~ In nlc l /\ ~ begins (T ".") l.

Lemma pass_lines : forall ls t cur, Forall tame ls ->
  split_from re_marker 0 cur (U ls ++ nlc :: t) = split_from re_marker 0 (rev (U ls) ++ cur) (nlc :: t).
Proof.
  intros ls t cur H; revert cur; induction H as [|l ls [H1 H2] H IH]; intros cur; [reflexivity|].
  unfold U in *. cbn [map concat app]. rewrite <- app_assoc. rewrite split_miss.
  - rewrite pass_plain by exact H1. rewrite IH. f_equal. cbn [rev]. rewrite rev_app_distr, <- !app_assoc. reflexivity.
  - apply marker_not_dot. intros [b E]. destruct l as [|c l].
    + cbn [app] in E. destruct ls as [|l' ls]; discriminate.
    + injection E as -> E. apply H2. exists l. reflexivity.
Qed.

Lemma marker_qudit : forall n t, n <> [] -> digits n -> stops is_digit t ->
  re_here re_marker (nlc :: T ".qudit " ++ n ++ t) = Some ([T "qudit " ++ n], nlc :: T ".qudit " ++ n, t).
Proof.
  intros n t N D St. unfold re_marker.
  change (nlc :: T ".qudit " ++ n ++ t) with (nlc :: "."%char :: T "qudit" ++ " "%char :: n ++ t).
  rewrite here_char_seq. unfold is_char at 1. rewrite Ascii.eqb_refl.
  rewrite here_char_seq. unfold is_char at 1. rewrite Ascii.eqb_refl.
  rewrite here_group, here_alt, here_word, here_char_seq. change (is_space " ") with true. cbn match.
  rewrite here_plus by assumption. reflexivity.
Qed.

Lemma marker_begin : forall t, re_here re_marker (nlc :: T ".begin" ++ t) = Some ([T "begin"], nlc :: T ".begin", t).
Proof. intros t. reflexivity. Qed.
Lemma marker_end : forall t, re_here re_marker (nlc :: T ".end" ++ t) = Some ([T "end"], nlc :: T ".end", t).
Proof. intros t. reflexivity. Qed.

Lemma split_cons : forall r s k cur, exists p l, split_from r k cur s = p :: l.
Proof.
  intros r s; induction s as [|c s IH]; intros k cur; simpl; [eauto|].
  destruct k; [|apply IH]. destruct (re_here r (c :: s)) as [[[g u] t]|]; [eauto | apply IH].
Qed.

Lemma quiet_tame : forall l, quiet l -> tame l.
Proof. intros l [H1 [_ H2]]. split; assumption. Qed.

Definition spacing (c : ascii) : bool := existsb (Nat.eqb (nat_of_ascii c)) [9; 11; 12; 13; 32].

Lemma spacing_in : forall c, In (nat_of_ascii c) [9; 11; 12; 13; 32] -> spacing c = true.
Proof. intros c H. apply existsb_exists. exists (nat_of_ascii c). split; [exact H | apply Nat.eqb_refl]. Qed.

Lemma spacing_not_digit : forall c, spacing c = true -> is_digit c = false.
Proof.
  intros c H. apply existsb_exists in H as [n [Hn E]]. apply Nat.eqb_eq in E. unfold is_digit, code. rewrite E.
  repeat (destruct Hn as [<-|Hn]; [reflexivity|]). destruct Hn.
Qed.

Lemma spaces_facts : forall s, spaces s -> (forall c, spacing c = false -> ~ In c s) /\ stops is_digit s.
Proof.
  intros s H. split.
  - intros c Hc Hin. unfold spaces in H. rewrite Forall_forall in H. rewrite (spacing_in c (H c Hin)) in Hc. discriminate.
  - destruct H as [|c s Hc _]; [reflexivity|]. exact (spacing_not_digit _ (spacing_in _ Hc)).
Qed.

Lemma quiet_same : forall w f l, quiet l -> begins (T ".q") (lit w) -> re_sub (number_of w) f l = l.
Proof.
  intros w f l [_ [H _]] [b E]. apply number_same. intros x y ->. apply starts_no. intros [z ->]. apply H. rewrite E.
  exists x, (b ++ z). rewrite <- !app_assoc. reflexivity.
Qed.

Lemma dot_same : forall w l f, ~ In "."%char l -> starts (lit w) l = false -> re_sub (number_of (String "." w)) f ("."%char :: l) = "."%char :: l.
Proof. intros w l f H Hs. apply number_same. apply no_start_once; assumption. Qed.

Lemma map_same : forall A (f : A -> A) l, (forall x, In x l -> f x = x) -> map f l = l.
Proof. intros A f l H. rewrite <- (map_id l) at 2. apply map_ext_in. exact H. Qed.

Definition two (s : text) : text := re_sub re_dot_qutrit to_dot_qudit (re_sub re_dot_qubit to_dot_qudit s).

Lemma two_quiet : forall l, quiet l -> two l = l.
Proof.
  intros l H. unfold two, re_dot_qubit, re_dot_qutrit.
  rewrite quiet_same; [|rewrite quiet_same|]; try exact H; try (eexists; reflexivity).
  rewrite quiet_same; [reflexivity | exact H | eexists; reflexivity].
Qed.

Lemma digits_no : forall s c, digits s -> is_digit c = false -> ~ In c s.
Proof. intros s c H Hc Hin. unfold digits in H. rewrite Forall_forall in H. rewrite (H c Hin) in Hc. discriminate. Qed.

Lemma two_kind : forall k n b, In k ["qudit"; "qubit"; "qutrit"]%string -> n <> [] -> digits n -> spaces b ->
  two (T "." ++ lit k ++ T " " ++ n ++ b) = T ".qudit " ++ n ++ b.
Proof.
  intros k n b Hk N D B. destruct (spaces_facts B) as [B1 B2].
  assert (E0 : ~ In "."%char (n ++ b)).
  { intros X. apply in_app_iff in X as [X|X]; [eapply digits_no; eauto; reflexivity | eapply B1; eauto; reflexivity]. }
  assert (F0 : ~ In "."%char (T "qudit " ++ n ++ b)).
  { intros X. apply in_app_iff in X as [X|X]; [|contradiction]. simpl in X. intuition discriminate. }
  assert (F1 : ~ In "."%char (T "qutrit " ++ n ++ b)).
  { intros X. apply in_app_iff in X as [X|X]; [|contradiction]. simpl in X. intuition discriminate. }
  assert (Bs : forall w f, re_sub (number_of (String "." w)) f b = b).
  { intros w f. apply number_same. apply no_start. apply B1. reflexivity. }
  unfold two, re_dot_qubit, re_dot_qutrit. destruct Hk as [<-|[<-|[<-|[]]]].
  - change (T "." ++ T "qudit" ++ T " " ++ n ++ b) with ("."%char :: T "qudit " ++ n ++ b).
    rewrite dot_same by (auto; reflexivity). rewrite dot_same by (auto; reflexivity). reflexivity.
  - change (T "." ++ T "qubit" ++ T " " ++ n ++ b) with (T ".qubit " ++ n ++ b).
    rewrite number_hit by assumption. rewrite Bs. unfold to_dot_qudit. cbn [nth]. rewrite <- app_assoc.
    change (T ".qudit " ++ n ++ b) with ("."%char :: T "qudit " ++ n ++ b). rewrite dot_same by (auto; reflexivity). reflexivity.
  - change (T "." ++ T "qutrit" ++ T " " ++ n ++ b) with ("."%char :: T "qutrit " ++ n ++ b).
    rewrite dot_same by (auto; reflexivity). change ("."%char :: T "qutrit " ++ n ++ b) with (T ".qutrit " ++ n ++ b).
    rewrite number_hit by assumption. rewrite Bs. unfold to_dot_qudit. cbn [nth]. rewrite <- app_assoc. reflexivity.
Qed.

Lemma two_begin : forall b, spaces b -> two (T ".begin" ++ b) = T ".begin" ++ b.
Proof.
  intros b B. destruct (spaces_facts B) as [B1 _]. unfold two, re_dot_qubit, re_dot_qutrit.
  assert (E : ~ In "."%char (T "begin" ++ b)).
  { intros X. apply in_app_iff in X as [X|X]; [simpl in X; intuition discriminate | eapply B1; eauto; reflexivity]. }
  change (T ".begin" ++ b) with ("."%char :: T "begin" ++ b).
  rewrite dot_same by (auto; reflexivity). rewrite dot_same by (auto; reflexivity). reflexivity.
Qed.

Lemma two_end : forall b, spaces b -> two (T ".end" ++ b) = T ".end" ++ b.
Proof.
  intros b B. destruct (spaces_facts B) as [B1 _]. unfold two, re_dot_qubit, re_dot_qutrit.
  assert (E : ~ In "."%char (T "end" ++ b)).
  { intros X. apply in_app_iff in X as [X|X]; [simpl in X; intuition discriminate | eapply B1; eauto; reflexivity]. }
  change (T ".end" ++ b) with ("."%char :: T "end" ++ b).
  rewrite dot_same by (auto; reflexivity). rewrite dot_same by (auto; reflexivity). reflexivity.
Qed.

Theorem sections_doc : forall d, well_formed d ->
  exists rest, sections (text_of d) = Ok ((d_blank d ++ U (d_decls d)) :: (d_blank2 d ++ U (d_gates d)) :: rest).
Proof.
  intros d W. destruct (wf_count W) as [n Hn]. destruct (numeral_facts Hn) as [N [D _]].
  destruct (spaces_facts (wf_blank W)) as [B1 B2]. destruct (spaces_facts (wf_blank2 W)) as [B3 _].
  unfold sections. fold (two (text_of d)). unfold text_of.
  unfold two. rewrite !sub_text by reflexivity. rewrite !map_map. change (fun x => re_sub re_dot_qutrit to_dot_qudit (re_sub re_dot_qubit to_dot_qudit x)) with two.
  rewrite !map_app. cbn [map]. rewrite !map_app. cbn [map]. rewrite map_app. cbn [map].
  rewrite two_kind by (auto using wf_kind, wf_blank). rewrite two_begin by (apply wf_blank2; exact W). rewrite two_end by (apply wf_blank3; exact W).
  assert (Sm : forall l, Forall quiet l -> map two l = l).
  { intros l Q. apply map_same. intros x Hx. apply two_quiet. rewrite Forall_forall in Q. auto. }
  rewrite !Sm by (apply W).
  assert (Qt : forall l, Forall quiet l -> Forall tame l).
  { intros l Q. eapply Forall_impl; [|exact Q]. apply quiet_tame. }
  pose proof (wf_head W) as NE. pose proof (Qt _ (wf_head_lines W)) as QH.
  destruct (d_head d) as [|h hs]; [congruence|]. inversion QH as [|? ? [Qh _] QHs]; subst.
  cbn [app text_of_lines]. change (concat (map (cons newline) ?l)) with (U l). rewrite U_app.
  change (U ((T ".qudit " ++ d_count d ++ d_blank d) :: ?l)) with (nlc :: (T ".qudit " ++ d_count d ++ d_blank d) ++ U l).
  rewrite U_app. change (U ((T ".begin" ++ d_blank2 d) :: ?l)) with (nlc :: (T ".begin" ++ d_blank2 d) ++ U l).
  rewrite U_app. change (U ((T ".end" ++ d_blank3 d) :: ?l)) with (nlc :: (T ".end" ++ d_blank3 d) ++ U l).
  unfold re_split. rewrite pass_plain by exact Qh. rewrite pass_lines by exact QHs.
  rewrite <- !app_assoc.
  erewrite split_hit by (apply marker_qudit; [exact N | exact D |]; destruct (d_blank d); [destruct (d_decls d); reflexivity | exact B2]).
  unfold re_split. rewrite pass_plain by (apply B1; reflexivity). rewrite pass_lines by (apply Qt, W).
  erewrite split_hit by apply marker_begin.
  unfold re_split. rewrite pass_plain by (apply B3; reflexivity). rewrite pass_lines by (apply Qt, W).
  erewrite split_hit by apply marker_end.
  unfold re_split. match goal with |- context [split_from re_marker 0 [] ?x] =>
    destruct (split_cons re_marker x 0 []) as [p [l E]]; rewrite E end.
  exists l. cbn. rewrite ?app_nil_r, ?rev_app_distr, ?rev_involutive. reflexivity.
Qed.

(** ** Declarations *)
Lemma dim_ways : forall s g u t, In (g, u, t) (ways re_dim s) ->
  exists v, s = v ++ ")"%char :: t /\ u = v ++ [")"%char] /\ digits v /\ v <> [].
Proof.
  intros s g u t H. unfold re_dim in H. cbn [ways] in H. apply in_flat_map in H as [[[g1 u1] t1] [H1 H2]].
  assert (D : digits u1).
  { clear H2. revert g1 u1 t1 H1. induction s as [|c s IH]; intros g1 u1 t1 H1; [contradiction|]. simpl in H1.
    destruct (is_digit c) eqn:Ec; [|contradiction]. apply in_app_iff in H1 as [H1|[H1|[]]].
    - apply in_map_iff in H1 as [[[g' u'] t'] [E H1]]. injection E as <- <- <-. constructor; [exact Ec | eapply IH; eauto].
    - injection H1 as <- <- <-. repeat constructor. exact Ec. }
  apply ways_plus_app in H1 as [-> N]. destruct t1 as [|c t1]; [contradiction|].
  destruct (is_char ")" c) eqn:Ec; [|contradiction]. apply Ascii.eqb_eq in Ec. subst c.
  destruct H2 as [H2|[]]. injection H2 as <- <- <-. exists u1. auto.
Qed.

Lemma dim_none : forall s, (forall v t, s = v ++ ")"%char :: t -> digits v -> v <> [] -> False) -> re_here re_dim s = None.
Proof.
  intros s H. unfold re_here. destruct (ways re_dim s) as [|[[g u] t] l] eqn:E; [reflexivity|].
  destruct (@dim_ways s g u t) as [v [E1 [_ [D N]]]]; [rewrite E; left; reflexivity|]. exfalso. eauto.
Qed.

Lemma dim_pass : forall a t, Forall (fun c => is_digit c = false) a -> re_findall re_dim (a ++ t) = re_findall re_dim t.
Proof.
  intros a t H; induction H as [|c a Hc H IH]; [reflexivity|]. cbn [app]. rewrite find_miss; [exact IH|].
  apply dim_none. intros v s E D N. destruct v as [|x v]; [congruence|]. injection E as <- _.
  inversion D as [|? ? X _]; subst. rewrite X in Hc. discriminate.
Qed.

Lemma dim_digits : forall r t, digits r -> stops is_digit t -> ~ begins (T ")") t -> re_findall re_dim (r ++ t) = re_findall re_dim t.
Proof.
  intros r t D St Nb; induction D as [|c r Hc D IH]; [reflexivity|]. cbn [app]. rewrite find_miss; [exact IH|].
  apply dim_none. clear IH Hc. revert c. intros c v s E Dv N. destruct v as [|x v]; [congruence|]. injection E as <- E. inversion Dv as [|? ? _ Dv']; subst.
  clear N Dv. revert v E Dv'. induction D as [|d r Hd D IH]; intros v E Dv; cbn [app] in E.
  - destruct v as [|x v].
    + apply Nb. exists s. exact E.
    + cbn [app] in E. subst t. simpl in St. inversion Dv as [|? ? X _]; subst. rewrite X in St. discriminate.
  - destruct v as [|x v].
    + injection E as -> E. discriminate.
    + injection E as -> E. inversion Dv; subst. eapply IH; eauto.
Qed.

Lemma dim_hit : forall s t, s <> [] -> digits s -> re_findall re_dim (s ++ T ")" ++ t) = (s ++ T ")") :: re_findall re_dim t.
Proof.
  intros s t N D. apply find_hit with (g := []). unfold re_dim. eapply here_seq with (g1 := []) (g2 := []).
  - apply here_plus; [exact N | exact D | reflexivity].
  - reflexivity.
Qed.

Lemma spaces_not_digits : forall b, spaces b -> Forall (fun c => is_digit c = false) b.
Proof. intros b H. eapply Forall_impl; [|exact H]. intros c Hc. exact (spacing_not_digit _ (spacing_in _ Hc)). Qed.

Lemma dim_full : forall r s b, digits r -> s <> [] -> digits s -> spaces b ->
  re_findall re_dim (T "qudit x" ++ r ++ T " (" ++ s ++ T ")" ++ b) = [s ++ T ")"].
Proof.
  intros r s b Dr Ns Ds B. rewrite dim_pass by (repeat constructor). rewrite dim_digits; [|exact Dr | reflexivity | intros [x X]; discriminate].
  rewrite dim_pass by (repeat constructor). rewrite dim_hit by assumption. f_equal.
  rewrite <- (app_nil_r b), dim_pass by (apply spaces_not_digits; exact B). reflexivity.
Qed.

Definition plain_decl (l : text) : text :=
  re_sub re_qutrit (to_qudit " (3)") (re_sub re_qubit (to_qudit " (2)") l).

Lemma q_same : forall w l f, ~ In "q"%char l -> starts (lit w) l = false -> re_sub (number_of (String "q" w)) f ("q"%char :: l) = "q"%char :: l.
Proof. intros w l f H Hs. apply number_same. apply no_start_once; assumption. Qed.

Lemma no_q : forall a b c : text, ~ In "q"%char a -> ~ In "q"%char b -> ~ In "q"%char c -> ~ In "q"%char (a ++ b ++ c).
Proof. intros a b c A B C X. rewrite !in_app_iff in X. tauto. Qed.

Lemma decl_dims : forall l ds, declares l ds -> exists us, re_findall re_dim (plain_decl l) = us /\ mapM first_int us = Ok (map Z.of_nat ds).
Proof.
  intros l ds H. unfold plain_decl, re_qubit, re_qutrit.
  assert (One : forall s n, numeral s n -> mapM first_int [s ++ T ")"] = Ok [Z.of_nat n]).
  { intros s n Hs. cbn [mapM]. change (s ++ T ")") with ([] ++ s ++ T ")").
    rewrite (@first_int_reg [] s n (T ")")) by (try constructor; auto; reflexivity). reflexivity. }
  assert (Bs : forall b w f, spaces b -> re_sub (number_of (String "q" w)) f b = b).
  { intros b w f B. destruct (spaces_facts B) as [B1 _]. apply number_same. apply no_start. apply B1. reflexivity. }
  assert (Q : forall x : string, forallb (fun c => negb (Ascii.eqb "q" c)) (lit x) = true -> ~ In "q"%char (lit x)).
  { intros x Hx Hin. rewrite forallb_forall in Hx. specialize (Hx _ Hin). discriminate. }
  destruct H as [r n b Hr B|r n b Hr B|r n s m b Hr Hs B|l H1 H2 H3].
  - destruct (numeral_facts Hr) as [N [D _]]. destruct (spaces_facts B) as [B1 B2].
    change (list_ascii_of_string "qubit x") with (lit "qubit x"). rewrite number_hit by assumption. rewrite (Bs b) by exact B.
    unfold to_qudit. cbn [nth]. rewrite <- !app_assoc.
    assert (N2 : numeral [digit 2] 2) by (constructor; lia).
    change (T "qudit x" ++ r ++ T " (2)" ++ b) with ("q"%char :: (T "udit x" ++ r ++ (T " (" ++ [digit 2] ++ T ")" ++ b))).
    rewrite q_same; [| |reflexivity].
    + change ("q"%char :: (T "udit x" ++ r ++ (T " (" ++ [digit 2] ++ T ")" ++ b))) with (T "qudit x" ++ r ++ T " (" ++ [digit 2] ++ T ")" ++ b).
      eexists. split; [apply dim_full; auto; [discriminate | repeat constructor]|]. exact (One _ _ N2).
    + apply no_q; [apply Q; reflexivity | eapply digits_no; eauto; reflexivity |].
      change (T " (" ++ [digit 2] ++ T ")" ++ b) with (T " (2)" ++ [] ++ b). apply no_q; [apply Q; reflexivity | simpl; tauto | apply B1; reflexivity].
  - destruct (numeral_facts Hr) as [N [D _]]. destruct (spaces_facts B) as [B1 B2].
    change (list_ascii_of_string "qutrit x" ++ r ++ b) with ("q"%char :: (T "utrit x" ++ r ++ b)).
    rewrite q_same; [| |reflexivity].
    2: { apply no_q; [apply Q; reflexivity | eapply digits_no; eauto; reflexivity | apply B1; reflexivity]. }
    change ("q"%char :: (T "utrit x" ++ r ++ b)) with (T "qutrit x" ++ r ++ b). rewrite number_hit by assumption. rewrite (Bs b) by exact B.
    unfold to_qudit. cbn [nth]. rewrite <- !app_assoc.
    assert (N3 : numeral [digit 3] 3) by (constructor; lia).
    change (T "qudit x" ++ r ++ T " (3)" ++ b) with (T "qudit x" ++ r ++ T " (" ++ [digit 3] ++ T ")" ++ b).
    eexists. split; [apply dim_full; auto; [discriminate | repeat constructor]|]. exact (One _ _ N3).
  - destruct (numeral_facts Hr) as [N [D _]]. destruct (spaces_facts B) as [B1 B2]. destruct (numeral_facts Hs) as [Ns [Ds _]].
    assert (X : ~ In "q"%char (T "udit x" ++ r ++ T " (" ++ s ++ T ")" ++ b)).
    { apply no_q; [apply Q; reflexivity | eapply digits_no; eauto; reflexivity |].
      apply no_q; [apply Q; reflexivity | eapply digits_no; eauto; reflexivity |].
      change (T ")" ++ b) with (T ")" ++ [] ++ b). apply no_q; [apply Q; reflexivity | simpl; tauto | apply B1; reflexivity]. }
    change (list_ascii_of_string "qudit x" ++ r ++ list_ascii_of_string " (" ++ s ++ list_ascii_of_string ")" ++ b)
      with ("q"%char :: (T "udit x" ++ r ++ T " (" ++ s ++ T ")" ++ b)).
    rewrite q_same by (auto; reflexivity). rewrite q_same by (auto; reflexivity).
    change ("q"%char :: (T "udit x" ++ r ++ T " (" ++ s ++ T ")" ++ b)) with (T "qudit x" ++ r ++ T " (" ++ s ++ T ")" ++ b).
    eexists. split; [apply dim_full; auto|]. exact (One _ _ Hs).
  - rewrite (@number_same "qubit x") by (apply not_contains_starts; exact H2). rewrite (@number_same "qutrit x") by (apply not_contains_starts; exact H3).
    exists []. split; [|reflexivity]. apply find_nothing. intros x y ->. apply dim_none. intros v t -> _ _. apply H1.
    rewrite !in_app_iff. right. right. left. reflexivity.
Qed.

Lemma mapM_concat : forall A B (f : A -> res B) ls rs, Forall2 (fun l r => mapM f l = Ok r) ls rs -> mapM f (concat ls) = Ok (concat rs).
Proof.
  intros A B f ls rs H; induction H as [|l r ls rs H1 H IH]; [reflexivity|]. simpl. rewrite mapM_app, H1, IH. reflexivity.
Qed.

Theorem declared_lines : forall b ls dss, spaces b -> Forall2 declares ls dss ->
  declared (b ++ U ls) = Ok (map Z.of_nat (concat dss)).
Proof.
  intros b ls dss B H. unfold declared. rewrite sub_lines by reflexivity. rewrite sub_lines by reflexivity. rewrite map_map.
  change (fun x => re_sub re_qutrit (to_qudit " (3)") (re_sub re_qubit (to_qudit " (2)") x)) with plain_decl.
  rewrite find_lines by reflexivity.
  assert (Eb : re_findall re_dim (re_sub re_qutrit (to_qudit " (3)") (re_sub re_qubit (to_qudit " (2)") b)) = []).
  { destruct (spaces_facts B) as [B1 _]. unfold re_qubit, re_qutrit.
    rewrite (@number_same "qubit x") by (apply no_start; apply B1; reflexivity).
    rewrite (@number_same "qutrit x") by (apply no_start; apply B1; reflexivity).
    rewrite <- (app_nil_r b), dim_pass by (apply spaces_not_digits; exact B). reflexivity. }
  rewrite Eb. cbn [app]. rewrite map_map. rewrite concat_map. apply mapM_concat.
  induction H as [|l ds ls dss H1 H IH]; [constructor|]. cbn [map]. constructor; [|exact IH].
  destruct (decl_dims H1) as [us [-> E]]. exact E.
Qed.

(** ** Words of a line *)
Definition wordy (a : text) : Prop := a <> [] /\ Forall (fun c => is_space c = false) a.

Lemma fields_go : forall a t cur, Forall (fun c => is_space c = false) a -> fields cur (a ++ t) = fields (rev a ++ cur) t.
Proof.
  intros a t cur H; revert cur; induction H as [|c a Hc H IH]; intros cur; [reflexivity|]. cbn [app fields]. rewrite Hc, IH.
  cbn [rev]. rewrite <- app_assoc. reflexivity.
Qed.

Lemma fields_cons : forall a t, wordy a -> str_fields (a ++ " "%char :: t) = a :: str_fields t.
Proof.
  intros a t [N H]. unfold str_fields. rewrite fields_go by exact H. rewrite app_nil_r. cbn [fields]. change (is_space " ") with true. cbn match.
  destruct (rev a) as [|c l] eqn:E.
  - exfalso. apply N. rewrite <- (rev_involutive a), E. reflexivity.
  - rewrite <- E, rev_involutive. reflexivity.
Qed.

Lemma fields_one : forall a, wordy a -> str_fields a = [a].
Proof.
  intros a [N H]. unfold str_fields. rewrite <- (app_nil_r a) at 1. rewrite fields_go by exact H. rewrite app_nil_r. cbn [fields].
  destruct (rev a) as [|c l] eqn:E.
  - exfalso. apply N. rewrite <- (rev_involutive a), E. reflexivity.
  - rewrite <- E, rev_involutive. reflexivity.
Qed.

Lemma wordy_reg : forall r n, numeral r n -> wordy ("x"%char :: r).
Proof.
  intros r n H. destruct (numeral_facts H) as [_ [D _]]. split; [discriminate|]. constructor; [reflexivity|].
  eapply Forall_impl; [|exact D]. intros c Hc. apply digit_not_space. exact Hc.
Qed.

Lemma wordy_int : forall p v, integer p v -> wordy p.
Proof.
  intros p v H. assert (G : forall s n, numeral s n -> s <> [] /\ Forall (fun c => is_space c = false) s).
  { intros s n Hs. destruct (numeral_facts Hs) as [N [D _]]. split; [exact N|]. eapply Forall_impl; [|exact D]. intros c Hc. apply digit_not_space. exact Hc. }
  destruct H as [s n H|s n H|s n H]; destruct (G _ _ H) as [N D]; [split; assumption| |]; (split; [discriminate | constructor; [reflexivity | exact D]]).
Qed.

Lemma reg_value : forall r n, numeral r n -> first_int ("x"%char :: r) = Ok (Z.of_nat n).
Proof.
  intros r n H. change ("x"%char :: r) with (["x"%char] ++ r). rewrite <- (app_nil_r r).
  apply first_int_reg; [repeat constructor | exact H | exact I].
Qed.

Lemma int_value : forall p v, integer p v -> first_int p = Ok (Z.abs v).
Proof.
  intros p v H; destruct H as [s n H|s n H|s n H]; rewrite <- (app_nil_r s).
  - rewrite Z.abs_eq by lia. apply (@first_int_reg [] s n []); [constructor | exact H | exact I].
  - rewrite Z.abs_eq by lia. apply (@first_int_reg ["+"%char] s n []); [repeat constructor | exact H | exact I].
  - rewrite Z.abs_neq by lia. rewrite Z.opp_involutive. apply (@first_int_reg ["-"%char] s n []); [repeat constructor | exact H | exact I].
Qed.

Lemma finishes_ends : forall w s, finishes w s = true -> ends w s.
Proof.
  intros w s H. apply starts_app in H as [b E]. exists (rev b). rewrite <- (rev_involutive s), E, rev_app_distr, rev_involutive. reflexivity.
Qed.

Lemma separator_facts : forall s, separator s -> s <> [] /\ Forall (fun c => is_sep c = true) s /\ Forall (fun c => is_digit c = false) s.
Proof.
  intros s [N H]. split; [exact N|]. split; eapply Forall_impl; try exact H; intros c [-> | ->]; reflexivity.
Qed.

Lemma sep_stops : forall s t, separator s -> stops is_digit (s ++ t).
Proof. intros s t [N H]. destruct H as [|c s [-> | ->] _]; [congruence | reflexivity | reflexivity]. Qed.

Section Calls.
Variable S : scalar.

Theorem line_read : forall l o, @line_call S l o -> @gate_call S l = Ok o.
Proof.
  intros l o H. destruct H as [r n Hr|r n p v Hr Hp|r n Hr|r n Hr|r n Hr|w r n s m Hw Hr Hs|w r n s m p v Hw Hr Hs Hp|a n b m c k s1 s2 Ha Hb Hc H1 H2|l [Hu Hx]].
  - unfold gate_call. change (starts (T "X") (T "X x" ++ r)) with true. cbn [orb].
    change (list_ascii_of_string "X x" ++ r) with (T "X" ++ " "%char :: "x"%char :: r).
    rewrite fields_cons by (split; [discriminate | repeat constructor]). rewrite fields_one by (eapply wordy_reg; eauto).
    cbn [length Nat.eqb]. cbn [bind]. change (py_get [T "X"; "x"%char :: r] 1) with (Ok ("x"%char :: r)). cbn [bind].
    rewrite (reg_value Hr). reflexivity.
  - unfold gate_call. change (starts (T "X") (T "X x" ++ r ++ list_ascii_of_string " " ++ p)) with true. cbn [orb].
    change (list_ascii_of_string "X x" ++ r ++ list_ascii_of_string " " ++ p) with (T "X" ++ " "%char :: ("x"%char :: r) ++ " "%char :: p).
    rewrite fields_cons by (split; [discriminate | repeat constructor]). rewrite fields_cons by (eapply wordy_reg; eauto).
    rewrite fields_one by (eapply wordy_int; eauto). cbn [length Nat.eqb].
    change (py_get [T "X"; "x"%char :: r; p] 2) with (Ok p). change (py_get [T "X"; "x"%char :: r; p] 1) with (Ok ("x"%char :: r)). cbn [bind].
    rewrite (py_int_integer Hp), (reg_value Hr). reflexivity.
  - unfold gate_call. set (g := list_ascii_of_string "RX x" ++ r ++ list_ascii_of_string " 180").
    assert (E : finishes (T "180") g = true).
    { unfold finishes, g. rewrite !rev_app_distr. reflexivity. }
    rewrite E. change (starts (T "X") g || starts (T "RX") g && true) with true. cbn match.
    change g with (T "RX" ++ " "%char :: ("x"%char :: r) ++ " "%char :: T "180").
    rewrite fields_cons by (split; [discriminate | repeat constructor]). rewrite fields_cons by (eapply wordy_reg; eauto).
    rewrite fields_one by (split; [discriminate | repeat constructor]). cbn [length Nat.eqb].
    change (py_get [T "RX"; "x"%char :: r; T "180"] 2) with (Ok (T "180")). change (py_get [T "RX"; "x"%char :: r; T "180"] 1) with (Ok ("x"%char :: r)). cbn [bind].
    change (py_int (T "180")) with (Ok 180%Z). cbn [bind]. rewrite (reg_value Hr). reflexivity.
  - unfold gate_call. change (list_ascii_of_string "H x" ++ r) with (T "H" ++ " "%char :: "x"%char :: r).
    rewrite fields_cons by (split; [discriminate | repeat constructor]). rewrite fields_one by (eapply wordy_reg; eauto).
    cbn [starts lit list_ascii_of_string app Ascii.eqb Bool.eqb andb orb].
    change (py_get [["H"%char]; "x"%char :: r] 1) with (Ok ("x"%char :: r)). cbn [bind]. rewrite (reg_value Hr). reflexivity.
  - unfold gate_call. change (list_ascii_of_string "Z x" ++ r) with (T "Z" ++ " "%char :: "x"%char :: r).
    rewrite fields_cons by (split; [discriminate | repeat constructor]). rewrite fields_one by (eapply wordy_reg; eauto).
    cbn [starts lit list_ascii_of_string app Ascii.eqb Bool.eqb andb orb].
    change (py_get [["Z"%char]; "x"%char :: r] 1) with (Ok ("x"%char :: r)). cbn [bind]. rewrite (reg_value Hr). reflexivity.
  - unfold gate_call.
    change (list_ascii_of_string w ++ list_ascii_of_string " x" ++ r ++ list_ascii_of_string " x" ++ s)
      with (lit w ++ " "%char :: ("x"%char :: r) ++ " "%char :: ("x"%char :: s)).
    rewrite fields_cons by (destruct Hw as [<-|[<-|[]]]; (split; [discriminate | repeat constructor])).
    rewrite fields_cons by (eapply wordy_reg; eauto). rewrite fields_one by (eapply wordy_reg; eauto).
    cbv zeta beta. match goal with |- context [py_get ?l 1%Z] => change (py_get l 1%Z) with (Ok (A := text) ("x"%char :: r)) end. match goal with |- context [py_get ?l 2%Z] => change (py_get l 2%Z) with (Ok (A := text) ("x"%char :: s)) end. cbn [bind]. rewrite (reg_value Hr), (reg_value Hs). destruct Hw as [<-|[<-|[]]]; reflexivity.
  - unfold gate_call.
    change (list_ascii_of_string w ++ list_ascii_of_string " x" ++ r ++ list_ascii_of_string " x" ++ s ++ list_ascii_of_string " " ++ p)
      with (lit w ++ " "%char :: ("x"%char :: r) ++ " "%char :: ("x"%char :: s) ++ " "%char :: p).
    rewrite fields_cons by (destruct Hw as [<-|[<-|[]]]; (split; [discriminate | repeat constructor])).
    rewrite fields_cons by (eapply wordy_reg; eauto). rewrite fields_cons by (eapply wordy_reg; eauto). rewrite fields_one by (eapply wordy_int; eauto).
    cbv zeta beta. match goal with |- context [py_get ?l 1%Z] => change (py_get l 1%Z) with (Ok (A := text) ("x"%char :: r)) end.
    match goal with |- context [py_get ?l 2%Z] => change (py_get l 2%Z) with (Ok (A := text) ("x"%char :: s)) end. match goal with |- context [py_get ?l 3%Z] => change (py_get l 3%Z) with (Ok (A := text) (p)) end. cbn [bind length Nat.eqb]. rewrite (reg_value Hr), (reg_value Hs), (int_value Hp). destruct Hw as [<-|[<-|[]]]; reflexivity.
  - unfold gate_call. destruct (numeral_facts Ha) as [Na [Da Va]], (numeral_facts Hb) as [Nb [Db Vb]], (numeral_facts Hc) as [Nc [Dc Vc]].
    destruct (separator_facts H1) as [_ [_ S1]], (separator_facts H2) as [_ [_ S2]].
    set (g := list_ascii_of_string "Toffoli x" ++ _).
    assert (E : re_findall (RPlus is_digit) g = [a; b; c]).
    { unfold g. rewrite find_digits_pass by (repeat constructor). rewrite find_digits_hit by (auto; apply sep_stops; exact H1).
      rewrite find_digits_pass by exact S1. rewrite find_digits_pass by (repeat constructor).
      rewrite find_digits_hit by (auto; apply sep_stops; exact H2).
      rewrite find_digits_pass by exact S2. rewrite find_digits_pass by (repeat constructor).
      rewrite <- (app_nil_r c) at 1. rewrite find_digits_hit by (auto; exact I). reflexivity. }
    rewrite E. cbn [map]. rewrite Va, Vb, Vc. reflexivity.
  - unfold gate_call. assert (N : forall w, In w ["X"; "H"; "Z"; "CX"; "CNOT"; "Toffoli"]%string -> starts (lit w) l = false) by (intros w Hw; apply starts_no, Hu, Hw).
    rewrite (N "X"%string), (N "H"%string), (N "Z"%string), (N "CX"%string), (N "CNOT"%string), (N "Toffoli"%string) by (simpl; auto 10). cbn [orb].
    destruct (starts (T "RX") l) eqn:E1; [|reflexivity]. destruct (finishes (T "180") l) eqn:E2; [|reflexivity].
    exfalso. apply Hx. split; [apply starts_app; exact E1 | apply finishes_ends; exact E2].
Qed.

(** ** The registers whose dimension is raised *)
Notation mid := (re_sub re_toffoli (fun g => nth 0 g [])).

Lemma toffoli_here : forall a b c s1 s2, a <> [] -> b <> [] -> c <> [] -> digits a -> digits b -> digits c -> separator s1 -> separator s2 ->
  mid (T "Toffoli x" ++ a ++ s1 ++ T "x" ++ b ++ s2 ++ T "x" ++ c) = b.
Proof.
  intros a b c s1 s2 Na Nb Nc Da Db Dc H1 H2. destruct (separator_facts H1) as [N1 [P1 _]], (separator_facts H2) as [N2 [P2 _]].
  assert (St : forall d t, digits d -> d <> [] -> stops is_sep (d ++ t)).
  { intros d t Dd Nd. destruct Dd as [|x d Hx _]; [congruence|]. cbn. destruct (digit_cases _ Hx) as [k [Hk ->]].
    do 10 (destruct k as [|k]; [reflexivity|]). lia. }
  assert (E : re_here re_toffoli (T "Toffoli x" ++ a ++ s1 ++ T "x" ++ b ++ s2 ++ T "x" ++ c)
            = Some ([b], T "Toffoli x" ++ a ++ s1 ++ T "x" ++ b ++ s2 ++ T "x" ++ c, [])).
  { unfold re_toffoli. rewrite here_word.
    rewrite (@here_seq (RPlus is_digit) _ (a ++ s1 ++ T "x" ++ b ++ s2 ++ T "x" ++ c) [] a (s1 ++ T "x" ++ b ++ s2 ++ T "x" ++ c) [b] (s1 ++ T "x" ++ b ++ s2 ++ T "x" ++ c) []).
    - reflexivity.
    - apply here_plus; [exact Na | exact Da | apply sep_stops; exact H1].
    - apply (@here_seq _ _ _ [] s1 (T "x" ++ b ++ s2 ++ T "x" ++ c) [b] (T "x" ++ b ++ s2 ++ T "x" ++ c) []).
      + apply here_plus; [exact N1 | exact P1 | reflexivity].
      + apply (@here_seq _ _ _ [] (T "x") (b ++ s2 ++ T "x" ++ c) [b] (b ++ s2 ++ T "x" ++ c) []); [reflexivity|].
        apply (@here_seq _ _ _ [b] b (s2 ++ T "x" ++ c) [] (s2 ++ T "x" ++ c) []).
        * rewrite here_group. rewrite here_plus by (auto; apply sep_stops; exact H2). reflexivity.
        * apply (@here_seq _ _ _ [] s2 (T "x" ++ c) [] (T "x" ++ c) []); [apply here_plus; [exact N2 | exact P2 | reflexivity]|].
          apply (@here_seq _ _ _ [] (T "x") c [] c []); [reflexivity|].
          rewrite <- (app_nil_r c) at 1. apply here_plus; [exact Nc | exact Dc | exact I]. }
  rewrite (@sub_hit _ (fun g => nth 0 g []) _ _ _ _ E). cbn [nth]. apply app_nil_r.
Qed.

Lemma raise_line : forall l o, @line_call S l o ->
  (starts (T "Toffoli") l = false /\ forall r, existsb (raises r) (made [o]) = false) \/
  (starts (T "Toffoli") l = true /\ exists s m, numeral s m /\ mid l = s /\ forall r, existsb (raises r) (made [o]) = (Z.of_nat m =? Z.of_nat r)%Z).
Proof.
  intros l o H. destruct H as [r n Hr|r n p v Hr Hp|r n Hr|r n Hr|r n Hr|w r n s m Hw Hr Hs|w r n s m p v Hw Hr Hs Hp|a n b m c k s1 s2 Ha Hb Hc H1 H2|l [Hu Hx]];
    try (left; split; [reflexivity | reflexivity]).
  - left. destruct Hw as [<-|[<-|[]]]; split; reflexivity.
  - left. destruct Hw as [<-|[<-|[]]]; split; reflexivity.
  - right. split; [reflexivity|]. destruct (numeral_facts Ha) as [Na [Da _]], (numeral_facts Hb) as [Nb [Db _]], (numeral_facts Hc) as [Nc [Dc _]].
    exists b, m. split; [exact Hb|]. split; [apply toffoli_here; assumption|]. intro r. cbn [made map concat app existsb raises]. apply Bool.orb_false_r.
  - left. split; [apply starts_no, Hu; simpl; auto 10 | reflexivity].
Qed.

Lemma made_cons : forall o (os : list (option (call S))), made (o :: os) = made [o] ++ made os.
Proof. intros o os. unfold made. cbn [map concat]. rewrite app_nil_r. reflexivity. Qed.

Lemma raise_lines : forall ls os, Forall2 (@line_call S) ls os -> exists ss ms, Forall2 numeral ss ms /\
  map mid (filter (starts (T "Toffoli")) ls) = ss /\ forall r, existsb (raises r) (made os) = existsb (fun m => Z.of_nat m =? Z.of_nat r)%Z ms.
Proof.
  intros ls os H. induction H as [|l o ls os Hl H IH]; [exists [], []; repeat split; constructor|].
  destruct IH as [ss [ms [F [E X]]]]. cbn [filter]. destruct (raise_line Hl) as [[N Y]|[N [s [m [Hs [Em Y]]]]]]; rewrite N.
  - exists ss, ms. split; [exact F|]. split; [exact E|]. intro r. rewrite made_cons, existsb_app, Y, X. reflexivity.
  - exists (s :: ss), (m :: ms). split; [constructor; assumption|]. split; [cbn [map]; rewrite Em, E; reflexivity|].
    intro r. rewrite made_cons, existsb_app, Y, X. reflexivity.
Qed.

Lemma sub_join : forall r f l ls, avoids ";" r = true -> re_sub r f (str_join (T ";") (l :: ls)) = str_join (T ";") (map (re_sub r f) (l :: ls)).
Proof.
  intros r f l ls A; revert l; induction ls as [|x ls IH]; intro l; [reflexivity|].
  change (str_join (T ";") (l :: x :: ls)) with (l ++ ";"%char :: str_join (T ";") (x :: ls)). rewrite sub_line by exact A. rewrite IH. reflexivity.
Qed.

Lemma split_join : forall l ls, Forall (fun y => ~ In ";"%char y) (l :: ls) -> str_split ";" (str_join (T ";") (l :: ls)) = l :: ls.
Proof.
  intros l ls; revert l; induction ls as [|x ls IH]; intros l F; inversion F as [|? ? Nl F']; subst.
  - unfold str_split. cbn [str_join]. apply split_on_end. exact Nl.
  - change (str_join (T ";") (l :: x :: ls)) with (l ++ ";"%char :: str_join (T ";") (x :: ls)). unfold str_split in *.
    rewrite split_on_app by exact Nl. rewrite IH by exact F'. reflexivity.
Qed.

Lemma mapM_numerals : forall ss ms, Forall2 numeral ss ms -> mapM py_int ss = Ok (map Z.of_nat ms).
Proof.
  intros ss ms H; induction H as [|s m ss ms Hs H IH]; [reflexivity|]. cbn [mapM map]. rewrite (py_int_integer (int_plain Hs)), IH. reflexivity.
Qed.

Theorem raise_doc : forall ls os dims, Forall2 (@line_call S) ls os ->
  raise_dims ls (map Z.of_nat dims) = Ok (map Z.of_nat (raised dims (made os))).
Proof.
  intros ls os dims H. destruct (raise_lines H) as [ss [ms [F [E X]]]]. unfold raise_dims, raised.
  destruct (filter (starts (lit "Toffoli")) ls) as [|l found].
  - cbn in E; subst ss. inversion F; subst. f_equal. f_equal. rewrite <- (map_id dims) at 1.
    assert (G : forall k, map (fun x => x) dims = map (fun '(r, d) => if existsb (raises r) (made os) then d + 1 else d) (combine (seq k (length dims)) dims)).
    { induction dims as [|d dims IH]; intro k; [reflexivity|]. cbn [map length seq combine]. rewrite X. cbn [existsb]. f_equal. apply IH. }
    apply G.
  - rewrite sub_join by reflexivity. rewrite E. destruct ss as [|s ss]; [discriminate E|].
    rewrite split_join.
    + rewrite (mapM_numerals F). cbn [bind]. f_equal. rewrite map_length.
      assert (G : forall k, map (fun '(i, d) => if zmem (Z.of_nat i) (map Z.of_nat ms) then (d + 1)%Z else d) (combine (seq k (length dims)) (map Z.of_nat dims))
        = map Z.of_nat (map (fun '(r, d) => if existsb (raises r) (made os) then d + 1 else d) (combine (seq k (length dims)) dims))); [|apply G].
      induction dims as [|d dims IH]; intro k; [reflexivity|]. cbn [map length seq combine]. rewrite X, IH. f_equal.
      replace (zmem (Z.of_nat k) (map Z.of_nat ms)) with (existsb (fun m => Z.of_nat m =? Z.of_nat k)%Z ms); [destruct (existsb _ ms); lia|].
      clear. unfold zmem. induction ms as [|m ms IH]; [reflexivity|]. cbn [map existsb]. rewrite IH, Z.eqb_sym. reflexivity.
    + assert (G : forall l ks, Forall2 numeral l ks -> Forall (fun y => ~ In ";"%char y) l).
      { clear. intros l ks H; induction H as [|x k l ks Hx H IH]; constructor; [|exact IH]. destruct (numeral_facts Hx) as [_ [D _]].
        eapply digits_no; [exact D | reflexivity]. }
      eapply G, F.
Qed.
End Calls.

(** ** The whole text *)
Section Whole.
Variable S : scalar.
Notation circuit := (circuit S).

Definition nonempty (l : text) : bool := match l with [] => false | _ => true end.

(** The reader after the declarations. *)
Definition reader (gates : list text) (qregs : list Z) : res circuit :=
  qregs <- raise_dims gates qregs ;;
  c <- mk_circuit S (QList qregs) None None ;;
  c <- read_lines c gates ;;
  '(c, _) <- api c CMeasureAll ;;
  Ok c.

Lemma gate_lines_doc : forall b ls, spaces b -> Forall quiet ls -> gate_lines (b ++ U ls) = filter nonempty (b :: ls).
Proof.
  intros b ls Hb Hl. unfold gate_lines. rewrite split_lines; [reflexivity | |].
  - destruct (spaces_facts Hb) as [N _]. apply N. reflexivity.
  - eapply Forall_impl; [|exact Hl]. intros l Q. apply Q.
Qed.

Lemma read_lines_none : forall ls a, fold_left (fun acc g => c <- acc ;; @read_line S c g) ls (Err a) = Err a.
Proof. induction ls as [|l ls IH]; intro a; [reflexivity|]. cbn [fold_left bind]. apply IH. Qed.

Lemma read_lines_app : forall a b (c : circuit), read_lines c (a ++ b) = (c <- read_lines c a ;; read_lines c b).
Proof.
  intros a b c. unfold read_lines. rewrite fold_left_app. destruct (fold_left _ a (Ok c)) as [c'|e]; [reflexivity|]. cbn [bind]. apply read_lines_none.
Qed.

Lemma read_lines_cons : forall l b (c : circuit), read_lines c (l :: b) = (c <- read_line c l ;; read_lines c b).
Proof.
  intros l b c. unfold read_lines. cbn [fold_left bind]. destruct (read_line c l) as [c'|e]; [reflexivity|]. cbn [bind]. apply read_lines_none.
Qed.

Lemma bind_same : forall A B (x : res A) (f g : A -> res B), (forall a, f a = g a) -> bind x f = bind x g.
Proof. intros A B x f g H. destruct x as [a|e]; [apply H | reflexivity]. Qed.

Lemma raise_same : forall ls ls' q, filter (starts (T "Toffoli")) ls = filter (starts (T "Toffoli")) ls' -> raise_dims ls q = raise_dims ls' q.
Proof. intros ls ls' q H. unfold raise_dims. rewrite H. reflexivity. Qed.

(** Two lines that make the same call, neither of them a Toffoli. *)
Lemma reader_swap : forall a l l' b q, starts (T "Toffoli") l = false -> starts (T "Toffoli") l' = false -> @gate_call S l = gate_call S l' ->
  reader (a ++ l :: b) q = reader (a ++ l' :: b) q.
Proof.
  intros a l l' b q N N' E. unfold reader. rewrite (@raise_same (a ++ l :: b) (a ++ l' :: b)).
  - apply bind_same; intro q'. apply bind_same; intro c. f_equal. rewrite !read_lines_app. apply bind_same; intro c'.
    rewrite !read_lines_cons. f_equal. unfold read_line. rewrite E. reflexivity.
  - rewrite !filter_app. cbn [filter]. rewrite N, N'. reflexivity.
Qed.

Lemma reader_drop : forall a l b q, starts (T "Toffoli") l = false -> @gate_call S l = Ok None -> reader (a ++ l :: b) q = reader (a ++ b) q.
Proof.
  intros a l b q N E. unfold reader. rewrite (@raise_same (a ++ l :: b) (a ++ b)).
  - apply bind_same; intro q'. apply bind_same; intro c. f_equal. rewrite !read_lines_app. apply bind_same; intro c'.
    rewrite read_lines_cons. unfold read_line. rewrite E. reflexivity.
  - rewrite !filter_app. cbn [filter]. rewrite N. reflexivity.
Qed.

Lemma unknown_drop : forall l, unknown l -> starts (T "Toffoli") l = false /\ @gate_call S l = Ok None.
Proof.
  intros l H. split; [apply starts_no; apply H; simpl; auto 10 | apply line_read; constructor; exact H].
Qed.

Lemma unknown_nil : unknown [].
Proof.
  split; [|intros [[b H] _]; discriminate H]. intros w Hw [b H]. repeat (destruct Hw as [<-|Hw]; [discriminate H|]). destruct Hw.
Qed.

Lemma unknown_spaces : forall b, spaces b -> unknown b.
Proof.
  intros b H. assert (N : forall c w, spacing c = false -> ~ begins (c :: w) b).
  { intros c w Hc [t E]. destruct (spaces_facts H) as [G _]. apply (G c Hc). rewrite E. left. reflexivity. }
  split; [|intros [K _]; revert K; apply N; reflexivity]. intros w Hw. repeat (destruct Hw as [<-|Hw]; [apply N; reflexivity|]). destruct Hw.
Qed.

Lemma reader_filter : forall ls a q, reader (a ++ filter nonempty ls) q = reader (a ++ ls) q.
Proof.
  induction ls as [|l ls IH]; intros a q; [reflexivity|]. destruct l as [|c l].
  - cbn [filter nonempty]. rewrite IH. destruct (unknown_drop unknown_nil) as [N E]. rewrite (reader_drop a _ ls q N E). reflexivity.
  - change (filter nonempty ((c :: l) :: ls)) with ((c :: l) :: filter nonempty ls).
    change ((c :: l) :: filter nonempty ls) with ([c :: l] ++ filter nonempty ls). change ((c :: l) :: ls) with ([c :: l] ++ ls).
    rewrite !app_assoc. apply IH.
Qed.

(** A well formed text, whatever its declarations and gate lines are. *)
Theorem read_doc : forall d, well_formed d ->
  @circuit_from_qasm S (text_of d) = (q <- declared (d_blank d ++ U (d_decls d)) ;; reader (d_gates d) q).
Proof.
  intros d W. unfold circuit_from_qasm. destruct (sections_doc W) as [rest ->]. cbn [bind].
  match goal with |- context [py_get ?l 0%Z] => change (py_get l 0%Z) with (py_get l (Z.of_nat 0)) end. rewrite (@Lib.py_get_nat _ _ 0 []) by (cbn [length]; lia). cbn [bind nth].
  apply bind_same; intro q.
  match goal with |- context [py_get ?l 1%Z] => change (py_get l 1%Z) with (py_get l (Z.of_nat 1)) end. rewrite (@Lib.py_get_nat _ _ 1 []) by (cbn [length]; lia). cbn [bind nth].
  rewrite gate_lines_doc by apply W.
  change (reader (filter nonempty (d_blank2 d :: d_gates d)) q = reader (d_gates d) q).
  rewrite <- (app_nil_l (filter _ _)), reader_filter. cbn [app].
  destruct (unknown_drop (unknown_spaces (wf_blank2 W))) as [N E]. apply (reader_drop [] _ (d_gates d) q N E).
Qed.

Lemma read_lines_made : forall ls os, Forall2 (@line_call S) ls os -> forall c, read_lines c ls = call_all c (made os).
Proof.
  intros ls os H; induction H as [|l o ls os Hl H IH]; intro c; [reflexivity|].
  rewrite read_lines_cons. unfold read_line. rewrite (line_read Hl). cbn [bind]. rewrite made_cons. destruct o as [k|].
  - cbn [made map concat app]. unfold call_all in *. cbn [fold_left bind]. destruct (api c k) as [[c' b]|e]; cbn [bind]; [apply IH|].
    clear. induction (made os) as [|x l IH]; [reflexivity|]. cbn [fold_left bind]. exact IH.
  - cbn [made map concat app bind]. apply IH.
Qed.

Theorem read_text : forall d dss os, well_formed d -> Forall2 declares (d_decls d) dss -> Forall2 (@line_call S) (d_gates d) os ->
  circuit_from_qasm S (text_of d) = built (raised (concat dss) (made os)) (made os).
Proof.
  intros d dss os W Hd Hg. rewrite read_doc by exact W. rewrite (declared_lines (wf_blank W) Hd). cbn [bind]. unfold reader.
  rewrite (raise_doc _ Hg). cbn [bind]. unfold built. apply bind_same; intro c. rewrite (read_lines_made Hg).
  unfold call_all. rewrite fold_left_app. reflexivity.
Qed.

Theorem unknown_line_ignored : forall d a l b, well_formed (with_gates d (a ++ l :: b)) -> unknown l ->
  @circuit_from_qasm S (text_of (with_gates d (a ++ l :: b))) = circuit_from_qasm S (text_of (with_gates d (a ++ b))).
Proof.
  intros d a l b W U. rewrite (read_doc W). rewrite read_doc.
  - apply bind_same; intro q. cbn [with_gates d_gates]. destruct (unknown_drop U) as [N E]. apply (reader_drop a _ b q N E).
  - destruct W as [w1 w2 w3 w4 w5 w6 w9 w0 w7 w8]. constructor; cbn [with_gates d_gates d_head d_kind d_count d_blank d_decls d_blank2 d_blank3 d_foot] in *; auto.
    apply Forall_app. apply Forall_app in w7 as [F1 F2]. split; [exact F1|]. inversion F2; assumption.
Qed.

Theorem same_call_same_text : forall d a l l' b o, well_formed (with_gates d (a ++ l :: b)) -> well_formed (with_gates d (a ++ l' :: b)) ->
  @line_call S l o -> line_call l' o -> (forall r, existsb (raises r) (made [o]) = false) ->
  @circuit_from_qasm S (text_of (with_gates d (a ++ l :: b))) = circuit_from_qasm S (text_of (with_gates d (a ++ l' :: b))).
Proof.
  intros d a l l' b o W W' L L' N. rewrite (read_doc W), (read_doc W'). apply bind_same; intro q. cbn [with_gates d_gates].
  assert (G : forall x, line_call x o -> starts (T "Toffoli") x = false).
  { intros x Lx. destruct (raise_line Lx) as [[F _]|[_ [s [m [_ [_ Y]]]]]]; [exact F|]. specialize (Y m). rewrite N, Z.eqb_refl in Y. discriminate Y. }
  apply reader_swap; [apply G; exact L | apply G; exact L'|]. rewrite (line_read L), (line_read L'). reflexivity.
Qed.
End Whole.
