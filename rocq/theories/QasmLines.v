(** * QasmLines: reading any gate line. *)
From Coq Require Import String Ascii.
From Verif Require Import Py Scalar Mat Utils Gates Circuit Spec Qasm QasmSpec RegexLib QasmLib QasmMarks QasmRun QasmLineSpec.
Set Implicit Arguments.
Local Notation length := List.length.
Local Notation T s := (lit s%string).

(** ** Words *)
Lemma digital_is : forall c, digital c <-> is_digit c = true.
Proof.
  intro c. split; [intros [d [H ->]]; apply digit_is; exact H | apply digit_cases].
Qed.

Lemma not_digital : forall c, ~ digital c <-> is_digit c = false.
Proof. intro c. rewrite digital_is. destruct (is_digit c); split; congruence. Qed.

Lemma not_white : forall c, ~ white c <-> is_space c = false.
Proof. intro c. rewrite <- white_space. destruct (is_space c); split; congruence. Qed.

Lemma tokens_fields : forall l ws, tokens l ws -> str_fields l = ws.
Proof.
  intros l ws H. induction H as [|c s ws Hc H IH|w s ws N F Hs H IH]; [reflexivity | |].
  - apply white_space in Hc. unfold str_fields. cbn [fields]. rewrite Hc. exact IH.
  - assert (F' : Forall (fun c => is_space c = false) w) by (eapply Forall_impl; [|exact F]; intros c Hc; apply not_white; exact Hc).
    unfold str_fields. rewrite fields_go by exact F'. rewrite app_nil_r.
    assert (R : rev w <> []) by (intro E; apply N; rewrite <- (rev_involutive w), E; reflexivity).
    destruct Hs as [-> | [c [s' [-> Hc]]]].
    + cbn [fields]. change (str_fields []) with (@nil text) in IH. subst ws. destruct (rev w) as [|x r] eqn:E; [congruence|].
      rewrite <- E, rev_involutive. reflexivity.
    + apply white_space in Hc. unfold str_fields in IH. cbn [fields] in *. rewrite Hc in *. rewrite IH.
      destruct (rev w) as [|x r] eqn:E; [congruence|]. rewrite <- E, rev_involutive. reflexivity.
Qed.

Lemma tokens_total : forall l, exists ws, tokens l ws.
Proof.
  intro l. remember (length l) as n eqn:En. revert l En. induction n as [n IH] using lt_wf_ind. intros l En.
  destruct l as [|c l]; [exists []; constructor|]. destruct (is_space c) eqn:Ec.
  - destruct (IH (length l) ltac:(subst n; simpl; lia) l eq_refl) as [ws H]. exists ws. apply tk_white; [apply white_space; exact Ec | exact H].
  - destruct (span (fun c => negb (is_space c)) (c :: l)) as [u [t [E [F St]]]].
    assert (Nu : u <> []).
    { intros ->. cbn [app] in E. subst t. cbn in St. rewrite Ec in St. discriminate St. }
    destruct (IH (length t)) with (l := t) as [ws H]; [|reflexivity|].
    { subst n. rewrite E, app_length. destruct u; [congruence | simpl; lia]. }
    exists (u :: ws). rewrite E. apply tk_word; [exact Nu | | | exact H].
    + eapply Forall_impl; [|exact F]. intros x Hx. apply not_white. apply negb_true_iff. exact Hx.
    + destruct t as [|x t]; [left; reflexivity|]. right. exists x, t. split; [reflexivity|]. cbn in St. apply negb_false_iff in St. apply white_space. exact St.
Qed.

(** ** Numbers *)
Lemma body_numeral : forall s n, py_numeral s n -> forall t, int_body false 0 (s ++ t) = int_body true (Z.of_nat n) t.
Proof.
  intros s n H; induction H as [d Hd|s n d H IH Hd|s n d H IH Hd]; intro t; destruct (digit_is Hd) as [E1 E2].
  - cbn [app int_body]. rewrite E1, E2. f_equal.
  - rewrite <- app_assoc, IH. cbn [app int_body]. rewrite E1, E2. f_equal. lia.
  - rewrite <- app_assoc, IH. cbn [app int_body]. change (is_digit "_") with false. cbn [Ascii.eqb Bool.eqb andb]. rewrite E1, E2. f_equal. lia.
Qed.

Inductive seen : text -> bool -> Z -> Prop :=
| seen_nothing : seen [] false 0
| seen_number : forall p n, py_numeral p n -> seen p true (Z.of_nat n)
| seen_score : forall p n, py_numeral p n -> seen (p ++ ["_"%char]) false (Z.of_nat n).

Lemma body_seen : forall s p ok acc v, Forall (fun c => is_space c = false) s -> seen p ok acc -> int_body ok acc s = Ok v ->
  exists n, v = Z.of_nat n /\ py_numeral (p ++ s) n.
Proof.
  induction s as [|c s IH]; intros p ok acc v F Hs E.
  - cbn [int_body] in E. rewrite app_nil_r. destruct Hs as [|p n H|p n H]; [discriminate E | | discriminate E]. injection E as <-. eauto.
  - inversion F as [|? ? Fc F']; subst. cbn [int_body] in E. destruct (is_digit c) eqn:Ec.
    + destruct (digit_cases _ Ec) as [d [Hd ->]]. destruct (digit_is Hd) as [_ Ev]. rewrite Ev in E.
      destruct (IH (p ++ [digit d]) true (10 * acc + Z.of_nat d)%Z v F') as [n [En H]]; [|exact E|].
      * destruct Hs as [|p n H|p n H].
        -- replace (10 * 0 + Z.of_nat d)%Z with (Z.of_nat d) by lia. apply seen_number. apply pn_one. exact Hd.
        -- replace (10 * Z.of_nat n + Z.of_nat d)%Z with (Z.of_nat (10 * n + d)) by lia. apply seen_number, pn_more; assumption.
        -- replace (10 * Z.of_nat n + Z.of_nat d)%Z with (Z.of_nat (10 * n + d)) by lia. apply seen_number.
           rewrite <- app_assoc. apply pn_score; assumption.
      * exists n. split; [exact En|]. rewrite <- app_assoc in H. exact H.
    + destruct (Ascii.eqb_spec c "_") as [->|Nc].
      * destruct ok; cbn [andb] in E; [|discriminate E]. inversion Hs as [|p' n H|]; subst.
        destruct (IH (p ++ ["_"%char]) false (Z.of_nat n) v F' (seen_score H) E) as [m [Em G]]. exists m. split; [exact Em|].
        rewrite <- app_assoc in G. exact G.
      * cbn [andb] in E. replace (forallb is_blank (c :: s)) with false in E; [rewrite andb_false_r in E; discriminate E|].
        symmetry. cbn [forallb]. replace (is_blank c) with false; [reflexivity|]. symmetry. revert Fc. unfold is_space, is_blank.
        clear. intro H. apply orb_false_iff in H as [H1 H2]. rewrite H1. cbn [orb]. apply Nat.eqb_neq. intro E. rewrite E in H2. discriminate H2.
Qed.

Lemma blank_space : forall c, is_space c = false -> is_blank c = false.
Proof.
  intros c H. unfold is_space, is_blank in *. apply orb_false_iff in H as [H1 H2]. rewrite H1. cbn [orb]. apply Nat.eqb_neq. intro E. rewrite E in H2. discriminate H2.
Qed.

Lemma py_numeral_head : forall s n, py_numeral s n -> exists c t, s = c :: t /\ is_digit c = true.
Proof.
  intros s n H; induction H as [d Hd|s n d H [c [t [-> E]]] Hd|s n d H [c [t [-> E]]] Hd].
  - exists (digit d), []. split; [reflexivity | apply digit_is; exact Hd].
  - eexists c, _. split; [reflexivity | exact E].
  - eexists c, _. split; [reflexivity | exact E].
Qed.

Lemma py_int_complete : forall w v, py_integer w v -> py_int w = Ok v.
Proof.
  assert (B : forall s n, py_numeral s n -> int_body false 0 s = Ok (Z.of_nat n)).
  { intros s n H. rewrite <- (app_nil_r s), (body_numeral H). reflexivity. }
  intros w v H. destruct H as [s n H|s n H|s n H].
  - destruct (py_numeral_head H) as [c [t [-> Ec]]]. unfold py_int. cbn [skip_blank]. destruct (digit_not_space _ Ec) as [_ ->].
    destruct (@digit_not c "-" Ec eq_refl) as [-> _]. destruct (@digit_not c "+" Ec eq_refl) as [-> _]. apply B. exact H.
  - unfold py_int. cbn [skip_blank]. change (is_blank "+") with false. cbn match. cbn [Ascii.eqb Bool.eqb]. apply B. exact H.
  - unfold py_int. cbn [skip_blank]. change (is_blank "-") with false. cbn match. cbn [Ascii.eqb Bool.eqb]. rewrite (B _ _ H). reflexivity.
Qed.

Lemma body_err : forall s ok acc e, int_body ok acc s = Err e -> e = ValueError.
Proof.
  induction s as [|c s IH]; intros ok acc e H; cbn [int_body] in H.
  - destruct ok; congruence.
  - destruct (is_digit c); [eauto|]. destruct (Ascii.eqb c "_" && ok)%bool; [eauto|]. destruct (ok && forallb is_blank (c :: s))%bool; congruence.
Qed.

Lemma py_int_err : forall w e, py_int w = Err e -> e = ValueError.
Proof.
  intros w e H. unfold py_int in H. destruct (skip_blank w) as [|c t]; [congruence|].
  destruct (Ascii.eqb c "-").
  - destruct (int_body false 0 t) as [v|e'] eqn:E; [discriminate H|]. injection H as <-. eapply body_err; eauto.
  - destruct (Ascii.eqb c "+"); eapply body_err; eauto.
Qed.

Lemma py_int_sound : forall w v, Forall (fun c => is_space c = false) w -> py_int w = Ok v -> py_integer w v.
Proof.
  intros w v F H. unfold py_int in H. destruct F as [|c t Fc F]; [discriminate H|]. cbn [skip_blank] in H. rewrite (blank_space _ Fc) in H.
  destruct (Ascii.eqb_spec c "-") as [->|N1].
  - destruct (int_body false 0 t) as [v'|e'] eqn:E; [|discriminate H]. injection H as <-.
    destruct (body_seen F seen_nothing E) as [n [-> G]]. apply pi_minus. exact G.
  - destruct (Ascii.eqb_spec c "+") as [->|N2].
    + destruct (body_seen F seen_nothing H) as [n [-> G]]. apply pi_plus. exact G.
    + destruct (body_seen (Forall_cons _ Fc F) seen_nothing H) as [n [-> G]]. apply pi_plain. exact G.
Qed.

Lemma py_int_bad : forall w, (forall v, ~ py_integer w v) -> Forall (fun c => is_space c = false) w -> py_int w = Err ValueError.
Proof.
  intros w H F. destruct (py_int w) as [v|e] eqn:E; [exfalso; exact (H v (py_int_sound F E))|]. f_equal. eapply py_int_err; eauto.
Qed.

(** ** Operands *)
Lemma no_digits : forall t, Forall (fun c => ~ digital c) t -> first_int t = Err IndexError.
Proof.
  intros t H. unfold first_int. rewrite <- (app_nil_r t), find_digits_pass; [reflexivity|].
  eapply Forall_impl; [|exact H]. intros c Hc. apply not_digital. exact Hc.
Qed.

Lemma first_number_int : forall t n, first_number t n -> first_int t = Ok (Z.of_nat n).
Proof.
  intros t n [a s n' b Ha Hs Hb]. apply first_int_reg; [|exact Hs|].
  - eapply Forall_impl; [|exact Ha]. intros c Hc. apply not_digital. exact Hc.
  - destruct Hb as [-> | [c [b' [-> Hc]]]]; [exact I | apply not_digital; exact Hc].
Qed.

Lemma first_number_total : forall t, Forall (fun c => ~ digital c) t \/ exists n, first_number t n.
Proof.
  intro t. destruct (span (fun c => negb (is_digit c)) t) as [a [s [-> [Fa St]]]].
  assert (Fa' : Forall (fun c => ~ digital c) a).
  { eapply Forall_impl; [|exact Fa]. intros c Hc. apply not_digital. apply negb_true_iff. exact Hc. }
  destruct (span is_digit s) as [d [b [-> [Fd Sb]]]]. destruct d as [|c d].
  - destruct b as [|c b]; [left; rewrite app_nil_r; exact Fa'|]. cbn in St, Sb. rewrite Sb in St. discriminate St.
  - right. assert (G : forall u, u <> [] -> Forall (fun c => is_digit c = true) u -> exists n, numeral u n).
    { intro u. induction u as [|x u IH] using rev_ind; [congruence|]. intros _ Fu. apply Forall_app in Fu as [Fu Fx]. inversion Fx as [|? ? Hx _]; subst.
      destruct (digit_cases _ Hx) as [k [Hk ->]]. destruct u as [|y u]; [exists k; constructor; exact Hk|].
      destruct IH as [n Hn]; [discriminate | exact Fu|]. exists (10 * n + k). apply num_more; assumption. }
    destruct (G (c :: d)) as [n Hn]; [discriminate | exact Fd|]. exists n. constructor; [exact Fa' | exact Hn|].
    destruct b as [|x b]; [left; reflexivity|]. right. exists x, b. split; [reflexivity|]. apply not_digital. exact Sb.
Qed.

Lemma get_absent : forall A (l : list A) i, length l <= i -> py_get l (Z.of_nat i) = Err IndexError.
Proof.
  intros A l i H. unfold py_get, py_index. replace ((- Z.of_nat (length l) <=? Z.of_nat i) && (Z.of_nat i <? 0))%Z with false by (symmetry; apply andb_false_iff; right; apply Z.ltb_ge; lia).
  replace ((0 <=? Z.of_nat i) && (Z.of_nat i <? Z.of_nat (length l)))%Z with false by (symmetry; apply andb_false_iff; right; apply Z.ltb_ge; lia). reflexivity.
Qed.

Lemma operand_read : forall (ws : list text) i q, operand ws i q -> (t <- py_get ws (Z.of_nat i) ;; first_int t) = q.
Proof.
  intros ws i q H. unfold text in *. destruct H as [H|H F|n H F].
  - rewrite get_absent by exact H. reflexivity.
  - rewrite (@Lib.py_get_nat _ ws i []) by exact H. cbn [bind]. apply no_digits. exact F.
  - rewrite (@Lib.py_get_nat _ ws i []) by exact H. cbn [bind]. apply first_number_int. exact F.
Qed.

Lemma operand_read1 : forall (ws : list text) q, operand ws 1 q -> (t <- py_get ws 1 ;; first_int t) = q.
Proof. intros ws q H. exact (operand_read H). Qed.
Lemma operand_read2 : forall (ws : list text) q, operand ws 2 q -> (t <- py_get ws 2 ;; first_int t) = q.
Proof. intros ws q H. exact (operand_read H). Qed.

Lemma operand_total : forall ws i, exists q, operand ws i q.
Proof.
  intros ws i. destruct (le_lt_dec (length ws) i) as [H|H]; [eexists; apply op_absent; exact H|].
  destruct (first_number_total (nth i ws [])) as [F|[n F]]; eexists; [apply op_wordy | eapply op_number]; eauto.
Qed.

Lemma tokens_words : forall l ws, tokens l ws -> Forall (fun w => Forall (fun c => is_space c = false) w) ws.
Proof.
  intros l ws H; induction H as [|c s ws _ _ IH|w s ws _ F _ _ IH]; [constructor | exact IH|]. constructor; [|exact IH].
  eapply Forall_impl; [|exact F]. intros c Hc. apply not_white. exact Hc.
Qed.

Lemma x_increment_read : forall l (ws : list text) p, tokens l ws -> x_increment ws p ->
  (if Nat.eqb (length ws) 3 then t <- py_get ws 2 ;; py_int t else Ok 1%Z) = p.
Proof.
  intros l ws p Ht H. unfold text in *. destruct H as [H|v H G|H G].
  - apply Nat.eqb_neq in H. rewrite H. reflexivity.
  - rewrite H. cbn [Nat.eqb]. change 2%Z with (Z.of_nat 2). rewrite (@Lib.py_get_nat _ ws 2 []) by lia. cbn [bind]. apply py_int_complete. exact G.
  - rewrite H. cbn [Nat.eqb]. change 2%Z with (Z.of_nat 2). rewrite (@Lib.py_get_nat _ ws 2 []) by lia. cbn [bind]. apply py_int_bad; [exact G|].
    pose proof (tokens_words Ht) as F. rewrite Forall_forall in F. apply F. apply nth_In. lia.
Qed.

Lemma x_increment_total : forall l ws, tokens l ws -> exists p, x_increment ws p.
Proof.
  intros l ws Ht. destruct (Nat.eq_dec (length ws) 3) as [H|H]; [|eexists; apply xi_one; exact H].
  assert (F : Forall (fun c => is_space c = false) (nth 2 ws [])).
  { pose proof (tokens_words Ht) as F. rewrite Forall_forall in F. apply F. apply nth_In. lia. }
  destruct (py_int (nth 2 ws [])) as [v|e] eqn:E.
  - eexists. apply xi_given; [exact H | apply py_int_sound; eassumption].
  - eexists. apply xi_bad; [exact H|]. intros v G. apply py_int_complete in G. congruence.
Qed.

Lemma cx_increment_read : forall (ws : list text) p, cx_increment ws p ->
  (if Nat.eqb (length ws) 4 then t <- py_get ws 3 ;; first_int t else Ok 1%Z) = p.
Proof.
  intros ws p H. unfold text in *. destruct H as [H|p H G].
  - apply Nat.eqb_neq in H. rewrite H. reflexivity.
  - rewrite H. cbn [Nat.eqb]. exact (operand_read G).
Qed.

Lemma cx_increment_total : forall ws, exists p, cx_increment ws p.
Proof.
  intros ws. destruct (Nat.eq_dec (length ws) 4) as [H|H]; [|eexists; apply ci_one; exact H].
  destruct (operand_total ws 3) as [p G]. exists p. apply ci_given; assumption.
Qed.

(** ** Lines *)
Lemma begins_not : forall w w' l, begins (T w) l -> starts (T w') (T w) = false -> length (T w') <= length (T w) -> starts (T w') l = false.
Proof.
  intros w w' l [b ->]. generalize (T w) (T w'). intros u v H Hl. revert v H Hl. induction u as [|a u IH]; intros v H Hl.
  - destruct v; [discriminate H | simpl in Hl; lia].
  - destruct v as [|c v]; [discriminate H|]. cbn [app starts] in *. destruct (Ascii.eqb c a); [|reflexivity]. cbn [andb] in *. apply IH; [exact H | simpl in Hl; lia].
Qed.

Lemma starts_first : forall a w x l, a <> x -> starts (a :: w) (x :: l) = false.
Proof. intros a w x l H. cbn [starts]. apply Ascii.eqb_neq in H. rewrite H. reflexivity. Qed.

Section Calls.
Variable S : scalar.

Lemma ends_finishes : forall w s, ends w s -> finishes w s = true.
Proof. intros w s [a ->]. unfold finishes. apply starts_app. exists (rev a). apply rev_app_distr. Qed.

Lemma blanks_facts : forall s, blanks s -> (forall c, is_blank c = false -> ~ In c s) /\ stops is_digit s /\
  Forall (fun c => is_digit c = false) s /\ forallb is_blank s = true.
Proof.
  intros s H.
  assert (G : forall c, In (nat_of_ascii c) [9; 11; 12; 13; 32] -> is_digit c = false /\ is_blank c = true).
  { intros c Hc. unfold is_digit, is_blank, code. repeat (destruct Hc as [<-|Hc]; [split; reflexivity|]). destruct Hc. }
  unfold blanks in H. split; [|split; [|split]].
  - intros c Hc Hin. rewrite Forall_forall in H. destruct (G _ (H _ Hin)). congruence.
  - destruct H as [|c s Hc _]; [reflexivity|]. apply (G _ Hc).
  - eapply Forall_impl; [|exact H]. intros c Hc. apply (G _ Hc).
  - apply forallb_forall. rewrite Forall_forall in H. intros c Hc. apply (G _ (H _ Hc)).
Qed.

Theorem outcome_read : forall l o, @outcome S l o -> gate_call S l = o.
Proof.
  intros l o H. destruct H as [l ws p q Hl Ht Hp Hq|l ws q Hl Ht Hq|l ws q Hl Ht Hq|l ws a b p Hl Ht Ha Hb Hp|a n b m c k s1 s2 s3 Ha Hb Hc H1 H2 H3|l U].
  - unfold gate_call. rewrite (tokens_fields Ht). cbv zeta beta. rewrite (x_increment_read Ht Hp). rewrite (operand_read1 Hq).
    replace (starts (lit "X") l || starts (lit "RX") l && finishes (lit "180") l)%bool with true; [reflexivity|].
    symmetry. destruct Hl as [Hl|[Hl He]].
    + apply starts_app in Hl. unfold lit. rewrite Hl. reflexivity.
    + apply starts_app in Hl. apply ends_finishes in He. unfold lit. rewrite Hl, He. apply orb_true_r.
  - unfold gate_call. rewrite (tokens_fields Ht). cbv zeta beta. rewrite (operand_read1 Hq). destruct Hl as [t ->]. reflexivity.
  - unfold gate_call. rewrite (tokens_fields Ht). cbv zeta beta. rewrite (operand_read1 Hq). destruct Hl as [t ->]. reflexivity.
  - unfold gate_call. rewrite (tokens_fields Ht). cbv zeta beta. rewrite (operand_read1 Ha), (operand_read2 Hb), (cx_increment_read Hp).
    destruct Hl as [[t ->]|[t ->]]; reflexivity.
  - unfold gate_call. destruct (numeral_facts Ha) as [Na [Da Va]], (numeral_facts Hb) as [Nb [Db Vb]], (numeral_facts Hc) as [Nc [Dc Vc]].
    destruct (separator_facts H1) as [_ [_ S1]], (separator_facts H2) as [_ [_ S2]]. destruct (blanks_facts H3) as [_ [S3 [N3 _]]].
    set (g := list_ascii_of_string "Toffoli x" ++ _).
    assert (E : re_findall (RPlus is_digit) g = [a; b; c]).
    { unfold g. rewrite find_digits_pass by (repeat constructor). rewrite find_digits_hit by (auto; apply sep_stops; exact H1).
      rewrite find_digits_pass by exact S1. rewrite find_digits_pass by (repeat constructor).
      rewrite find_digits_hit by (auto; apply sep_stops; exact H2).
      rewrite find_digits_pass by exact S2. rewrite find_digits_pass by (repeat constructor).
      rewrite find_digits_hit by auto. rewrite <- (app_nil_r s3), find_digits_pass by exact N3. reflexivity. }
    rewrite E. cbn [map]. rewrite Va, Vb, Vc. reflexivity.
  - apply line_read. constructor. exact U.
Qed.

Theorem outcome_total : forall l, ~ begins (T "Toffoli") l -> exists o, @outcome S l o.
Proof.
  intros l N. destruct (tokens_total l) as [ws Ht].
  destruct (starts (T "X") l || (starts (T "RX") l && finishes (T "180") l)) eqn:E1.
  - destruct (x_increment_total Ht) as [p Hp], (operand_total ws 1) as [q Hq]. eexists. eapply oc_x; [|exact Ht | exact Hp | exact Hq].
    apply orb_true_iff in E1 as [E|E]; [left; apply starts_app; exact E|]. apply andb_true_iff in E as [E E']. right.
    split; [apply starts_app; exact E | apply finishes_ends; exact E'].
  - destruct (starts (T "H") l) eqn:E2; [apply starts_app in E2; destruct (operand_total ws 1) as [q Hq]; eexists; eapply oc_h; eauto|].
    destruct (starts (T "Z") l) eqn:E3; [apply starts_app in E3; destruct (operand_total ws 1) as [q Hq]; eexists; eapply oc_z; eauto|].
    destruct (starts (T "CX") l || starts (T "CNOT") l) eqn:E4.
    + destruct (operand_total ws 1) as [a Ha], (operand_total ws 2) as [b Hb], (cx_increment_total ws) as [p Hp].
      eexists. eapply oc_cx; [|exact Ht | exact Ha | exact Hb | exact Hp].
      apply orb_true_iff in E4 as [E|E]; [left | right]; apply starts_app; exact E.
    + exists (Ok None). apply oc_unknown. apply orb_false_iff in E1 as [E1 E1'], E4 as [E4 E4'].
      assert (G : forall w, starts (T w) l = false -> ~ begins (T w) l) by (intros w H B; apply starts_app in B; congruence).
      split.
      * intros w Hw. repeat (destruct Hw as [<-|Hw]; [first [apply G; assumption | exact N]|]). destruct Hw.
      * intros [B1 B2]. apply starts_app in B1. apply ends_finishes in B2. unfold lit in E1'. rewrite B1, B2 in E1'. discriminate E1'.
Qed.

(** ** The registers whose dimension is raised *)
Notation mid := (re_sub re_toffoli (fun g => nth 0 g [])).

Lemma toffoli_matches : forall a b c s1 s2 t, a <> [] -> b <> [] -> c <> [] -> digits a -> digits b -> digits c -> separator s1 -> separator s2 ->
  stops is_digit t ->
  re_here re_toffoli (T "Toffoli x" ++ a ++ s1 ++ T "x" ++ b ++ s2 ++ T "x" ++ c ++ t)
  = Some ([b], T "Toffoli x" ++ a ++ s1 ++ T "x" ++ b ++ s2 ++ T "x" ++ c, t).
Proof.
  intros a b c s1 s2 t Na Nb Nc Da Db Dc H1 H2 St. destruct (separator_facts H1) as [N1 [P1 _]], (separator_facts H2) as [N2 [P2 _]].
  unfold re_toffoli. rewrite here_word.
  rewrite (@here_seq (RPlus is_digit) _ (a ++ s1 ++ T "x" ++ b ++ s2 ++ T "x" ++ c ++ t) [] a (s1 ++ T "x" ++ b ++ s2 ++ T "x" ++ c ++ t) [b] (s1 ++ T "x" ++ b ++ s2 ++ T "x" ++ c) t).
  - reflexivity.
  - apply here_plus; [exact Na | exact Da | apply sep_stops; exact H1].
  - apply (@here_seq _ _ _ [] s1 (T "x" ++ b ++ s2 ++ T "x" ++ c ++ t) [b] (T "x" ++ b ++ s2 ++ T "x" ++ c) t).
    + apply here_plus; [exact N1 | exact P1 | reflexivity].
    + apply (@here_seq _ _ _ [] (T "x") (b ++ s2 ++ T "x" ++ c ++ t) [b] (b ++ s2 ++ T "x" ++ c) t); [reflexivity|].
      apply (@here_seq _ _ _ [b] b (s2 ++ T "x" ++ c ++ t) [] (s2 ++ T "x" ++ c) t).
      * rewrite here_group. rewrite here_plus by (auto; apply sep_stops; exact H2). reflexivity.
      * apply (@here_seq _ _ _ [] s2 (T "x" ++ c ++ t) [] (T "x" ++ c) t); [apply here_plus; [exact N2 | exact P2 | reflexivity]|].
        apply (@here_seq _ _ _ [] (T "x") (c ++ t) [] c t); [reflexivity|]. apply here_plus; assumption.
Qed.

Lemma mid_pass : forall s t, ~ In "T"%char s -> mid (s ++ t) = s ++ mid t.
Proof.
  intros s t H; induction s as [|c s IH]; [reflexivity|]. cbn [app]. rewrite sub_miss.
  - rewrite IH; [reflexivity|]. intro X. apply H. right. exact X.
  - unfold re_toffoli. apply here_word_none. change (lit "Toffoli x") with ("T"%char :: T "offoli x"). apply starts_first. intros E. apply H. left. symmetry. exact E.
Qed.

Lemma numeral_pads : forall s n b, numeral s n -> blanks b -> py_int (s ++ b) = Ok (Z.of_nat n).
Proof.
  intros s n b Hs Hb. destruct (numeral_facts Hs) as [N [D V]]. destruct s as [|c s]; [congruence|].
  inversion D as [|? ? Hc D']; subst. unfold py_int. cbn [app skip_blank]. destruct (digit_not_space _ Hc) as [_ ->].
  destruct (@digit_not c "-" Hc eq_refl) as [-> _]. destruct (@digit_not c "+" Hc eq_refl) as [-> _].
  rewrite <- V. unfold digits_value. clear V N Hs D' Hc. cut (forall acc ok, ok = true \/ c :: s <> [] -> int_body ok acc ((c :: s) ++ b) = Ok (fold_left (fun a c => (10 * a + digit_value c)%Z) (c :: s) acc)).
  { intro G. apply G. right. discriminate. }
  induction D as [|x s' Hx D IH]; intros acc ok Hok.
  - destruct Hok as [->|Hok]; [|congruence]. cbn [app fold_left]. destruct b as [|y b]; [reflexivity|]. destruct (blanks_facts Hb) as [_ [S3 [_ B]]]. cbn [int_body].
    cbn in S3. rewrite S3. replace (Ascii.eqb y "_") with false; [cbn [andb]; rewrite B; reflexivity|].
    symmetry. apply Ascii.eqb_neq. intros ->. cbn in B. discriminate B.
  - cbn [app int_body fold_left]. rewrite Hx. apply IH. left. reflexivity.
Qed.

(** A Toffoli line of two controls, and the number its middle register leaves. *)
Lemma outcome_toffoli : forall l o, @outcome S l o ->
  (starts (T "Toffoli") l = false /\ forall r, existsb (raises r) (wanted [o]) = false) \/
  (starts (T "Toffoli") l = true /\ exists s m b, numeral s m /\ blanks b /\ mid l = s ++ b /\ forall r, existsb (raises r) (wanted [o]) = (Z.of_nat m =? Z.of_nat r)%Z).
Proof.
  intros l o H. destruct H as [l ws p q Hl Ht Hp Hq|l ws q Hl Ht Hq|l ws q Hl Ht Hq|l ws a b p Hl Ht Ha Hb Hp|a n b m c k s1 s2 s3 Ha Hb Hc H1 H2 H3|l U].
  - left. split; [destruct Hl as [[t ->]|[[t ->] _]]; reflexivity|]. intro r. destruct p as [p|e], q as [q|e']; reflexivity.
  - left. split; [destruct Hl as [t ->]; reflexivity|]. intro r. destruct q; reflexivity.
  - left. split; [destruct Hl as [t ->]; reflexivity|]. intro r. destruct q; reflexivity.
  - left. split; [destruct Hl as [[t ->]|[t ->]]; reflexivity|]. intro r. destruct a, b, p; reflexivity.
  - right. split; [reflexivity|]. destruct (numeral_facts Ha) as [Na [Da _]], (numeral_facts Hb) as [Nb [Db _]], (numeral_facts Hc) as [Nc [Dc _]].
    destruct (blanks_facts H3) as [P3 [S3 _]]. exists b, m, s3. split; [exact Hb|]. split; [exact H3|]. split.
    + etransitivity; [exact (@sub_hit _ (fun g => nth 0 g []) _ _ _ _ (@toffoli_matches _ _ _ _ _ _ Na Nb Nc Da Db Dc H1 H2 S3))|]. cbn [nth]. f_equal.
      rewrite <- (app_nil_r s3) at 1. rewrite mid_pass by (apply P3; reflexivity). apply app_nil_r.
    + intro r. cbn [wanted made map concat app existsb raises]. apply orb_false_r.
  - left. split; [apply starts_no, U; simpl; auto 10 | reflexivity].
Qed.

Lemma wanted_cons : forall o (os : list (res (option (call S)))), wanted (o :: os) = wanted [o] ++ wanted os.
Proof. intros o os. unfold wanted, made. cbn [map concat]. rewrite app_nil_r. reflexivity. Qed.

Definition padded (s : text) (m : nat) : Prop := exists d b, numeral d m /\ blanks b /\ s = d ++ b.

Lemma outcome_toffolis : forall (ls : list text) os, Forall2 (@outcome S) ls os -> exists ss ms, Forall2 padded ss ms /\
  map mid (filter (starts (T "Toffoli")) ls) = ss /\ forall r, existsb (raises r) (wanted os) = existsb (fun m => Z.of_nat m =? Z.of_nat r)%Z ms.
Proof.
  intros ls os H. induction H as [|l o ls os Hl H IH]; [exists [], []; repeat split; constructor|].
  destruct IH as [ss [ms [F [E X]]]]. cbn [filter]. destruct (outcome_toffoli Hl) as [[N Y]|[N [s [m [b [Hs [Hb [Em Y]]]]]]]]; rewrite N.
  - exists ss, ms. split; [exact F|]. split; [exact E|]. intro r. rewrite wanted_cons, existsb_app, Y, X. reflexivity.
  - exists ((s ++ b) :: ss), (m :: ms). split; [constructor; [exists s, b; auto | exact F]|]. split; [cbn [map]; rewrite Em, E; reflexivity|].
    intro r. rewrite wanted_cons, existsb_app, Y, X. reflexivity.
Qed.

Lemma mapM_padded : forall ss ms, Forall2 padded ss ms -> mapM py_int ss = Ok (map Z.of_nat ms).
Proof.
  intros ss ms H; induction H as [|s m ss ms [d [b [Hd [Hb ->]]]] H IH]; [reflexivity|]. cbn [mapM map]. rewrite (numeral_pads Hd Hb), IH. reflexivity.
Qed.

Lemma raise_outcomes : forall (ls : list text) os dims, Forall2 (@outcome S) ls os ->
  raise_dims ls (map Z.of_nat dims) = Ok (map Z.of_nat (raised dims (wanted os))).
Proof.
  intros ls os dims H. destruct (outcome_toffolis H) as [ss [ms [F [E X]]]]. unfold raise_dims, raised.
  destruct (filter (starts (lit "Toffoli")) ls) as [|l found].
  - cbn in E; subst ss. inversion F; subst. f_equal. f_equal. rewrite <- (map_id dims) at 1.
    assert (G : forall k, map (fun x => x) dims = map (fun '(r, d) => if existsb (raises r) (wanted os) then d + 1 else d) (combine (seq k (length dims)) dims)).
    { induction dims as [|d dims IH]; intro k; [reflexivity|]. cbn [map length seq combine]. rewrite X. cbn [existsb]. f_equal. apply IH. }
    apply G.
  - rewrite sub_join by reflexivity. rewrite E. destruct ss as [|s ss]; [discriminate E|].
    rewrite split_join.
    + pose proof (mapM_padded F) as M. unfold text in *. rewrite M. cbn [bind]. f_equal. rewrite map_length.
      assert (G : forall k, map (fun '(i, d) => if zmem (Z.of_nat i) (map Z.of_nat ms) then (d + 1)%Z else d) (combine (seq k (length dims)) (map Z.of_nat dims))
        = map Z.of_nat (map (fun '(r, d) => if existsb (raises r) (wanted os) then d + 1 else d) (combine (seq k (length dims)) dims))); [|apply G].
      induction dims as [|d dims IH]; intro k; [reflexivity|]. cbn [map length seq combine]. rewrite X, IH. f_equal.
      replace (zmem (Z.of_nat k) (map Z.of_nat ms)) with (existsb (fun m => Z.of_nat m =? Z.of_nat k)%Z ms); [destruct (existsb _ ms); lia|].
      clear. unfold zmem. induction ms as [|m ms IH]; [reflexivity|]. cbn [map existsb]. rewrite IH, Z.eqb_sym. reflexivity.
    + assert (G : forall l ks, Forall2 padded l ks -> Forall (fun y => ~ In ";"%char y) l).
      { clear. intros l ks H; induction H as [|x k l ks [d [b [Hd [Hb ->]]]] H IH]; constructor; [|exact IH]. destruct (numeral_facts Hd) as [_ [D _]].
        intro X. apply in_app_iff in X as [X|X]; [exact (@digits_no _ ";" D eq_refl X)|].
        destruct (blanks_facts Hb) as [P _]. eapply P; [|exact X]. reflexivity. }
      eapply G, F.
Qed.

Notation circuit := (circuit S).

Lemma read_perform : forall ls os, Forall2 (@outcome S) ls os -> forall c : circuit,
  (c <- read_lines c ls ;; '(c, _) <- api c CMeasureAll ;; Ok c) = perform c os.
Proof.
  intros ls os H; induction H as [|l o ls os Hl H IH]; intro c; [reflexivity|].
  rewrite read_lines_cons. unfold read_line. rewrite (outcome_read Hl). destruct o as [[k|]|e]; cbn [bind perform]; [|apply IH | reflexivity].
  destruct (api c k) as [[c' b]|e]; cbn [bind]; [apply IH | reflexivity].
Qed.

Theorem read_outcomes : forall d dss os, well_formed d -> Forall2 declares (d_decls d) dss -> Forall2 (@outcome S) (d_gates d) os ->
  circuit_from_qasm S (text_of d) = performed (raised (concat dss) (wanted os)) os.
Proof.
  intros d dss os W Hd Hg. rewrite read_doc by exact W. rewrite (declared_lines (wf_blank W) Hd). cbn [bind]. unfold reader.
  rewrite (raise_outcomes _ Hg). cbn [bind]. unfold performed. apply bind_same; intro c. apply read_perform. exact Hg.
Qed.

Theorem same_dimensions : forall d d' dss dss', well_formed d -> well_formed d' -> Forall2 declares (d_decls d) dss -> Forall2 declares (d_decls d') dss' ->
  concat dss = concat dss' -> d_gates d = d_gates d' -> circuit_from_qasm S (text_of d) = circuit_from_qasm S (text_of d').
Proof.
  intros d d' dss dss' W W' D D' E G. rewrite !read_doc by assumption.
  rewrite (declared_lines (wf_blank W) D), (declared_lines (wf_blank W') D'), E, G. reflexivity.
Qed.

Lemma perform_error : forall os1 os2 e (c c' : circuit), Forall (fun o => exists k, o = Ok k) os1 -> call_all c (wanted os1) = Ok c' ->
  perform c (os1 ++ Err e :: os2) = Err e.
Proof.
  intros os1 os2 e c c' H; revert c; induction H as [|o os1 [k ->] H IH]; intros c E; [reflexivity|]. cbn [app perform]. destruct k as [k|]; [|apply IH; exact E].
  unfold call_all in E. cbn [wanted made map concat app fold_left bind] in E. destruct (api c k) as [[c1 b]|e1]; cbn [bind] in *; [apply IH; exact E|].
  exfalso. change (concat _) with (wanted os1) in E. revert E. clear. induction (wanted os1) as [|x l IH]; [discriminate | exact IH].
Qed.

(** ** Toffoli lines that are not accepted *)
Lemma declared_ok : forall s, exists q, declared s = Ok q.
Proof.
  intro s. unfold declared. set (t := re_sub _ _ _). clearbody t. clear s.
  assert (G : forall l, Forall (fun u => exists v, u = v ++ T ")" /\ digits v /\ v <> []) l -> exists q, mapM first_int l = Ok q).
  { intros l H; induction H as [|u l [v [-> [D N]]] H [q IH]]; [exists []; reflexivity|]. cbn [mapM]. unfold first_int at 1.
    rewrite find_digits_hit by (auto; reflexivity). cbn [py_get]. change (py_get (v :: ?x) 0) with (Ok (A := text) v). cbn [bind]. rewrite IH. cbn [bind]. eauto. }
  apply G. unfold re_findall. generalize 0 at 1. induction t as [|c t IH]; intro k; [constructor|]. cbn [find_from].
  destruct k as [|k]; [|apply IH]. destruct (re_here re_dim (c :: t)) as [[[g u] r]|] eqn:E; [|apply IH]. constructor; [|apply IH].
  unfold re_here in E. destruct (@dim_ways (c :: t) g u r) as [v [_ [E2 [D N]]]]; [destruct (ways re_dim (c :: t)); [discriminate E|]; cbn in E; injection E as ->; left; reflexivity|].
  exists v. auto.
Qed.

(** The pieces between semicolons. *)
Lemma split_first : forall s, exists a l, str_split ";" s = a :: l /\ (s = a \/ exists t, s = a ++ ";"%char :: t).
Proof.
  intro s. unfold str_split. assert (G : forall cur, exists a l, split_on ";" cur s = (rev cur ++ a) :: l /\ (s = a \/ exists t, s = a ++ ";"%char :: t)); [|apply (G [])].
  induction s as [|c s IH]; intro cur; cbn [split_on].
  - exists [], []. rewrite app_nil_r. auto.
  - destruct (Ascii.eqb_spec c ";") as [->|N].
    + exists [], (split_on ";" [] s). rewrite app_nil_r. split; [reflexivity|]. right. exists s. reflexivity.
    + destruct (IH (c :: cur)) as [a [l [E H]]]. exists (c :: a), l. rewrite E. cbn [rev]. rewrite <- app_assoc. split; [reflexivity|].
      destruct H as [-> | [t ->]]; [left; reflexivity | right; exists t; reflexivity].
Qed.

Lemma split_on_at : forall a b, str_split ";" (a ++ ";"%char :: b) = str_split ";" a ++ str_split ";" b.
Proof.
  intros a b. unfold str_split. assert (G : forall cur, split_on ";" cur (a ++ ";"%char :: b) = split_on ";" cur a ++ split_on ";" [] b); [|apply G].
  induction a as [|c a IH]; intro cur; cbn [app split_on].
  - rewrite Ascii.eqb_refl. reflexivity.
  - destruct (Ascii.eqb c ";"); [|apply IH]. cbn [app]. f_equal. apply IH.
Qed.

Lemma split_joined : forall l ls, str_split ";" (str_join (T ";") (l :: ls)) = concat (map (str_split ";") (l :: ls)).
Proof.
  intros l ls; revert l; induction ls as [|x ls IH]; intro l.
  - cbn [str_join map concat]. symmetry. apply app_nil_r.
  - change (str_join (T ";") (l :: x :: ls)) with (l ++ ";"%char :: str_join (T ";") (x :: ls)). rewrite split_on_at, IH. reflexivity.
Qed.

Lemma mapM_bad : forall l w, In w l -> py_int w = Err ValueError -> mapM py_int l = Err ValueError.
Proof.
  intros l w; induction l as [|x l IH]; intros H E; [destruct H|]. cbn [mapM]. destruct (py_int x) as [v|e] eqn:Ex.
  - cbn [bind]. destruct H as [->|H]; [congruence|]. rewrite (IH H E). reflexivity.
  - cbn [bind]. f_equal. eapply py_int_err; eauto.
Qed.

(** The text before the first semicolon is not a number. *)
Definition no_number (s : text) : Prop := forall a l, str_split ";" s = a :: l -> py_int a = Err ValueError.

Lemma bad_toffoli : forall (ls : list text) l q, In l ls -> starts (T "Toffoli") l = true -> no_number (mid l) -> raise_dims ls q = Err ValueError.
Proof.
  intros ls l q Hl Hs Hn. unfold raise_dims. assert (I : In l (filter (starts (lit "Toffoli")) ls)) by (apply filter_In; split; assumption).
  destruct (filter (starts (lit "Toffoli")) ls) as [|x found]; [destruct I|].
  rewrite sub_join by reflexivity. cbn [map]. rewrite split_joined. destruct (split_first (mid l)) as [a [r [E _]]].
  rewrite (@mapM_bad _ a); [reflexivity | | exact (Hn _ _ E)]. apply in_concat. exists (str_split ";" (mid l)).
  split; [apply (in_map (str_split ";")); apply (in_map mid _ _ I)|].
  rewrite E. left. reflexivity.
Qed.

Lemma bad_doc : forall d l, well_formed d -> In l (d_gates d) -> begins (T "Toffoli") l -> no_number (mid l) ->
  circuit_from_qasm S (text_of d) = Err ValueError.
Proof.
  intros d l W Hl Hb Hn. rewrite read_doc by exact W. destruct (declared_ok (d_blank d ++ U (d_decls d))) as [q ->]. cbn [bind]. unfold reader.
  apply starts_app in Hb. rewrite (bad_toffoli _ _ q Hl Hb Hn). reflexivity.
Qed.

Lemma py_int_T : forall s, py_int ("T"%char :: s) = Err ValueError.
Proof. reflexivity. Qed.

(** What a match needs. *)
Lemma ways_plus_all : forall p s g u t, In (g, u, t) (ways_plus p s) -> g = [] /\ s = u ++ t /\ u <> [] /\ Forall (fun c => p c = true) u.
Proof.
  intros p s; induction s as [|c s IH]; intros g u t H; [destruct H|]. cbn [ways_plus] in H. destruct (p c) eqn:E; [|destruct H].
  apply in_app_iff in H as [H|[H|[]]].
  - apply in_map_iff in H as [[[g' u'] t'] [X H]]. injection X as <- <- <-. destruct (IH _ _ _ H) as [-> [-> [_ F]]].
    repeat split; [discriminate | constructor; assumption].
  - injection H as <- <- <-. repeat split; [discriminate | repeat constructor; exact E].
Qed.

Lemma ways_char_seq : forall p r s g u t, In (g, u, t) (ways (RSeq (RChar p) r) s) -> exists c s' u', s = c :: s' /\ p c = true /\ u = c :: u' /\ In (g, u', t) (ways r s').
Proof.
  intros p r s g u t H. cbn [ways] in H. destruct s as [|c s]; [destruct H|]. destruct (p c) eqn:E; [|destruct H].
  cbn [flat_map] in H. rewrite app_nil_r in H. apply in_map_iff in H as [[[g2 u2] t2] [X H]]. injection X as <- <- <-.
  exists c, s, u2. auto.
Qed.

Lemma ways_plus_seq : forall p r s g u t, In (g, u, t) (ways (RSeq (RPlus p) r) s) ->
  exists v s' u', s = v ++ s' /\ v <> [] /\ Forall (fun c => p c = true) v /\ u = v ++ u' /\ In (g, u', t) (ways r s').
Proof.
  intros p r s g u t H. cbn [ways] in H. apply in_flat_map in H as [[[g1 u1] t1] [H1 H2]]. apply in_map_iff in H2 as [[[g2 u2] t2] [X H2]].
  injection X as <- <- <-. destruct (ways_plus_all _ _ _ _ _ H1) as [-> [-> [N F]]]. exists u1, t1, u2. auto.
Qed.

Lemma ways_group_seq : forall p r s g u t, In (g, u, t) (ways (RSeq (RGroup (RPlus p)) r) s) ->
  exists v s' g' u', s = v ++ s' /\ v <> [] /\ Forall (fun c => p c = true) v /\ u = v ++ u' /\ g = v :: g' /\ In (g', u', t) (ways r s').
Proof.
  intros p r s g u t H. cbn [ways] in H. apply in_flat_map in H as [[[g1 u1] t1] [H1 H2]]. apply in_map_iff in H2 as [[[g2 u2] t2] [X H2]].
  injection X as <- <- <-. apply in_map_iff in H1 as [[[g3 u3] t3] [Y H1]]. injection Y as <- <- <-.
  destruct (ways_plus_all _ _ _ _ _ H1) as [-> [-> [N F]]]. exists u3, t3, g2, u2. auto 10.
Qed.

Lemma ways_word : forall w r s g u t, In (g, u, t) (ways (word w r) s) -> exists s' u', s = w ++ s' /\ u = w ++ u' /\ In (g, u', t) (ways r s').
Proof.
  induction w as [|a w IH]; intros r s g u t H; [exists s, u; auto|]. cbn [word] in H. apply ways_char_seq in H as [c [s' [u' [-> [Hc [-> H]]]]]].
  apply Ascii.eqb_eq in Hc. subst c. destruct (IH _ _ _ _ _ H) as [s2 [u2 [-> [-> H2]]]]. exists s2, u2. auto.
Qed.

Lemma digits_numeral : forall u, u <> [] -> digits u -> exists n, numeral u n.
Proof.
  intro u. induction u as [|x u IH] using rev_ind; [congruence|]. intros _ Fu. apply Forall_app in Fu as [Fu Fx]. inversion Fx as [|? ? Hx _]; subst.
  destruct (digit_cases _ Hx) as [k [Hk ->]]. destruct u as [|y u]; [exists k; constructor; exact Hk|].
  destruct IH as [n Hn]; [discriminate | exact Fu|]. exists (10 * n + k). apply num_more; assumption.
Qed.

Lemma sep_separator : forall s, s <> [] -> Forall (fun c => is_sep c = true) s -> separator s.
Proof.
  intros s N F. split; [exact N|]. eapply Forall_impl; [|exact F]. intros c H. unfold is_sep in H. apply orb_true_iff in H as [H|H]; apply Ascii.eqb_eq in H; auto.
Qed.

Lemma toffoli_needs : forall s w, re_here re_toffoli s = Some w -> two_controls s.
Proof.
  intros s [[g u] t] H. unfold re_here in H. assert (I : In (g, u, t) (ways re_toffoli s)) by (destruct (ways re_toffoli s); [discriminate H|]; cbn in H; injection H as ->; left; reflexivity).
  clear H. unfold re_toffoli in I. apply ways_word in I as [x1 [u1 [-> [_ I]]]].
  apply ways_plus_seq in I as [a [x2 [u2 [-> [Na [Fa [_ I]]]]]]]. apply ways_plus_seq in I as [s1 [x3 [u3 [-> [N1 [F1 [_ I]]]]]]].
  apply ways_char_seq in I as [c [x4 [u4 [-> [Hc [_ I]]]]]]. apply Ascii.eqb_eq in Hc. subst c.
  apply ways_group_seq in I as [b [x5 [g5 [u5 [-> [Nb [Fb [_ [_ I]]]]]]]]]. apply ways_plus_seq in I as [s2 [x6 [u6 [-> [N2 [F2 [_ I]]]]]]].
  apply ways_char_seq in I as [c [x7 [u7 [-> [Hc [_ I]]]]]]. apply Ascii.eqb_eq in Hc. subst c.
  cbn [ways] in I. destruct (ways_plus_all _ _ _ _ _ I) as [_ [-> [Nc Fc]]].
  destruct (digits_numeral Na Fa) as [n Hn], (digits_numeral Nb Fb) as [m Hm], (digits_numeral Nc Fc) as [k Hk].
  exists a, n, b, m, u7, k, s1, s2, t. repeat (split; [first [assumption | apply sep_separator; assumption]|]). reflexivity.
Qed.

Lemma not_two_controls : forall l, begins (T "Toffoli") l -> ~ two_controls l -> no_number (mid l).
Proof.
  intros l [b ->] N a r E. change (T "Toffoli" ++ b) with ("T"%char :: (T "offoli" ++ b)) in *. rewrite sub_miss in E.
  - unfold str_split in E. cbn [split_on] in E. change (Ascii.eqb "T" ";") with false in E. cbn match in E.
    destruct (split_first (mid (T "offoli" ++ b))) as [a' [r' [E' _]]].
    assert (G : forall s cur, exists x, split_on ";" cur s = (rev cur ++ x) :: tl (split_on ";" cur s)).
    { clear. induction s as [|c s IH]; intro cur; cbn [split_on]; [exists []; rewrite app_nil_r; reflexivity|].
      destruct (Ascii.eqb c ";"); [exists []; rewrite app_nil_r; reflexivity|]. destruct (IH (c :: cur)) as [x Hx]. exists (c :: x).
      rewrite Hx at 1. cbn [rev tl]. rewrite <- app_assoc. reflexivity. }
    destruct (G (mid (T "offoli" ++ b)) ["T"%char]) as [x Hx]. rewrite Hx in E. injection E as <- _. reflexivity.
  - destruct (re_here re_toffoli _) as [w|] eqn:X; [|reflexivity]. exfalso. apply N. eapply toffoli_needs; eauto.
Qed.

(** A fourth operand. *)
Lemma int_then : forall s t, s <> [] -> digits s -> forall c, In c t -> is_blank c = false -> stops is_digit t -> ~ begins (T "_") t -> py_int (s ++ t) = Err ValueError.
Proof.
  intros s t N D c Hc Bc St Nu. destruct s as [|x s]; [congruence|]. inversion D as [|? ? Hx D']; subst.
  unfold py_int. cbn [app skip_blank]. destruct (digit_not_space _ Hx) as [_ ->].
  destruct (@digit_not x "-" Hx eq_refl) as [-> _]. destruct (@digit_not x "+" Hx eq_refl) as [-> _].
  change (x :: s ++ t) with ((x :: s) ++ t). assert (G : forall ok acc, ok = true \/ x :: s <> [] -> int_body ok acc ((x :: s) ++ t) = Err ValueError); [|apply G; right; discriminate].
  clear N D' Hx. induction D as [|y r Hy D IH]; intros ok acc Hok.
  - destruct Hok as [->|Hok]; [|congruence]. cbn [app]. destruct t as [|y t]; [destruct Hc|]. cbn [int_body]. cbn in St. rewrite St.
    destruct (Ascii.eqb_spec y "_") as [->|Ny]; [exfalso; apply Nu; exists t; reflexivity|]. cbn [andb].
    replace (forallb is_blank (y :: t)) with false; [reflexivity|]. symmetry. apply not_true_is_false. intro F. rewrite forallb_forall in F. rewrite (F _ Hc) in Bc. discriminate Bc.
  - cbn [app int_body]. rewrite Hy. apply IH. left. reflexivity.
Qed.

Lemma four_operands : forall a n b m c k s1 s2 s3 t, numeral a n -> numeral b m -> numeral c k -> separator s1 -> separator s2 -> separator s3 ->
  no_number (mid (T "Toffoli x" ++ a ++ s1 ++ T "x" ++ b ++ s2 ++ T "x" ++ c ++ s3 ++ T "x" ++ t)).
Proof.
  intros a n b m c k s1 s2 s3 t Ha Hb Hc H1 H2 H3. destruct (numeral_facts Ha) as [Na [Da _]], (numeral_facts Hb) as [Nb [Db _]], (numeral_facts Hc) as [Nc [Dc _]].
  rewrite (@sub_hit _ (fun g => nth 0 g []) _ _ _ _ (@toffoli_matches _ _ _ _ _ _ Na Nb Nc Da Db Dc H1 H2 (sep_stops (T "x" ++ t) H3))). cbn [nth].
  assert (X : forall c0, In c0 (s3 ++ T "x") -> c0 = ","%char \/ c0 = " "%char \/ c0 = "x"%char).
  { intros c0 I. apply in_app_iff in I as [I|[<-|[]]]; [|auto]. destruct H3 as [_ F]. rewrite Forall_forall in F. destruct (F _ I); auto. }
  rewrite app_assoc, mid_pass by (intro I; apply X in I as [I|[I|I]]; discriminate I). intros p r E.
  destruct (split_first (b ++ (s3 ++ T "x") ++ mid t)) as [p' [r' [E' F]]]. rewrite E' in E. injection E as -> ->.
  assert (G : exists z, p = b ++ (s3 ++ T "x") ++ z).
  { assert (Q : forall u v, ~ In ";"%char u -> (u ++ v = p \/ exists t0, u ++ v = p ++ ";"%char :: t0) -> exists z, p = u ++ z).
    { clear. intros u v; revert p; induction u as [|x u IH]; intros p N H; [exists p; reflexivity|]. destruct p as [|y p].
      - exfalso. destruct H as [H|[t0 H]]; [discriminate H|]. injection H as -> _. apply N. left. reflexivity.
      - destruct (IH p) as [z ->].
        + intro I. apply N. right. exact I.
        + destruct H as [H|[t0 H]]; injection H as _ H; [left; exact H | right; exists t0; exact H].
        + exists z. destruct H as [H|[t0 H]]; injection H as -> _; reflexivity. }
    destruct (Q (b ++ s3 ++ T "x") (mid t)) as [z ->].
    - intro I. apply in_app_iff in I as [I|I]; [eapply digits_no; [exact Db | | exact I]; reflexivity|]. apply X in I as [I|[I|I]]; discriminate I.
    - rewrite <- !app_assoc. rewrite <- !app_assoc in F. exact F.
    - exists z. rewrite <- !app_assoc. reflexivity. }
  destruct G as [z ->]. apply int_then with (c := "x"%char); [exact Nb | exact Db | | reflexivity | |].
  - rewrite !in_app_iff. left. right. left. reflexivity.
  - rewrite <- app_assoc. apply sep_stops. exact H3.
  - intros [y Y]. destruct s3 as [|x s3]; [destruct H3; congruence|]. injection Y as -> _. destruct (X "_"%char (or_introl eq_refl)) as [I|[I|I]]; discriminate I.
Qed.

Lemma operands_first : forall ns t, operands ns t -> exists r n, numeral r n /\ (ns = [n] /\ t = T "x" ++ r \/ exists s ns' t', separator s /\ ns = n :: ns' /\ operands ns' t' /\ t = T "x" ++ r ++ s ++ t').
Proof.
  intros ns t H. destruct H as [r n Hr|r n s ns t Hr Hs H]; exists r, n; (split; [exact Hr|]); [left; auto | right; exists s, ns, t; auto].
Qed.

(** Reading a number and what follows it is done in one way. *)
Lemma digits_cut : forall (p : ascii -> bool) a b s t, Forall (fun c => p c = true) a -> Forall (fun c => p c = true) b -> stops p s -> stops p t ->
  a ++ s = b ++ t -> a = b /\ s = t.
Proof.
  intros p a b s t Ha; revert b; induction Ha as [|x a Hx Ha IH]; intros b Hb Ss St E.
  - destruct b as [|y b]; [auto|]. cbn [app] in E. subst s. cbn in Ss. inversion Hb; congruence.
  - destruct b as [|y b].
    + cbn [app] in E. subst t. cbn in St. congruence.
    + injection E as -> E. inversion Hb; subst. destruct (IH b) as [-> ->]; auto.
Qed.

Lemma separator_x : forall s t, separator s -> stops is_sep (T "x" ++ t).
Proof. reflexivity. Qed.

Theorem other_operands : forall ns t, operands ns t -> length ns <> 3 -> no_number (mid (T "Toffoli " ++ t)).
Proof.
  intros ns t H N. destruct (operands_first H) as [r0 [n0 [H0 C0]]]. destruct (numeral_facts H0) as [N0 [D0 _]].
  assert (Two : forall r n s r', numeral r n -> separator s -> digits r' ->
    ~ two_controls (T "Toffoli x" ++ r ++ s ++ T "x" ++ r')).
  { clear. intros r n s r' Hr Hs D' [a [n' [b [m [c [k [s1 [s2 [t [Ha [Hb [Hc [H1 [H2 E]]]]]]]]]]]]]].
    destruct (numeral_facts Hr) as [_ [Dr _]], (numeral_facts Ha) as [_ [Da _]], (numeral_facts Hb) as [Nb [Db _]].
    apply app_inv_head in E. apply (@digits_cut is_digit) in E as [_ E]; [|exact Dr | exact Da | apply sep_stops; exact Hs | apply sep_stops; exact H1].
    destruct (separator_facts Hs) as [_ [F _]], (separator_facts H1) as [_ [F1 _]].
    apply (@digits_cut is_sep) in E as [_ E]; [|exact F | exact F1 | reflexivity | reflexivity].
    apply app_inv_head in E. assert (X : In (hd ","%char s2) r').
    { rewrite E. apply in_app_iff. right. apply in_app_iff. left. destruct H2 as [G _]. destruct s2; [congruence | left; reflexivity]. }
    destruct H2 as [G F2]. destruct s2 as [|x s2]; [congruence|]. inversion F2 as [|? ? Hx _]; subst. cbn [hd] in X.
    destruct Hx as [-> | ->]; (eapply digits_no; [exact D' | | exact X]; reflexivity). }
  destruct C0 as [[-> ->]|[s0 [ns1 [t1 [S0 [-> [O1 ->]]]]]]].
  - apply not_two_controls; [eexists; reflexivity|]. intros [a [n' [b [m [c [k [s1 [s2 [t [Ha [Hb [Hc [H1 [H2 E]]]]]]]]]]]]]].
    destruct (numeral_facts Ha) as [_ [Da _]]. change (T "Toffoli " ++ T "x" ++ r0) with (T "Toffoli x" ++ r0) in E. apply app_inv_head in E.
    rewrite <- (app_nil_r r0) in E. apply (@digits_cut is_digit) in E as [_ E]; [|exact D0 | exact Da | exact I | apply sep_stops; exact H1].
    destruct H1 as [G _]. destruct s1; [congruence | discriminate E].
  - destruct (operands_first O1) as [r1 [n1 [Hr1 C1]]]. destruct (numeral_facts Hr1) as [_ [D1 _]].
    destruct C1 as [[-> ->]|[s1 [ns2 [t2 [S1 [-> [O2 ->]]]]]]].
    + apply not_two_controls; [eexists; reflexivity|]. exact (Two _ _ _ _ H0 S0 D1).
    + destruct (operands_first O2) as [r2 [n2 [Hr2 C2]]]. destruct C2 as [[-> ->]|[s2 [ns3 [t3 [S2 [-> [O3 ->]]]]]]]; [exfalso; apply N; reflexivity|].
      destruct (operands_first O3) as [r3 [n3 [Hr3 C3]]].
      assert (X : exists z, t3 = T "x" ++ z).
      { destruct C3 as [[_ ->]|[s3 [ns4 [t4 [_ [_ [_ ->]]]]]]]; eexists; reflexivity. }
      destruct X as [z ->]. exact (four_operands z H0 Hr1 Hr2 S0 S1 S2).
Qed.
End Calls.
