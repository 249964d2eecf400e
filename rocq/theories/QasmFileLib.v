(** * QasmFileLib: proofs about files and line ends. *)
From Coq Require Import String Ascii.
From Verif Require Import Py Scalar Mat Utils Gates Circuit Spec Calls Lib Qasm QasmSpec QasmLib QasmMarks QasmRun QasmLineSpec QasmLines QasmFile QasmFileSpec.
Set Implicit Arguments.
Local Notation length := List.length.
Local Notation text := (list ascii).
Local Notation T s := (list_ascii_of_string s%string).
Local Notation CR := return_.

Lemma cr_not_nl : return_ <> newline. Proof. discriminate. Qed.

Lemma shows_universal : forall t s, shows t s -> universal s = t.
Proof.
  intros t s H. induction H as [|c t s N R H IH|t s H IH|t s H IH|t s B H IH]; [reflexivity| | | |].
  - simpl. destruct (Ascii.eqb_spec c crc) as [E|_]; [elim R; exact E | f_equal; exact IH].
  - change (newline :: universal s = newline :: t). f_equal. exact IH.
  - change (newline :: universal s = newline :: t). f_equal. exact IH.
  - destruct s as [|c s].
    + inversion H; subst. reflexivity.
    + simpl. destruct (Ascii.eqb_spec c nlc) as [E|E]; [elim B; exists s; rewrite E; reflexivity|].
      change (newline :: universal (c :: s) = newline :: t). f_equal. exact IH.
Qed.

Lemma shows_total : forall n s, length s <= n -> exists t, shows t s.
Proof.
  induction n as [|n IH]; intros s Hs.
  - destruct s; [exists []; constructor | simpl in Hs; lia].
  - destruct s as [|c s]; [exists []; constructor|]. simpl in Hs.
    destruct (Ascii.eqb_spec c CR) as [->|R].
    + destruct s as [|c s].
      * exists [newline]. apply sh_cr; [intros [b E]; discriminate | constructor].
      * destruct (Ascii.eqb_spec c newline) as [->|N].
        -- destruct (IH s) as [t Ht]; [simpl in Hs; lia|]. exists (newline :: t). apply sh_crlf. exact Ht.
        -- destruct (IH (c :: s)) as [t Ht]; [lia|]. exists (newline :: t). apply sh_cr; [|exact Ht]. intros [b E]. apply N. injection E as E _. exact E.
    + destruct (IH s) as [t Ht]; [lia|]. destruct (Ascii.eqb_spec c newline) as [->|N].
      * exists (newline :: t). apply sh_lf. exact Ht.
      * exists (c :: t). constructor; assumption.
Qed.

Lemma shows_clean : forall t s, shows t s -> ~ In CR t.
Proof. intros t s H. induction H; intros X; simpl in X; try destruct X as [X|X]; try congruence; try contradiction; discriminate X. Qed.

Lemma shows_end : forall e t, In e [[newline]; [CR; newline]; [CR]] -> ~ In CR t -> shows t (with_line_end e t).
Proof.
  intros e t He. induction t as [|c t IH]; intro H; [constructor|]. assert (Ht : shows t (with_line_end e t)) by (apply IH; intro X; apply H; right; exact X).
  unfold with_line_end in *. cbn [map concat]. destruct (Ascii.eqb_spec c newline) as [->|N].
  - destruct He as [<-|[<-|[<-|[]]]]; cbn [app]; [apply sh_lf; exact Ht | apply sh_crlf; exact Ht | apply sh_cr; [|exact Ht]].
    destruct t as [|x t]; [intros [b E]; discriminate|]. cbn [map concat]. destruct (Ascii.eqb_spec x newline); intros [b E]; cbn [app] in E; [discriminate|]. injection E as E _. congruence.
  - apply sh_char; [exact N | intro E; apply H; left; exact E | exact Ht].
Qed.

(** ** CR LF in a text that is not read from a file *)
Definition add_cr (l : text) : text := l ++ [CR].
Fixpoint cr_lines (ls : list text) : list text :=
  match ls with
  | [] => []
  | [x] => [x]
  | x :: r => add_cr x :: cr_lines r
  end.

Lemma crlf_app : forall a b, crlf (a ++ b) = crlf a ++ crlf b.
Proof. intros a b. unfold crlf, with_line_end. rewrite map_app, concat_app. reflexivity. Qed.

Lemma crlf_line : forall l, ~ In newline l -> crlf l = l.
Proof.
  induction l as [|c l IH]; intro H; [reflexivity|]. change (crlf (c :: l)) with ((if Ascii.eqb c newline then [CR; newline] else [c]) ++ crlf l).
  destruct (Ascii.eqb_spec c newline) as [E|_]; [elim H; left; exact E|]. cbn [app]. f_equal. apply IH. intro X. apply H. right. exact X.
Qed.

Lemma crlf_lines : forall ls, Forall (fun l => ~ In newline l) ls -> crlf (text_of_lines ls) = text_of_lines (cr_lines ls).
Proof.
  intros ls H. induction H as [|x ls Hx H IH]; [reflexivity|]. destruct ls as [|y r].
  - cbn [text_of_lines cr_lines map concat]. rewrite app_nil_r. apply crlf_line. exact Hx.
  - change (text_of_lines (x :: y :: r)) with (x ++ newline :: text_of_lines (y :: r)).
    change (cr_lines (x :: y :: r)) with (add_cr x :: cr_lines (y :: r)).
    assert (E : forall z l, l <> [] -> text_of_lines (z :: l) = z ++ newline :: text_of_lines l) by (intros z [|w l] N; [congruence | reflexivity]).
    rewrite (E (add_cr x)) by (destruct r; discriminate). rewrite <- IH.
    change (newline :: text_of_lines (y :: r)) with ([newline] ++ text_of_lines (y :: r)). rewrite !crlf_app, crlf_line by exact Hx.
    unfold add_cr. rewrite <- app_assoc. reflexivity.
Qed.

Lemma cr_lines_app : forall a b, b <> [] -> cr_lines (a ++ b) = map add_cr a ++ cr_lines b.
Proof.
  induction a as [|x a IH]; intros b Hb; [reflexivity|]. cbn [map app]. rewrite <- IH by exact Hb.
  destruct (a ++ b) as [|y r] eqn:E; [|reflexivity]. apply app_eq_nil in E as [_ E]. congruence.
Qed.

(** The text with CR LF as a document. *)
Definition cr_doc (d : doc) : doc :=
  {| d_head := map add_cr (d_head d); d_kind := d_kind d; d_count := d_count d; d_blank := add_cr (d_blank d);
     d_decls := map add_cr (d_decls d); d_blank2 := add_cr (d_blank2 d); d_gates := map add_cr (d_gates d);
     d_blank3 := match d_foot d with [] => d_blank3 d | _ => add_cr (d_blank3 d) end; d_foot := cr_lines (d_foot d) |}.

Lemma spaces_line : forall b, spaces b -> ~ In newline b.
Proof. intros b H X. unfold spaces in H. rewrite Forall_forall in H. specialize (H _ X). vm_compute in H. repeat (destruct H as [H|H]; [discriminate H|]). exact H. Qed.

Lemma app_no : forall (c : ascii) a b, ~ In c a -> ~ In c b -> ~ In c (a ++ b).
Proof. intros c a b A B X. apply in_app_iff in X. tauto. Qed.

Lemma crlf_doc : forall d, well_formed d -> crlf (text_of d) = text_of (cr_doc d).
Proof.
  intros d W. unfold text_of. rewrite crlf_lines.
  - f_equal. rewrite cr_lines_app by discriminate. cbn [cr_doc d_head d_kind d_count d_blank d_decls d_blank2 d_gates d_blank3 d_foot]. f_equal.
    set (rest := d_decls d ++ _ :: d_gates d ++ _ :: d_foot d).
    assert (C : forall x l, l <> [] -> cr_lines (x :: l) = add_cr x :: cr_lines l) by (intros x [|y l] N; [congruence | reflexivity]).
    rewrite C by (unfold rest; destruct (d_decls d); discriminate). f_equal; [unfold add_cr; rewrite <- !app_assoc; reflexivity|].
    unfold rest. rewrite cr_lines_app by discriminate. f_equal. rewrite C by (destruct (d_gates d); discriminate).
    f_equal.
    rewrite cr_lines_app by discriminate. f_equal. destruct (d_foot d) as [|x l]; [reflexivity|].
    rewrite C by discriminate. f_equal; reflexivity.
  - assert (Q : forall l, Forall quiet l -> Forall (fun x => ~ In newline x) l) by (intros l; apply Forall_impl; intros x X; apply X).
    assert (L : forall s : string, forallb (fun c => negb (Ascii.eqb c newline)) (T s) = true -> ~ In newline (T s)).
    { intros s E X. rewrite forallb_forall in E. specialize (E _ X). discriminate. }
    destruct (wf_count W) as [n Hn]. destruct (numeral_facts Hn) as [_ [Dn _]].
    apply Forall_app. split; [apply Q, W|]. apply Forall_cons.
    { apply app_no; [apply L; reflexivity|]. apply app_no.
      - destruct (wf_kind W) as [<-|[<-|[<-|[]]]]; apply L; reflexivity.
      - apply app_no; [apply L; reflexivity|]. apply app_no; [eapply digits_no; [exact Dn | reflexivity] | apply spaces_line, W]. }
    apply Forall_app. split; [apply Q, W|]. apply Forall_cons; [apply app_no; [apply L; reflexivity | apply spaces_line, W]|].
    apply Forall_app. split; [apply Q, W|]. apply Forall_cons; [apply app_no; [apply L; reflexivity | apply spaces_line, W] | apply W].
Qed.

Lemma begins_cr : forall w l, ~ In CR w -> begins w (add_cr l) -> begins w l.
Proof.
  intros w l N [b E]. unfold add_cr in E. destruct (@exists_last _ b) as [b' [x ->]].
  - intros ->. rewrite app_nil_r in E. apply N. rewrite <- E. apply in_app_iff. right. left. reflexivity.
  - rewrite app_assoc in E. apply app_inj_tail in E as [E _]. exists b'. exact E.
Qed.


Lemma contains_cr : forall w l, w <> [] -> ~ In CR w -> contains w (add_cr l) -> contains w l.
Proof.
  intros w l Nw N [a [b E]]. unfold add_cr in E. destruct b as [|y b0] eqn:Eb.
  - rewrite app_nil_r in E. destruct (@exists_last _ w Nw) as [w' [x ->]]. rewrite app_assoc in E. apply app_inj_tail in E as [_ E].
    elim N. apply in_app_iff. right. left. symmetry. exact E.
  - destruct (@exists_last _ (y :: b0)) as [b' [x Ex]]; [discriminate|]. rewrite Ex, !app_assoc in E. apply app_inj_tail in E as [E _].
    exists a, b'. rewrite E, <- app_assoc. reflexivity.
Qed.

Ltac no_cr := let X := fresh in intro X; vm_compute in X; repeat (destruct X as [X|X]; [discriminate X|]); exact X.

Lemma quiet_cr : forall l, quiet l -> quiet (add_cr l).
Proof.
  intros l [H1 [H2 H3]]. split; [|split].
  - apply app_no; [exact H1|]. intros [X|[]]. discriminate X.
  - intro X. apply H2. apply contains_cr; [discriminate | no_cr | exact X].
  - intro X. apply H3. apply begins_cr; [no_cr | exact X].
Qed.

Lemma spaces_cr : forall b, spaces b -> spaces (add_cr b).
Proof. intros b H. apply Forall_app. split; [exact H|]. constructor; [vm_compute; tauto | constructor]. Qed.

Lemma declares_cr : forall l ds, declares l ds -> declares (add_cr l) ds.
Proof.
  intros l ds H. destruct H as [r n b Hr B|r n b Hr B|r n s m b Hr Hs B|l H1 H2 H3]; unfold add_cr; rewrite <- ?app_assoc.
  - exact (dc_qubit Hr (spaces_cr B)).
  - exact (dc_qutrit Hr (spaces_cr B)).
  - exact (dc_qudit Hr Hs (spaces_cr B)).
  - apply dc_note.
    + apply app_no; [exact H1|]. intros [X|[]]. discriminate X.
    + intro X. apply H2. apply contains_cr; [discriminate | no_cr | exact X].
    + intro X. apply H3. apply contains_cr; [discriminate | no_cr | exact X].
Qed.

Lemma lines_cr : forall ls, Forall (fun l => ~ In newline l) ls -> Forall (fun l => ~ In newline l) (cr_lines ls).
Proof.
  intros ls H. induction H as [|x ls Hx H IH]; [constructor|]. destruct ls as [|y r]; [constructor; [exact Hx | constructor]|].
  change (cr_lines (x :: y :: r)) with (add_cr x :: cr_lines (y :: r)). constructor; [|exact IH]. apply app_no; [exact Hx|]. intros [X|[]]. discriminate X.
Qed.

Lemma doc_cr : forall d, well_formed d -> well_formed (cr_doc d).
Proof.
  intros d W. assert (Q : forall l, Forall quiet l -> Forall quiet (map add_cr l)).
  { intros l F. apply Forall_map. eapply Forall_impl; [|exact F]. intros x. apply quiet_cr. }
  constructor; cbn [cr_doc d_head d_kind d_count d_blank d_decls d_blank2 d_gates d_blank3 d_foot]; try (apply Q, W); try (apply spaces_cr, W); try apply W.
  - intro X. apply map_eq_nil in X. exact (wf_head W X).
  - destruct (d_foot d); [|apply spaces_cr]; apply W.
  - apply lines_cr, W.
Qed.

Lemma tokens_cr : forall l ws, tokens l ws -> tokens (add_cr l) ws.
Proof.
  intros l ws H. assert (W : white CR) by (vm_compute; tauto). induction H as [|c s ws Hc H IH|w s ws N F B H IH].
  - apply tk_white; [exact W | constructor].
  - apply tk_white; assumption.
  - unfold add_cr. rewrite <- app_assoc. apply tk_word; [exact N | exact F | | exact IH].
    right. destruct B as [->|[c [s' [-> Hc]]]]; eexists _, _; (split; [reflexivity|]); [exact W | exact Hc].
Qed.

Section Lines.
Variable S : scalar.

Lemma begins_app : forall w l m, begins w l -> begins w (l ++ m).
Proof. intros w l m [b ->]. exists (b ++ m). rewrite app_assoc. reflexivity. Qed.

Lemma no_180_cr : forall l, ~ ends (T "180") (add_cr l).
Proof.
  intros l [a E]. unfold add_cr in E. change (T "180") with (T "18" ++ ["0"%char]) in E. rewrite app_assoc in E. apply app_inj_tail in E as [_ E]. discriminate E.
Qed.

Lemma unknown_cr : forall l, (forall w, In w ["X"; "H"; "Z"; "CX"; "CNOT"; "Toffoli"]%string -> ~ begins (T w) l) -> unknown (add_cr l).
Proof.
  intros l H. split; [|intros [_ X]; exact (@no_180_cr l X)]. intros w Hw X. apply (H w Hw). apply begins_cr; [|exact X].
  repeat (destruct Hw as [<-|Hw]; [no_cr|]). destruct Hw.
Qed.

Lemma outcome_cr : forall l (o : res (option (call S))), outcome l o -> ~ (begins (T "RX") l /\ ends (T "180") l) -> outcome (add_cr l) o.
Proof.
  intros l o H N. destruct H as [l ws p q B Tk P Q|l ws q B Tk Q|l ws q B Tk Q|l ws a b p B Tk A Q P|a n b m c k s1 s2 s3 Ha Hb Hc H1 H2 H3|l U].
  - apply oc_x with (ws := ws); auto using tokens_cr. destruct B as [B|B]; [|contradiction]. left. apply begins_app. exact B.
  - apply oc_h with (ws := ws); auto using tokens_cr. apply begins_app. exact B.
  - apply oc_z with (ws := ws); auto using tokens_cr. apply begins_app. exact B.
  - apply oc_cx with (ws := ws); auto using tokens_cr. destruct B as [B|B]; [left | right]; apply begins_app; exact B.
  - unfold add_cr. rewrite <- !app_assoc. apply oc_toffoli; auto. apply Forall_app. split; [exact H3|]. constructor; [vm_compute; tauto | constructor].
  - apply oc_unknown. apply unknown_cr. apply U.
Qed.

Theorem crlf_text : forall d dss (os : list (res (option (call S)))), well_formed d -> Forall2 declares (d_decls d) dss -> Forall2 (@outcome S) (d_gates d) os ->
  Forall (fun l => ~ (begins (T "RX") l /\ ends (T "180") l)) (d_gates d) ->
  circuit_from_qasm S (crlf (text_of d)) = circuit_from_qasm S (text_of d).
Proof.
  intros d dss os W D G N. rewrite crlf_doc by exact W. rewrite (read_outcomes W D G).
  apply read_outcomes with (d := cr_doc d) (dss := dss) (os := os); [apply doc_cr; exact W | |]; cbn [cr_doc d_decls d_gates].
  - clear -D. induction D; cbn [map]; constructor; [apply declares_cr; assumption | assumption].
  - clear -G N. induction G as [|l o ls os H G IH]; cbn [map]; [constructor|]. inversion N; subst. constructor; [apply outcome_cr; assumption | apply IH; assumption].
Qed.

(** Without newlines there are no markers. *)
Lemma one_line : forall t, ~ In newline t -> circuit_from_qasm S t = Err IndexError.
Proof.
  intros t H. apply too_few_markers with (k := 0); [|lia]. induction t as [|c t IH]; [constructor|]. apply mk_skip; [|apply IH; intro X; apply H; right; exact X].
  intro M. assert (E : c = newline); [|apply H; left; exact E].
  destruct M as [[b E]|[[b E]|[[x [d [_ [_ [b E]]]]]|[[d [_ [b E]]]|[d [_ [b E]]]]]]]; injection E; auto.
Qed.

Lemma macos_one_line : forall t, ~ In newline (macos t).
Proof.
  induction t as [|c t IH]; [intros []|]. change (macos (c :: t)) with ((if Ascii.eqb c newline then [CR] else [c]) ++ macos t).
  apply app_no; [|exact IH]. destruct (Ascii.eqb_spec c newline) as [E|E]; intros [X|[]]; [discriminate X | congruence].
Qed.
End Lines.
