(** * Props_Readme: the examples of README.md (C76).  Statements only. *)
From Coq Require Import String Ascii.
From Verif Require Import Py Scalar Mat Utils Gates Circuit Spec Calls Lib Labels Qasm QasmSpec QasmMarks Props_Run Props_Qasm.
Local Notation length := List.length.
Local Notation text := (list ascii).
Local Notation T s := (list_ascii_of_string s%string).

(** ** cx *)

(** README.md:60-63 reads [cx([a, b], r)] as "control qudits a, b and target
    qudit r": [r] goes up by one if [a] and [b] are at their top levels. *)
Definition documented (dims s : config) (a b r : nat) : config :=
  if Nat.eqb (level s a + 1) (nth a dims 0) && Nat.eqb (level s b + 1) (nth b dims 0)
  then put s r ((level s r + 1) mod nth r dims 0) else s.

(** The code never changes [r]: it is the amount added to [b]. *)
Theorem C76_cx_never_changes_the_documented_target :
  forall S (L : scalar_laws S) (B : backend S) dims s a b r,
  supported B -> line dims s -> length s = length dims -> a < length dims -> b < length dims -> r < length dims -> r <> b ->
  exists s', valid dims s' /\ level s' r = level s r /\
  simulate B (QList (map Z.of_nat dims)) (Some (map Z.of_nat s)) None [CCX [Z.of_nat a; Z.of_nat b] (Z.of_nat r)] = Ok [(shown OutPrint s', s1)].
Proof.
  intros S L B dims s a b r HB HL Hs Ha Hb Hr Hrb. pose proof HL as [_ [H2 [_ Hv]]].
  assert (Es : start dims s = s) by (unfold start; rewrite Hs, Nat.sub_diag; apply app_nil_r). rewrite Es in Hv.
  rewrite (C03_cx_fires_at_top_level S L B dims s a b (Z.of_nat r) HB HL Hs Ha Hb).
  eexists. split; [|split; [|reflexivity]].
  - destruct (Nat.eq_dec _ _); [|exact Hv]. apply valid_put; [exact Hv|]. pose proof (H2 _ (nth_In dims 0 Hb)).
    pose proof (Z.mod_pos_bound (Z.of_nat (level s b) + Z.of_nat r) (Z.of_nat (nth b dims 0))). lia.
  - destruct (Nat.eq_dec _ _); [|reflexivity]. rewrite level_put by lia. destruct (Nat.eqb_spec r b); [contradiction | reflexivity].
Qed.

(** So it is wrong whenever the documented gate does anything. *)
Theorem C76_documented_cx_refuted :
  forall S (L : scalar_laws S) (B : backend S) dims s a b r,
  supported B -> line dims s -> length s = length dims -> a < length dims -> b < length dims -> r < length dims -> r <> b ->
  (forall d, In d dims -> d <= 10) -> documented dims s a b r <> s ->
  simulate B (QList (map Z.of_nat dims)) (Some (map Z.of_nat s)) None [CCX [Z.of_nat a; Z.of_nat b] (Z.of_nat r)]
  <> Ok [(shown OutPrint (documented dims s a b r), s1)].
Proof.
  intros S L B dims s a b r HB HL Hs Ha Hb Hr Hrb Hd Hx E. pose proof HL as [_ [H2 [_ Hv]]].
  assert (Es : start dims s = s) by (unfold start; rewrite Hs, Nat.sub_diag; apply app_nil_r). rewrite Es in Hv.
  destruct (C76_cx_never_changes_the_documented_target S L B dims s a b r HB HL Hs Ha Hb Hr Hrb) as [s' [V' [El E']]].
  rewrite E in E'. assert (E2 : shown OutPrint (documented dims s a b r) = shown OutPrint s') by congruence.
  clear E'. rename E2 into E'. unfold documented in *. destruct (_ && _); [|apply Hx; reflexivity].
  pose proof (H2 _ (nth_In dims 0 Hr)) as Hr2.
  assert (M : (level s r + 1) mod nth r dims 0 < nth r dims 0) by (apply Nat.mod_upper_bound; lia).
  apply (@shown_inj OutPrint dims) in E'; [|exact Hd | apply valid_put; assumption | exact V'].
  subst s'. rewrite level_put, Nat.eqb_refl in El by lia. apply Hx. rewrite El. apply put_level.
Qed.

(** ** QASM *)

(** README.md:138-152 writes the QASM text with every line indented.  A text
    none of whose lines starts with a dot is never accepted. *)
Theorem C76_indented_texts_raise_IndexError :
  forall S t, ~ contains (newline :: T ".") t -> circuit_from_qasm S t = Err IndexError.
Proof.
  intros S t H. apply (C41_fewer_than_three_markers_raise_IndexError S t 0); [|lia]. revert H.
  induction t as [|c t IH]; intros H; [constructor|]. apply mk_skip.
  - intros M. apply H.
    assert (Q : forall w, begins (newline :: T "." ++ w) (c :: t) -> contains (newline :: T ".") (c :: t)).
    { intros w [x E]. exists [], (w ++ x). rewrite E. reflexivity. }
    destruct M as [M|[M|[[x [d [_ [_ M]]]]|[[d [_ M]]|[d [_ M]]]]]]; eapply Q; exact M.
  - apply IH. intros [a [b E]]. apply H. exists (c :: a), b. rewrite E. reflexivity.
Qed.

(** ** Non-trivial instances *)

(** README.md:42-72 with the controls at their top levels. *)
Example ex_C76_cx :
  line [2; 3; 3] [1; 2; 0] /\ documented [2; 3; 3] [1; 2; 0] 0 1 2 = [1; 2; 1] /\
  simulate (SparseBackend Zscalar) (QList [2; 3; 3]%Z) (Some [1; 2; 0]%Z) None [CCX [0; 1]%Z 2] = Ok [(LStr "|110>", 1%Z)] /\
  simulate (SparseBackend Zscalar) (QList [2; 3; 3]%Z) (Some [1; 2; 0]%Z) None [CTof [0; 1]%Z 2 1] = Ok [(LStr "|121>", 1%Z)].
Proof.
  split; [|repeat split; vm_compute; reflexivity].
  split; [discriminate|]. split; [simpl; intros; lia|]. split; [simpl; lia|]. repeat constructor.
Qed.

Section Texts.
Let lines (l : list string) : text := concat (map (fun s => list_ascii_of_string s ++ [newline]) l).

(** README.md:140-151, verbatim. *)
Let readme_string : text := newline :: lines
  ["    # This is the File Header"; "    "; "    .qubit 3"; "    qudit x0 (2)"; "    qudit x1 (3)"; "    qudit x2 (3)"; "";
   "    .begin"; "    Toffoli x0, x1, x2"; "    .end"; "    "]%string.
(** README.md:110-126, verbatim. *)
Let readme_file : text := lines
  ["# This is the File Header"; "# The File Header section is compulsory"; ""; "# Defining a 3 Qudit circuit"; ".qubit 3"; "qudit x0 (2)";
   "qudit x1 (3)"; "qudit x2 (3)"; ""; "# The Gate composition will go in this"; "# section, between the .begin and the .end"; ".begin"; "";
   "# Your Gates Here ..."; "Toffoli x0, x1, x2"; ""; ".end"]%string.

Lemma lead_dot : forall t, contains (newline :: T ".") t ->
  (fix go (l : text) : bool := match l with c :: (d :: _) as r => (Ascii.eqb c newline && Ascii.eqb d "."%char) || go r | _ => false end) t = true.
Proof.
  intros t [a [b ->]]. induction a as [|x a IH]; [reflexivity|].
  change ((x :: a) ++ (newline :: T ".") ++ b) with (x :: (a ++ (newline :: T ".") ++ b)).
  destruct (a ++ (newline :: T ".") ++ b) as [|d r]; [discriminate IH|]. rewrite IH. apply Bool.orb_true_r.
Qed.

Example ex_C76_texts :
  ~ contains (newline :: T ".") readme_string /\ circuit_from_qasm Zscalar readme_string = Err IndexError /\
  (c <- circuit_from_qasm Zscalar readme_file ;; Ok (c_dims c)) = Ok [2; 4; 3]%Z /\
  run_text (SparseBackend Zscalar) readme_file = Ok [(LStr "|000>", 1%Z)].
Proof.
  split; [intros H; apply lead_dot in H; vm_compute in H; discriminate|].
  repeat split; vm_compute; reflexivity.
Qed.
End Texts.

Print Assumptions C76_cx_never_changes_the_documented_target.
Print Assumptions C76_documented_cx_refuted.
Print Assumptions C76_indented_texts_raise_IndexError.
