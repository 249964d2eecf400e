(** * BenchLib: running a given text by reading its lines first. *)
From Coq Require Import String Ascii.
From Verif Require Import Py Scalar Mat Utils Gates Circuit Info Spec Calls HistSpec DepthSpec Lib History Reversible Qasm QasmSpec QasmRun Props_Run Props_Qasm Props_Depth.
Set Implicit Arguments.
Local Notation length := List.length.
Open Scope list_scope.
Open Scope nat_scope.

Section Bench.
Variable S : scalar.
Notation call := (call S).
Notation gate := (gate S).

(** The dimensions and the calls of a text, without building a circuit. *)
Definition parse (t : text) : res (list Z * list call) :=
  l <- sections t ;;
  decls <- py_get l 0 ;;
  qregs <- declared decls ;;
  body <- py_get l 1 ;;
  qregs <- raise_dims (gate_lines body) qregs ;;
  os <- mapM (gate_call S) (gate_lines body) ;;
  Ok (qregs, made os).

Lemma read_lines_err : forall gates e, fold_left (fun acc g => c <- acc ;; read_line (S := S) c g) gates (Err e) = Err e.
Proof. induction gates as [|g gates IH]; intros e; [reflexivity | exact (IH e)]. Qed.

Lemma read_lines_calls : forall gates os (c : circuit S), mapM (gate_call S) gates = Ok os ->
  (c <- read_lines c gates ;; '(c, _) <- api c CMeasureAll ;; Ok c) = call_all c (made os ++ [CMeasureAll]).
Proof.
  intros gates os c H. apply mapM_forall2 in H. rewrite call_all_script. revert c. unfold read_lines.
  induction H as [|g o gates os E H IH]; intro c; [reflexivity|]. cbn [fold_left bind]. unfold read_line at 2. rewrite E. cbn [bind].
  unfold made. cbn [map concat]. destruct o as [k|]; [|exact (IH c)]. cbn [app script].
  destruct (api c k) as [[c' b]|e]; cbn [bind]; [exact (IH c')|]. rewrite read_lines_err. reflexivity.
Qed.

Lemma parse_built : forall t dims ks, parse t = Ok (map Z.of_nat dims, ks) -> circuit_from_qasm S t = built dims ks.
Proof.
  intros t dims ks H. unfold parse in H. apply bind_ok in H as [l [E1 H]]. apply bind_ok in H as [dc [E2 H]].
  apply bind_ok in H as [q [E3 H]]. apply bind_ok in H as [b [E4 H]]. apply bind_ok in H as [q' [E5 H]]. apply bind_ok in H as [os [E6 H]].
  injection H as -> <-. unfold circuit_from_qasm. rewrite E1. cbn [bind]. rewrite E2. cbn [bind]. rewrite E3. cbn [bind]. rewrite E4. cbn [bind].
  rewrite E5. cbn [bind]. unfold built. destruct (mk_circuit S (QList (map Z.of_nat dims)) None None) as [c|e]; [|reflexivity]. cbn [bind].
  apply read_lines_calls. exact E6.
Qed.

Lemma parse_run : forall (B : backend S) t dims ks, parse t = Ok (map Z.of_nat dims, ks) ->
  run_text B t = simulate B (QList (map Z.of_nat dims)) (Some []) None ks.
Proof. intros B t dims ks H. unfold run_text. rewrite (parse_built _ _ H). apply built_run. Qed.

(** The gates of calls, with the checks that they are valid. *)
Definition gate_of (k : call) : option gate :=
  match k with
  | CX r None p => Some (GX (Z.to_nat r) p)
  | CH r None => Some (GH (Z.to_nat r))
  | CZ r None => Some (GZ (Z.to_nat r))
  | CCX [a; b] p => Some (GCX (Z.to_nat a) (Z.to_nat b) p)
  | CTof cs t p => Some (GTof (map Z.to_nat cs) (Z.to_nat t) p)
  | _ => None
  end.
Definition regs_ok (n : nat) (k : call) : bool :=
  let ok r := (0 <=? r)%Z && (r <? Z.of_nat n)%Z in
  match k with
  | CX r _ _ | CH r _ | CZ r _ => ok r
  | CCX [a; b] _ => ok a && ok b
  | CTof cs t _ => ok t && forallb ok cs && negb (zmem t cs) &&
                   existsb (fun x => existsb (fun y => (x + 2 <=? y)%Z) (t :: cs)) (t :: cs)
  | _ => false
  end.
Definition incr_ok (dims : list nat) (k : call) : bool :=
  match k with
  | CX r _ p => (- Z.of_nat (nth (Z.to_nat r) dims O) <=? p)%Z && (p <? Z.of_nat (nth (Z.to_nat r) dims O))%Z
  | _ => true
  end.
Fixpoint gates_of (dims : list nat) (ks : list call) : option (list gate) :=
  match ks with
  | [] => Some []
  | k :: ks =>
      if regs_ok (length dims) k && incr_ok dims k
      then match gate_of k, gates_of dims ks with Some g, Some gs => Some (g :: gs) | _, _ => None end
      else None
  end.

Lemma gates_of_asks : forall dims ks prog, gates_of dims ks = Some prog -> asks dims ks prog.
Proof.
  intros dims ks; induction ks as [|k ks IH]; intros prog H; cbn [gates_of] in H; [injection H as <-; split; constructor|].
  destruct (regs_ok (length dims) k) eqn:R; [|discriminate]. destruct (incr_ok dims k) eqn:I; [|discriminate]. cbn [andb] in H.
  destruct (gate_of k) as [g|] eqn:G; [|discriminate]. destruct (gates_of dims ks) as [gs|] eqn:E; [|discriminate]. injection H as <-.
  destruct (IH gs eq_refl) as [F O].
  assert (X : denotes dims k g /\ gate_ok dims g).
  { destruct k as [r [d|]|r [d|] p|r [d|]|[|a [|b [|? ?]]] p|cs q p| | |]; try discriminate; injection G as <-; cbn [regs_ok incr_ok] in *;
      rewrite ?Bool.andb_true_iff, ?Z.leb_le, ?Z.ltb_lt in *.
    - split; [|simpl; lia]. rewrite <- (Z2Nat.id r) at 1 by lia. apply den_h. left; reflexivity.
    - split; [|simpl; lia]. rewrite <- (Z2Nat.id r) at 1 by lia. apply den_x. left; reflexivity.
    - split; [|simpl; lia]. rewrite <- (Z2Nat.id r) at 1 by lia. apply den_z. left; reflexivity.
    - split; [|simpl; lia]. rewrite <- (Z2Nat.id a) at 1 by lia. rewrite <- (Z2Nat.id b) at 1 by lia. apply den_cx.
    - destruct R as [[[R1 R2] R3] R4]. rewrite forallb_forall in R2.
      assert (C : forall c, In c cs -> (0 <= c < Z.of_nat (length dims))%Z).
      { intros c Hc. specialize (R2 c Hc). rewrite Bool.andb_true_iff, Z.leb_le, Z.ltb_lt in R2. exact R2. }
      split.
      + rewrite <- (Z2Nat.id q) at 1 by lia. replace cs with (map Z.of_nat (map Z.to_nat cs)) at 1; [apply den_tof|].
        rewrite map_map. rewrite <- (map_id cs) at 2. apply map_ext_in. intros c Hc. apply Z2Nat.id. apply C. exact Hc.
      + simpl. split; [|split; [lia|split]].
        * intros c Hc. apply in_map_iff in Hc as [z [<- Hz]]. specialize (C z Hz). lia.
        * intros Hq. apply in_map_iff in Hq as [z [Ez Hz]]. specialize (C z Hz). assert (z = q) by lia. subst z.
          unfold zmem in R3. apply Bool.negb_true_iff in R3. assert (Y : existsb (Z.eqb q) cs = true) by (apply existsb_exists; exists q; split; [exact Hz | apply Z.eqb_refl]).
          congruence.
        * intros [lo [_ [_ Sp]]]. apply existsb_exists in R4 as [x [Hx R4]]. apply existsb_exists in R4 as [y [Hy R4]]. apply Z.leb_le in R4.
          assert (Nn : forall z, In z (q :: cs) -> (0 <= z)%Z /\ In (Z.to_nat z) (Z.to_nat q :: map Z.to_nat cs)).
          { intros z [<-|Hz]; [split; [lia | left; reflexivity]|]. split; [specialize (C z Hz); lia|]. right. apply in_map. exact Hz. }
          destruct (Nn x Hx) as [X0 Xi]. destruct (Nn y Hy) as [Y0 Yi]. destruct (Sp _ Xi), (Sp _ Yi); lia. }
  destruct X. split; constructor; assumption.
Qed.

Definition line_ok (dims : list nat) : bool := match dims with [] => false | _ => forallb (fun d => 2 <=? d) dims end.
Lemma line_ok_line : forall dims, line_ok dims = true -> Props_Run.line dims [].
Proof.
  intros dims H. destruct dims as [|d dims]; [discriminate|]. unfold line_ok in H. rewrite forallb_forall in H.
  assert (G : forall x, In x (d :: dims) -> 2 <= x) by (intros x Hx; apply Nat.leb_le; auto).
  split; [discriminate|]. split; [exact G|]. split; [simpl; lia|]. unfold start. cbn [app]. rewrite Nat.sub_0_r.
  revert G. generalize (d :: dims). clear. intros l G. unfold valid. induction l as [|x l IH]; simpl; constructor.
  - specialize (G x (or_introl eq_refl)). lia.
  - apply IH. intros y Hy. apply G. right. exact Hy.
Qed.

(** What a text of x, z, h and cx lines is: its dimensions and gates. *)
Definition program_of (t : text) : option (list nat * list gate) :=
  match parse t with
  | Ok (q, ks) =>
      let dims := map Z.to_nat q in
      if forallb (fun d => (0 <=? d)%Z) q && line_ok dims
      then match gates_of dims ks with Some prog => Some (dims, prog) | None => None end
      else None
  | Err _ => None
  end.

Lemma program_of_parse : forall t dims prog, program_of t = Some (dims, prog) ->
  exists ks, parse t = Ok (map Z.of_nat dims, ks) /\ Props_Run.line dims [] /\ asks dims ks prog.
Proof.
  intros t dims prog H. unfold program_of in H. destruct (parse t) as [[q ks]|e]; [|discriminate].
  destruct (forallb (fun d => (0 <=? d)%Z) q) eqn:E1; [|discriminate]. destruct (line_ok (map Z.to_nat q)) eqn:E2; [|discriminate]. cbn [andb] in H.
  destruct (gates_of (map Z.to_nat q) ks) as [gs|] eqn:E3; [|discriminate]. injection H as <- <-.
  exists ks. split; [|split; [apply line_ok_line; exact E2 | apply gates_of_asks; exact E3]].
  do 2 f_equal. rewrite map_map. rewrite <- (map_id q) at 1. apply map_ext_in. intros d Hd. symmetry. apply Z2Nat.id.
  rewrite forallb_forall in E1. apply Z.leb_le. auto.
Qed.

Lemma text_run : forall (L : scalar_laws S) (B : backend S) t dims prog, supported B -> program_of t = Some (dims, prog) ->
  run_text B t = Ok (report OutPrint OutAmplitude (answer dims (final dims prog (basis S (start dims []))))).
Proof.
  intros L B t dims prog HB H. destruct (program_of_parse _ H) as [ks [E [HL HA]]]. rewrite (parse_run B _ _ E).
  apply (C01_run_applies_gates_in_order S L B dims [] None OutPrint OutAmplitude ks prog HB HL); [right; auto | exact HA].
Qed.

Lemma text_moves : forall (L : scalar_laws S) (B : backend S) t dims prog, supported B -> program_of t = Some (dims, prog) ->
  forallb (@is_classical S) prog = true -> run_text B t = Ok [(shown OutPrint (moves dims prog (start dims [])), s1)].
Proof.
  intros L B t dims prog HB H Hc. destruct (program_of_parse _ H) as [ks [E [HL HA]]]. rewrite (parse_run B _ _ E).
  apply (C05_reversible_circuits_give_one_outcome S L B dims [] None OutPrint OutAmplitude ks prog HB HL); [right; auto | exact HA | exact Hc].
Qed.

Lemma text_config : forall (L : scalar_laws S) t dims prog c, program_of t = Some (dims, prog) -> circuit_from_qasm S t = Ok c ->
  get_circuit_config c = Ok (WInt (Z.of_nat (length dims)), Z.of_nat (layering (fun _ => true) prog)).
Proof.
  intros L t dims prog c H Hc. destruct (program_of_parse _ H) as [ks [E [HL HA]]]. rewrite (parse_built _ _ E) in Hc.
  apply built_history in Hc.
  refine (C59_depth_of_a_program S L dims [] None ks prog [CMeasureAll] c HL HA _ _); [right; eexists; reflexivity|]. exact Hc.
Qed.
End Bench.
