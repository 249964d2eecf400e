(** * Props_Alias: lists the caller shares with a circuit (C95, C96). *)
From Coq Require Import List Arith ZArith Lia String.
From Verif Require Import Py Scalar Mat Utils Gates Circuit Spec Calls BackendEq Alias AliasSpec AliasLib AliasRun Props_Run.
Import ListNotations.
Local Notation length := List.length.

(** ** C95 *)
Theorem C95_edited_register_list_renames_outcomes :
  forall S (L : scalar_laws S) (B : backend S) dims levels ks prog dims',
  supported B -> line dims levels -> asks dims ks prog -> (forall d, In d dims' -> 0 < d) ->
  simulate_edited B (map Z.of_nat dims) (Some (map Z.of_nat levels)) ks (map Z.of_nat dims')
  = match rename_all S dims dims' (answer dims (final dims prog (basis S (start dims levels)))) with
    | Some l => Ok (report OutPrint OutAmplitude l)
    | None => Err IndexError
    end.
Proof.
  intros S L B dims levels ks prog dims' HB [H1 [H2 [H3 H4]]] [H5 H6] Hp.
  rewrite <- (@simulate_edited_correct S L dims levels ks prog dims' H1 H2 H3 H4 H5 H6 Hp). unfold simulate_edited.
  destruct (mk_circuit S (QList (map Z.of_nat dims)) (Some (map Z.of_nat levels)) None) as [c|e]; [|reflexivity]. cbn [bind].
  destruct (script c (ks ++ [CMeasureAll])) as [c'|e]; [|reflexivity]. cbn [bind]. apply (supported_run S L), HB.
Qed.

(** ** C96 *)
Lemma supported_shared : forall S (L : scalar_laws S) (B : backend S) q init out pair acts, supported B ->
  simulate_shared B q init out pair acts = simulate_shared (NumpyBackend S) q init out pair acts.
Proof.
  intros S L B q init out pair acts HB. unfold simulate_shared.
  destruct (mk_circuit S q init out) as [c|e]; [|reflexivity]. cbn [bind].
  destruct (perform_all {| h_circuit := c; h_list := pair; h_marks := [] |} acts) as [st|e]; [|reflexivity]. cbn [bind].
  destruct (api (h_circuit st) CMeasureAll) as [[c' b]|e]; [|reflexivity]. cbn [bind]. apply (supported_run S L), HB.
Qed.

Theorem C96_shared_cx_list_is_read_at_run :
  forall S (L : scalar_laws S) (B : backend S) dims levels out ty me pair acts prog,
  supported B -> line dims levels -> wants dims out ty me ->
  amounts dims (contents pair acts) pair acts (map Some prog) ->
  simulate_shared B (QList (map Z.of_nat dims)) (Some (map Z.of_nat levels)) out pair acts
  = Ok (report ty me (answer dims (final dims prog (basis S (start dims levels))))).
Proof.
  intros S L B dims levels out ty me pair acts prog HB [H1 [H2 [H3 H4]]] Hw Ha. rewrite (supported_shared S L) by exact HB.
  exact (@simulate_shared_correct S L dims levels out ty me pair acts prog H1 H2 H3 H4 Hw Ha).
Qed.

Theorem C96_outgrown_cx_raises :
  forall S (L : scalar_laws S) (B : backend S) dims levels out pair acts gs,
  supported B -> line dims levels -> amounts dims (contents pair acts) pair acts gs -> In None gs ->
  simulate_shared B (QList (map Z.of_nat dims)) (Some (map Z.of_nat levels)) out pair acts
  = Err (match contents pair acts with [_; _] => IndexError | _ => ValueError end).
Proof.
  intros S L B dims levels out pair acts gs HB [H1 [H2 [H3 H4]]] Ha Hin. rewrite (supported_shared S L) by exact HB.
  exact (@simulate_shared_lost S L dims levels out pair acts gs H1 H2 H3 H4 Ha Hin).
Qed.

(** Every cx on the shared list is one or the other. *)
Theorem C96_cases_are_complete : forall v a b, (exists c t, lands v a b c t) \/ outgrows v a b.
Proof.
  intros v a b. destruct v as [|x [|y [|z v]]]; try (right; exact I).
  destruct (Z_gt_dec (Z.abs (x - y)) (Z.abs (Z.of_nat a - Z.of_nat b))) as [H|H]; [right; exact H|left].
  destruct (Z_lt_dec x y) as [Hl|Hl].
  - exists (Nat.min a b), (Nat.min a b + Z.to_nat (y - x)), x, y. split; [reflexivity|]. split; [left; auto|]. lia.
  - exists (Nat.min a b + Z.to_nat (x - y)), (Nat.min a b), x, y. split; [reflexivity|]. split; [right; split; [lia | auto]|]. lia.
Qed.

(** *** Three uses of one list *)
Lemma amounts_app : forall S dims v pair (acts1 acts2 : list (act S)) gs1 gs2,
  amounts dims v pair acts1 gs1 -> amounts dims v (contents pair acts1) acts2 gs2 ->
  amounts dims v pair (acts1 ++ acts2) (gs1 ++ gs2).
Proof.
  intros S dims v pair acts1 acts2 gs1 gs2 H; induction H; intros HX; cbn [app]; try (constructor; auto; fail).
  exact HX.
Qed.

Lemma amounts_calls : forall S dims v pair (ks : list (call S)) prog, asks dims ks prog ->
  amounts dims v pair (map ACall ks) (map Some prog) /\ forall acts, contents pair (map ACall ks ++ acts) = contents pair acts.
Proof.
  intros S dims v pair ks prog [H1 H2]. induction H1 as [|k g ks prog Hk H IH]; [split; [constructor | reflexivity]|].
  inversion H2; subst. destruct IH as [I1 I2]; [assumption|]. split; [cbn [map]; constructor; auto | exact I2].
Qed.

(** Calls, a cx with the list, calls, and an edit to [l] at the end. *)
Lemma amounts_one : forall S dims (ks1 ks2 : list (call S)) prog1 prog2 a b p l c t,
  asks dims ks1 prog1 -> asks dims ks2 prog2 -> a < length dims -> b < length dims -> lands l a b c t ->
  let acts := map ACall ks1 ++ AShared p :: map ACall ks2 ++ [AEdit l] in
  let pair := [Z.of_nat a; Z.of_nat b] in
  amounts dims (contents pair acts) pair acts (map Some (prog1 ++ GCX c t p :: prog2)).
Proof.
  intros S dims ks1 ks2 prog1 prog2 a b p l c t H1 H2 Ha Hb Hl acts pair.
  assert (Ec : contents pair acts = l).
  { unfold acts. destruct (amounts_calls S dims [] pair ks1 prog1 H1) as [_ E1]. rewrite E1. cbn [contents].
    destruct (amounts_calls S dims [] pair ks2 prog2 H2) as [_ E2]. rewrite E2. reflexivity. }
  rewrite Ec. unfold acts. rewrite map_app. cbn [map]. apply amounts_app.
  - apply (amounts_calls S dims l pair ks1 prog1 H1).
  - destruct (amounts_calls S dims [] pair ks1 prog1 H1) as [_ E1]. specialize (E1 []). rewrite app_nil_r in E1. rewrite E1.
    cbn [contents]. apply am_cx; auto. rewrite <- (app_nil_r (map Some prog2)). apply amounts_app.
    + apply (amounts_calls S dims l _ ks2 prog2 H2).
    + apply am_edit, am_nil.
Qed.

Lemma asks_one : forall S dims (ks1 ks2 : list (call S)) prog1 prog2 c t p,
  asks dims ks1 prog1 -> asks dims ks2 prog2 -> c < length dims -> t < length dims ->
  asks dims (ks1 ++ CCX [Z.of_nat c; Z.of_nat t] p :: ks2) (prog1 ++ GCX c t p :: prog2).
Proof.
  intros S dims ks1 ks2 prog1 prog2 c t p [H1 H2] [H3 H4] Hc Ht. split.
  - apply Forall2_app; [exact H1|]. constructor; [constructor | exact H3].
  - apply Forall_app. split; [exact H2|]. constructor; [split; assumption | exact H4].
Qed.

(** Reversing the list before the run exchanges control and target of the cx
    that was made from it. *)
Theorem C96_reversing_the_list_swaps_the_gate :
  forall S (L : scalar_laws S) (B : backend S) dims levels out ty me ks1 ks2 prog1 prog2 a b p,
  supported B -> line dims levels -> wants dims out ty me -> asks dims ks1 prog1 -> asks dims ks2 prog2 ->
  a < length dims -> b < length dims ->
  simulate_shared B (QList (map Z.of_nat dims)) (Some (map Z.of_nat levels)) out [Z.of_nat a; Z.of_nat b]
    (map ACall ks1 ++ AShared p :: map ACall ks2 ++ [AEdit [Z.of_nat b; Z.of_nat a]])
  = simulate B (QList (map Z.of_nat dims)) (Some (map Z.of_nat levels)) out
      (ks1 ++ CCX [Z.of_nat b; Z.of_nat a] p :: ks2).
Proof.
  intros S L B dims levels out ty me ks1 ks2 prog1 prog2 a b p HB Hl Hw H1 H2 Ha Hb.
  rewrite (C01_run_applies_gates_in_order S L B dims levels out ty me _ _ HB Hl Hw (asks_one S dims _ _ _ _ b a p H1 H2 Hb Ha)).
  apply (C96_shared_cx_list_is_read_at_run S L B dims levels out ty me); auto. apply amounts_one; auto.
  exists (Z.of_nat b), (Z.of_nat a). split; [reflexivity|]. lia.
Qed.

(** Overwriting it with another pair of the same difference, inside the line
    or not, changes nothing. *)
Theorem C96_shifting_the_list_is_harmless :
  forall S (L : scalar_laws S) (B : backend S) dims levels out ty me ks1 ks2 prog1 prog2 a b p x y,
  supported B -> line dims levels -> wants dims out ty me -> asks dims ks1 prog1 -> asks dims ks2 prog2 ->
  a < length dims -> b < length dims -> (y - x = Z.of_nat b - Z.of_nat a)%Z ->
  simulate_shared B (QList (map Z.of_nat dims)) (Some (map Z.of_nat levels)) out [Z.of_nat a; Z.of_nat b]
    (map ACall ks1 ++ AShared p :: map ACall ks2 ++ [AEdit [x; y]])
  = simulate B (QList (map Z.of_nat dims)) (Some (map Z.of_nat levels)) out
      (ks1 ++ CCX [Z.of_nat a; Z.of_nat b] p :: ks2).
Proof.
  intros S L B dims levels out ty me ks1 ks2 prog1 prog2 a b p x y HB Hl Hw H1 H2 Ha Hb Hxy.
  rewrite (C01_run_applies_gates_in_order S L B dims levels out ty me _ _ HB Hl Hw (asks_one S dims _ _ _ _ a b p H1 H2 Ha Hb)).
  apply (C96_shared_cx_list_is_read_at_run S L B dims levels out ty me); auto. apply amounts_one; auto.
  exists x, y. split; [reflexivity|]. lia.
Qed.

(** One list moved along the line, as in [for i in …: pair[0] = i; pair[1] = i + k;
    c.cx(pair, p)]: the circuit is the one with a new list for every gate. *)
Theorem C96_sliding_one_list_is_harmless :
  forall S (L : scalar_laws S) (B : backend S) dims levels out ty me pair k p places,
  supported B -> line dims levels -> wants dims out ty me -> (forall i, In i places -> i + k < length dims) ->
  simulate_shared B (QList (map Z.of_nat dims)) (Some (map Z.of_nat levels)) out pair
    (flat_map (fun i => [AEdit [Z.of_nat i; Z.of_nat (i + k)]; AShared p]) places)
  = simulate B (QList (map Z.of_nat dims)) (Some (map Z.of_nat levels)) out
      (map (fun i => CCX [Z.of_nat i; Z.of_nat (i + k)] p) places).
Proof.
  intros S L B dims levels out ty me pair k p places HB Hl Hw Hp.
  rewrite (C01_run_applies_gates_in_order S L B dims levels out ty me _ (map (fun i => GCX i (i + k) p) places) HB Hl Hw).
  - apply (C96_shared_cx_list_is_read_at_run S L B dims levels out ty me); auto.
    assert (Ec : places = [] \/ exists j : nat, contents pair (flat_map (fun i => [AEdit (S := S) [Z.of_nat i; Z.of_nat (i + k)]; AShared p]) places)
                   = [Z.of_nat j; Z.of_nat (j + k)]).
    { clear. revert pair. induction places as [|i places IH]; intros pair; [left; reflexivity|]. right. cbn [flat_map app contents].
      destruct (IH [Z.of_nat i; Z.of_nat (i + k)]) as [->|H]; [exists i; reflexivity | exact H]. }
    destruct Ec as [->|[j Ej]]; [constructor|]. rewrite Ej. clear Ej. revert pair. induction places as [|i places IH]; intros pair; [constructor|].
    cbn [flat_map app map]. apply am_edit. assert (Hi : i + k < length dims) by (apply Hp; left; reflexivity).
    apply am_cx; [lia | lia | | apply IH; intros i' Hi'; apply Hp; right; exact Hi'].
    exists (Z.of_nat j), (Z.of_nat (j + k)). split; [reflexivity|]. lia.
  - clear - Hp. induction places as [|i places IH]; [split; constructor|].
    destruct IH as [I1 I2]; [intros i' Hi'; apply Hp; right; exact Hi'|]. assert (Hi : i + k < length dims) by (apply Hp; left; reflexivity).
    split; cbn [map]; constructor; auto; [constructor | split; lia].
Qed.

(** ** Concrete cases *)
Section Examples.
Open Scope Z_scope.
Let S := Zscalar.
Let dims := [2; 3; 2]%nat.
Let calls : list (call S) := [CX 0 None 1; CX 1 None 2].
Let prog : list (gate S) := [GX 0 1; GX 1 2].

Lemma ex_line : line dims [].
Proof.
  split; [discriminate|]. split; [intros d [<-|[<-|[<-|[]]]]; lia|]. split; [simpl; lia|]. vm_compute. repeat constructor.
Qed.
Lemma ex_asks : asks dims calls prog.
Proof.
  split; [constructor; [apply (@den_x S dims 0%nat None 1); left; reflexivity|]; constructor; [apply (@den_x S dims 1%nat None 2); left; reflexivity | constructor]|].
  constructor; [simpl; lia|]. constructor; [simpl; lia | constructor].
Qed.

(** |120> is number 10 of 12 outcomes: |120> when read with 2, 3 and 2 levels,
    |102> with 3, 2 and 4 levels, and beyond the last of 2 times 4. *)
Example ex_C95 : line dims [] /\ asks dims calls prog /\
  simulate_edited (NumpyBackend S) [2; 3; 2] (Some []) calls [3; 2; 4] = Ok [(LStr "|102>"%string, 1)] /\
  simulate_edited (SparseBackend S) [2; 3; 2] (Some []) calls [2; 4] = Err IndexError /\
  rename_all S dims [3; 2; 4]%nat (answer dims (final dims prog (basis S (start dims [])))) = Some [([1; 0; 2]%nat, 1)] /\
  rename_all S dims [2; 4]%nat (answer dims (final dims prog (basis S (start dims [])))) = None.
Proof. split; [apply ex_line|]. split; [apply ex_asks|]. repeat split; vm_compute; reflexivity. Qed.

(** cx([0, 2]) on |120> gives |121>; with the list reversed before the run it
    is the gate cx([2, 0]) and does nothing; with the list set to [0, 1] its
    target is register 1; the distance of [0, 3] is too large; a list of one
    register cannot be unpacked. *)
Example ex_C96 :
  let run_with l := simulate_shared (NumpyBackend S) (QList [2; 3; 2]) (Some []) None [0; 2] (map ACall calls ++ [AShared 1; AEdit l]) in
  run_with [0; 2] = Ok [(LStr "|121>"%string, 1)] /\ run_with [7; 9] = Ok [(LStr "|121>"%string, 1)] /\
  run_with [2; 0] = Ok [(LStr "|120>"%string, 1)] /\ run_with [0; 1] = Ok [(LStr "|100>"%string, 1)] /\
  run_with [0; 3] = Err IndexError /\ run_with [1] = Err ValueError.
Proof. repeat split; vm_compute; reflexivity. Qed.

Example ex_C96_amounts : 
  let acts l := map ACall calls ++ [AShared 1; AEdit l] in
  amounts dims (contents [0; 2] (acts [0; 1])) [0; 2] (acts [0; 1]) (map Some (prog ++ [GCX 0 1 1])) /\
  amounts dims (contents [0; 2] (acts [0; 3])) [0; 2] (acts [0; 3]) (map Some prog ++ [None]).
Proof.
  destruct ex_asks as [H1 H2]. inversion H1 as [|k g ks pr Hk1 H3]; subst. inversion H3 as [|k g ks pr Hk2 H4]; subst.
  inversion H2 as [|g pr Hg1 H5]; subst. inversion H5 as [|g pr Hg2 H6]; subst.
  split; cbn [map app contents].
  - constructor; [assumption | assumption|]. constructor; [assumption | assumption|].
    apply (@am_cx S dims [0; 1] 0 2 1 0 1); [simpl; lia | simpl; lia | | apply am_edit, am_nil].
    exists 0, 1. split; [reflexivity|]. simpl. lia.
  - constructor; [assumption | assumption|]. constructor; [assumption | assumption|].
    apply (@am_lost S dims [0; 3] 0 2 1); [simpl; lia | simpl; lia | simpl; lia | apply am_edit, am_nil].
Qed.

(** Three cx with one list, each triggered by the one before. *)
Example ex_C96_sliding :
  simulate_shared (SparseBackend S) (QList [2; 2; 2; 3]) (Some [1]) None [9]
    (flat_map (fun i => [AEdit [Z.of_nat i; Z.of_nat (i + 1)]; AShared 1]) [0; 1; 2]%nat)
  = Ok [(LStr "|1111>"%string, 1)].
Proof. vm_compute. reflexivity. Qed.
End Examples.

Print Assumptions C95_edited_register_list_renames_outcomes.
Print Assumptions C96_shared_cx_list_is_read_at_run.
Print Assumptions C96_outgrown_cx_raises.
Print Assumptions C96_cases_are_complete.
Print Assumptions C96_reversing_the_list_swaps_the_gate.
Print Assumptions C96_shifting_the_list_is_harmless.
Print Assumptions C96_sliding_one_list_is_harmless.
