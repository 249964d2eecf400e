(** * Props_AliasMid: the register list edited between calls, and outputs made
    for other registers (C118, C119). *)
From Coq Require Import List Arith ZArith Lia String.
From Verif Require Import Py Scalar Mat Utils Gates Circuit Spec Calls Lib Run BackendEq Alias AliasSpec AliasLib AliasRun AliasMid Props_Run.
Import ListNotations.
Local Notation length := List.length.

Lemma supported_between : forall S (L : scalar_laws S) (B : backend S) regs init ks l ks', supported B ->
  simulate_edited_between B regs init ks l ks' = simulate_edited_between (NumpyBackend S) regs init ks l ks'.
Proof.
  intros S L B regs init ks l ks' HB. unfold simulate_edited_between.
  destruct (mk_circuit S (QList regs) init None) as [c|e]; [|reflexivity]. cbn [bind].
  destruct (script c ks) as [c'|e]; [|reflexivity]. cbn [bind].
  destruct (script (edit_regs l c') (ks' ++ [CMeasureAll])) as [c''|e]; [|reflexivity]. cbn [bind]. apply (supported_run S L), HB.
Qed.

Lemma supported_output : forall S (L : scalar_laws S) (B : backend S) regs init o ks l ks', supported B ->
  simulate_edited_output B regs init o ks l ks' = simulate_edited_output (NumpyBackend S) regs init o ks l ks'.
Proof.
  intros S L B regs init o ks l ks' HB. unfold simulate_edited_output.
  destruct (mk_circuit S (QList regs) init (Some o)) as [c|e]; [|reflexivity]. cbn [bind].
  destruct (script c ks) as [c'|e]; [|reflexivity]. cbn [bind].
  destruct (script (edit_dims l c') (ks' ++ [CMeasureAll])) as [c''|e]; [|reflexivity]. cbn [bind]. apply (supported_run S L), HB.
Qed.

(** ** C118 *)
Theorem C118_edit_between_calls_of_the_same_size :
  forall S (L : scalar_laws S) (B : backend S) dims levels ks prog dims' ks' prog',
  supported B -> line dims levels -> asks dims ks prog ->
  length dims' = length dims -> (forall d, In d dims' -> 2 <= d) -> asks dims' ks' prog' ->
  ks = [] \/ starts_layer prog' ->
  fold_right Nat.mul 1 dims = fold_right Nat.mul 1 dims' ->
  simulate_edited_between B (map Z.of_nat dims) (Some (map Z.of_nat levels)) ks (map Z.of_nat dims') ks'
  = Ok (report OutPrint OutAmplitude (answer dims' (final dims' prog'
      (carried S dims dims' (final dims prog (basis S (start dims levels))))))).
Proof.
  intros S L B dims levels ks prog dims' ks' prog' HB [H1 [H2 [H3 H4]]] [H5 H6] Hl Hd' [H7 H8] Hs Hp.
  rewrite (supported_between S L) by exact HB. apply (between_same L); assumption.
Qed.

Theorem C118_edit_between_calls_of_another_size_raises :
  forall S (L : scalar_laws S) (B : backend S) dims levels ks prog dims' ks' prog',
  supported B -> line dims levels -> asks dims ks prog ->
  length dims' = length dims -> (forall d, In d dims' -> 2 <= d) -> asks dims' ks' prog' ->
  ks = [] \/ starts_layer prog' ->
  fold_right Nat.mul 1 dims <> fold_right Nat.mul 1 dims' -> ks' <> [] ->
  simulate_edited_between B (map Z.of_nat dims) (Some (map Z.of_nat levels)) ks (map Z.of_nat dims') ks' = Err ValueError.
Proof.
  intros S L B dims levels ks prog dims' ks' prog' HB [H1 [H2 [H3 H4]]] [H5 H6] Hl Hd' [H7 H8] Hs Hp Hk.
  rewrite (supported_between S L) by exact HB. apply (@between_other S L dims levels dims' ks ks' prog prog'); assumption.
Qed.

(** With an Output of the caller, whose base is any list: the outcomes get the
    names that list has for their places (C119), or run() raises as before. *)
Theorem C118_edit_with_an_output :
  forall S (L : scalar_laws S) (B : backend S) dims levels ks prog dims' ks' prog' base ty me,
  supported B -> line dims levels -> asks dims ks prog ->
  length dims' = length dims -> (forall d, In d dims' -> 2 <= d) -> asks dims' ks' prog' ->
  ks = [] \/ starts_layer prog' -> (forall d, In d base -> 0 < d) ->
  let o := {| o_base := map Z.of_nat base; o_type := ty; o_method := me |} in
  let result := simulate_edited_output B (map Z.of_nat dims) (Some (map Z.of_nat levels)) o ks (map Z.of_nat dims') ks' in
  (fold_right Nat.mul 1 dims = fold_right Nat.mul 1 dims' ->
   result = match rename_all S dims' base (answer dims' (final dims' prog'
                    (carried S dims dims' (final dims prog (basis S (start dims levels)))))) with
            | Some l => Ok (report ty me l)
            | None => Err IndexError
            end) /\
  (fold_right Nat.mul 1 dims <> fold_right Nat.mul 1 dims' -> ks' <> [] -> result = Err ValueError).
Proof.
  intros S L B dims levels ks prog dims' ks' prog' base ty me HB [H1 [H2 [H3 H4]]] [H5 H6] Hl Hd' [H7 H8] Hs Hb o result. unfold result.
  rewrite (supported_output S L) by exact HB. split; intros Hp.
  - rewrite (@output_same S L dims levels dims' ks ks' prog prog' H1 H2 H3 H4 H5 H6 Hl Hd' H7 H8 Hs o Hp). apply labelled_renamed, Hb.
  - intros Hk. apply (@between_other S L dims levels dims' ks ks' prog prog'); assumption.
Qed.

(** A longer list brings no new registers: calls on them are refused. *)
Theorem C118_the_number_of_registers_is_fixed :
  forall S (L : scalar_laws S) (B : backend S) dims levels ks prog l q dm p u k ks' o,
  line dims levels -> asks dims ks prog -> (Z.of_nat (length dims) <= q)%Z ->
  In k [CH q dm; CZ q dm; CX q dm p; CGate u (RInt q) dm] ->
  simulate_edited_between B (map Z.of_nat dims) (Some (map Z.of_nat levels)) ks l (k :: ks') = Err ValueError /\
  simulate_edited_output B (map Z.of_nat dims) (Some (map Z.of_nat levels)) o ks l (k :: ks') = Err ValueError.
Proof.
  intros S L B dims levels ks prog l q dm p u k ks' o [H1 [H2 [H3 H4]]] [H5 H6] Hq Hk.
  assert (G : forall c, c_len c = Z.of_nat (length dims) -> api c k = Err ValueError).
  { intros c Hc. assert (V : validate1 c q dm = Err ValueError).
    { unfold validate1. rewrite Hc. destruct (Z.ltb_spec (Z.of_nat (length dims) - 1) q); [reflexivity | lia]. }
    destruct Hk as [<-|[<-|[<-|[<-|[]]]]]; cbn [api validate]; rewrite V; reflexivity. }
  split; [destruct (@script_len S L dims levels None ks prog H1 H2 H3 H4 H5 H6) as [c0 [c1 [E0 [E1 El]]]]
         |destruct (@script_len S L dims levels (Some o) ks prog H1 H2 H3 H4 H5 H6) as [c0 [c1 [E0 [E1 El]]]]];
    [unfold simulate_edited_between | unfold simulate_edited_output]; rewrite E0; cbn [bind]; rewrite E1; cbn [bind app script];
    rewrite G by exact El; reflexivity.
Qed.

(** ** C119 *)
Theorem C119_output_for_other_registers_renames :
  forall S (L : scalar_laws S) (B : backend S) dims levels ks prog dims' ty me,
  supported B -> line dims levels -> asks dims ks prog -> (forall d, In d dims' -> 0 < d) ->
  simulate B (QList (map Z.of_nat dims)) (Some (map Z.of_nat levels))
    (Some {| o_base := map Z.of_nat dims'; o_type := ty; o_method := me |}) ks
  = match rename_all S dims dims' (answer dims (final dims prog (basis S (start dims levels)))) with
    | Some l => Ok (report ty me l)
    | None => Err IndexError
    end.
Proof.
  intros S L B dims levels ks prog dims' ty me HB [H1 [H2 [H3 H4]]] [H5 H6] Hp. rewrite (supported_sim S L) by exact HB.
  rewrite (@simulate_any S L dims levels _ ks prog H1 H2 H3 H4 H5 H6). apply labelled_renamed, Hp.
Qed.

(** Registers with at least as many states together can name every outcome, and
    give different names to different outcomes. *)
Theorem C119_large_enough :
  forall (S : scalar) dims dims' (l : list (config * S)),
  fold_right Nat.mul 1 dims <= fold_right Nat.mul 1 dims' ->
  (forall s a, In (s, a) l -> valid dims s) -> NoDup (map fst l) ->
  exists l', rename_all S dims dims' l = Some l' /\ map snd l' = map snd l /\ NoDup (map fst l') /\
    (forall s a, In (s, a) l' -> valid dims' s).
Proof.
  intros S dims dims' l Hle. change (prodn dims <= prodn dims') in Hle. unfold rename_all.
  induction l as [|[s a] l IH]; intros Hv Hnd.
  - exists []. repeat split; [constructor | intros s a []].
  - inversion Hnd as [|? ? Hn Hnd']; subst. destruct (IH (fun s' a' H => Hv s' a' (or_intror H)) Hnd') as [l' [E1 [E2 [E3 E4]]]].
    pose proof (Hv s a (or_introl eq_refl)) as Hs. pose proof (lin_lt Hs) as Hlt.
    destruct (nth_error_lin dims' (Nat.lt_le_trans _ _ _ Hlt Hle)) as [s' [Hs' [El En]]].
    exists ((s', a) :: l'). cbn [map]. unfold renamed at 1. rewrite (position_lin Hs), En. cbn [option_map all_or_none].
    rewrite E1. split; [reflexivity|]. split; [cbn; rewrite E2; reflexivity|]. split.
    + cbn [map fst]. constructor; [|exact E3]. intros Hin. apply Hn.
      assert (G : forall l l', all_or_none (map (fun '(s, a) => option_map (fun s' => (s', a)) (renamed dims dims' s)) l) = Some l' ->
                (forall s a, In (s, a) l -> valid dims s) -> In s' (map fst l') -> In s (map fst (l : list (config * S)))).
      { clear - Hs El Hle Hs'. induction l as [|[t b] l IH]; intros l' E Hv Hin; cbn in E.
        - injection E as <-. contradiction.
        - destruct (renamed dims dims' t) as [t'|] eqn:Et; [|discriminate]. cbn [option_map] in E.
          destruct (all_or_none _) as [l2|] eqn:E2; [|discriminate]. injection E as <-. destruct Hin as [Hin|Hin].
          + cbn in Hin. subst t'. left. cbn. pose proof (Hv t b (or_introl eq_refl)) as Ht. unfold renamed in Et. rewrite (position_lin Ht) in Et.
            pose proof (lin_lt Ht) as Lt. destruct (nth_error_lin dims' (Nat.lt_le_trans _ _ _ Lt Hle)) as [u [_ [Eu En]]].
            rewrite En in Et. injection Et as ->. rewrite <- (unlin_lin Hs), <- (unlin_lin Ht). congruence.
          + right. apply (IH l2 eq_refl); [|exact Hin]. intros s0 a0 H. apply (Hv s0 a0). right. exact H. }
      apply (G l l' E1); [|exact Hin]. intros s0 a0 H. apply (Hv s0 a0). right. exact H.
    + intros t b [H|H]; [injection H as <- <-; exact Hs' | apply (E4 t b H)].
Qed.

(** ** Concrete cases *)
Section Examples.
Open Scope Z_scope.
Let S := Zscalar.
Let NB := NumpyBackend S.
Let before : list (call S) := [CX 0 None 1].
Let after : list (call S) := [CCX [1; 0] 1; CX 0 None 1].

Lemma ex_line23 : line [2; 3]%nat [].
Proof. split; [discriminate|]. split; [intros d [<-|[<-|[]]]; lia|]. split; [simpl; lia|]. vm_compute. repeat constructor. Qed.
Lemma ex_before : asks [2; 3]%nat before [GX 0 1].
Proof.
  split; [constructor; [apply (@den_x S [2; 3]%nat 0%nat None 1); left; reflexivity | constructor]|].
  constructor; [simpl; lia | constructor].
Qed.
Lemma ex_after : asks [3; 2]%nat after [GCX 1 0 1; GX 0 1].
Proof.
  split; [constructor; [apply (@den_cx S [3; 2]%nat 1 0 1)|]; constructor; [apply (@den_x S [3; 2]%nat 0%nat None 1); left; reflexivity | constructor]|].
  constructor; [simpl; lia|]. constructor; [simpl; lia | constructor].
Qed.

(** |10> of a qubit and a qutrit is state number 3, which is |11> of a qutrit and
    a qubit; from there cx([1, 0]) and x(0) go on with three levels. *)
Example ex_C118 : line [2; 3]%nat [] /\ asks [2; 3]%nat before [GX 0 1] /\ asks [3; 2]%nat after [GCX 1 0 1; GX 0 1] /\
  starts_layer (S := S) [GCX 1 0 1; GX 0 1] /\
  simulate_edited_between NB [2; 3] (Some []) before [3; 2] after = Ok [(LStr "|01>"%string, 1)] /\
  simulate_edited_between (SparseBackend S) [2; 3] (Some []) before [3; 3] after = Err ValueError /\
  simulate_edited_between NB [2; 3] (Some [1; 0]) [] [3; 2] [CX 0 None 1] = Ok [(LStr "|21>"%string, 1)] /\
  simulate_edited_between NB [2; 3] (Some [1; 0]) [] [3; 3] [CX 0 None 1] = Err ValueError.
Proof.
  split; [apply ex_line23|]. split; [apply ex_before|]. split; [apply ex_after|]. split; [exact I|].
  repeat split; vm_compute; reflexivity.
Qed.

(** x(1) after x(0) goes into the layer made before the edit: with the sizes
    exchanged that layer has 2 times 2 rows, and run() raises although the
    total sizes are the same. *)
Example ex_C118_shared_layer :
  ~ starts_layer (S := S) [GX 1 1] /\
  simulate_edited_between NB [2; 3] (Some []) before [3; 2] [CX 1 None 1] = Err ValueError /\
  simulate_edited_between NB [2; 3] (Some []) before [3; 2] [CX 1 None 1; CX 1 None 1] = Err ValueError.
Proof. split; [intros []|]. split; vm_compute; reflexivity. Qed.

(** The outcome |21> of a qutrit and a qubit, named by the registers of the
    Output: its own list [2, 3], one register, or too few states. *)
Example ex_C118_output :
  let named l := simulate_edited_output NB [2; 3] (Some [1; 0]) {| o_base := l; o_type := OutState; o_method := OutAmplitude |} [] [3; 2] [CX 0 None 1] in
  named [2; 3] = Ok [(LTup [1; 2], 1)] /\ named [3; 2] = Ok [(LTup [2; 1], 1)] /\ named [6] = Ok [(LTup [5], 1)] /\ named [5] = Err IndexError /\
  simulate_edited_output (SparseBackend S) [2; 3] (Some []) {| o_base := [2; 3]; o_type := OutPrint; o_method := OutAmplitude |} before [3; 3] after = Err ValueError.
Proof. repeat split; vm_compute; reflexivity. Qed.

Example ex_C118_longer :
  simulate_edited_between NB [2; 3] (Some []) before [2; 3; 2] [CX 2 None 1] = Err ValueError /\
  simulate NB (QList [2; 3; 2]) (Some []) None (before ++ [CX 2 None 1]) = Ok [(LStr "|101>"%string, 1)].
Proof. split; vm_compute; reflexivity. Qed.

Example ex_C119 :
  let with_base l := simulate NB (QList [2; 3]) (Some [1; 1]) (Some {| o_base := l; o_type := OutPrint; o_method := OutAmplitude |}) before in
  let back l := simulate NB (QList [2; 3]) (Some []) (Some {| o_base := l; o_type := OutState; o_method := OutAmplitude |}) before in
  with_base [2; 3] = Ok [(LStr "|01>"%string, 1)] /\ with_base [6] = Ok [(LStr "|1>"%string, 1)] /\
  back [6] = Ok [(LTup [3], 1)] /\ back [3; 2] = Ok [(LTup [1; 1], 1)] /\ back [3] = Err IndexError /\
  rename_all S [2; 3]%nat [6]%nat [([1; 0]%nat, 1)] = Some [([3]%nat, 1)] /\ rename_all S [2; 3]%nat [3]%nat [([1; 0]%nat, 1)] = None.
Proof. repeat split; vm_compute; reflexivity. Qed.
End Examples.

Print Assumptions C118_edit_between_calls_of_the_same_size.
Print Assumptions C118_edit_between_calls_of_another_size_raises.
Print Assumptions C118_edit_with_an_output.
Print Assumptions C118_the_number_of_registers_is_fixed.
Print Assumptions C119_output_for_other_registers_renames.
Print Assumptions C119_large_enough.
