(** * Props_DrawFail: which circuits str() can draw (C98). *)
From Coq Require Import List Arith ZArith Lia String Bool.
From Verif Require Import Py Scalar Mat Utils Gates Circuit Spec HistSpec History Errors BadGates InfoSpec Draw DrawFailSpec DrawFail ExLib.
Import ListNotations.
Local Notation length := List.length.

(** ** C98: str() raises exactly if some cx of the circuit cannot be drawn; the
    first such cx, layer by layer, decides the exception. *)
Theorem C98_str_raises_at_the_first_bad_cx :
  forall S l init out ks (c : circuit S), history (QList l) init out ks c -> l <> [] ->
  match first_some (trouble (length l)) (concat (layers_of c)) with
  | None => exists s, circuit_str c = Ok s
  | Some e => circuit_str c = Err e
  end.
Proof. intros S l init out ks c H Hl. exact (drawing_any H Hl). Qed.

Lemma first_some_in : forall A B (f : A -> option B) l x y, In x l -> f x = Some y -> exists z, first_some f l = Some z.
Proof.
  intros A B f l; induction l as [|a l IH]; intros x y Hx Hf; [contradiction|]. cbn [first_some].
  destruct (f a) as [z|] eqn:E; [eauto|]. destruct Hx as [->|Hx]; [congruence | exact (IH x y Hx Hf)].
Qed.

Lemma first_some_from : forall A B (f : A -> option B) l y, first_some f l = Some y -> exists x, In x l /\ f x = Some y.
Proof.
  intros A B f l; induction l as [|a l IH]; intros y E; [discriminate|]. cbn [first_some] in E.
  destruct (f a) as [z|] eqn:Ea; [injection E as ->; exists a; split; [left; reflexivity | exact Ea]|].
  destruct (IH y E) as [x [Hx Ef]]. exists x. split; [right; exact Hx | exact Ef].
Qed.

(** A cx call with more than two registers, or with one that names no row, is
    accepted if it touches the line; from then on the circuit has no drawing. *)
Theorem C98_bad_cx_makes_every_later_drawing_raise :
  forall S l init out ks (c : circuit S) a p r x y,
  history (QList l) init out ks c -> ~ In CMeasureAll ks -> 2 <= length a ->
  r < length l -> In x a -> In y a -> (x <= Z.of_nat r <= y)%Z ->
  length a <> 2 \/ (exists z, In z a /\ names_row (length l) z = false) ->
  exists c', api c (CCX a p) = Ok (c', true) /\
    forall ks', exists e, circuit_str (after c' ks') = Err e /\ (e = ValueError \/ e = IndexError).
Proof.
  intros S l init out ks c a p r x y H Hm Ha Hr Hx Hy Hxy Hbad.
  destruct a as [|a0 [|a1 a]]; try (simpl in Ha; lia).
  set (g := OCX (if (a0 <? a1)%Z then py_slice (c_dims c) a0 (a1 + 1) else py_slice (c_dims c) a1 (a0 + 1)) (a0 :: a1 :: a) p : op S).
  assert (Hi : issues c (CCX (a0 :: a1 :: a) p) g) by (apply (@is_cx S c (a0 :: a1 :: a) p a0 a1); [reflexivity|]; unfold py_get; cbn [length py_index]; unfold py_index;
    replace ((0 <=? 1) && (1 <? Z.of_nat (Datatypes.S (Datatypes.S (length a)))))%Z with true by (symmetry; apply andb_true_iff; rewrite Z.leb_le, Z.ltb_lt; lia); reflexivity).
  assert (Hn : 0 < nregs (QList l)) by (simpl; lia).
  destruct (accepts H Hn Hm Hi ltac:(discriminate)) as [c' E]. exists c'. split; [exact E|]. intros ks'.
  assert (H' : history (QList l) init out (ks ++ CCX (a0 :: a1 :: a) p :: ks') (after c' ks')).
  { assert (Es : step c (CCX (a0 :: a1 :: a) p) = c') by (unfold step; rewrite E; reflexivity).
    destruct H as [c0 [E0 Ec]]. exists c0. split; [exact E0|]. unfold after in *. rewrite fold_left_app, <- Ec. cbn [fold_left]. rewrite Es. reflexivity. }
  assert (Hne : l <> []) by (intros ->; simpl in Hr; lia).
  assert (T : exists e, trouble (length l) g = Some e).
  { unfold g. cbn [trouble]. destruct a as [|a2 a]; [|eexists; reflexivity]. destruct Hbad as [Hb|[z [Hz Hb]]]; [simpl in Hb; lia|].
    exists IndexError. destruct Hz as [->|[->|[]]]; rewrite Hb; [reflexivity | rewrite andb_false_r; reflexivity]. }
  destruct T as [e0 T].
  assert (G : In g (concat (layers_of (after c' ks')))).
  { destruct (history_inv H) as [l0 [ls I]].
    assert (Em : (0 <? nregs (QList l)) && existsb (@is_measure_all S) ks = false).
    { destruct (existsb _ ks) eqn:X; [|apply andb_false_r]. apply measured_in in X. contradiction. }
    rewrite Em in I. assert (Hk : CCX (S := S) (a0 :: a1 :: a) p <> CMeasureAll) by discriminate.
    destruct (inv_gate I Hk E) as [[[X|X] _]|[_ [_ [_ [g' [lo [hi [ls' [Hi' [Hrg [Had [I' _]]]]]]]]]]]];
      [discriminate | lia |].
    rewrite <- (issues_fun Hi Hi') in *. destruct (after_keep ks' I') as [m' [ls2 [I2 K]]].
    assert (K2 : In g (gate_ops ls2)).
    { apply K; [|reflexivity]. apply (added_ops Had).
      assert (Ho : occupies (nregs (QList l)) g <> []) by (apply (@occupies_in S _ g x y r); auto).
      rewrite (occupies_ranges _ Hrg) in Ho. destruct (Nat.ltb_spec (lowr (nregs (QList l)) lo) (highr (nregs (QList l)) lo hi)) as [Hlt|Hge]; [exact Hlt|].
      exfalso. apply Ho. replace (_ - _) with 0 by lia. reflexivity. }
    unfold layers_of. pose proof (i_list I2) as El. unfold layers in El. rewrite El. unfold gate_ops in K2. cbn [concat]. rewrite concat_app.
    apply in_or_app. right. apply in_or_app. left. exact K2. }
  destruct (first_some_in _ _ _ _ _ _ G T) as [e F]. exists e. pose proof (drawing_any H' Hne) as D. rewrite F in D. split; [exact D|].
  apply first_some_from in F as [o [_ Fo]]. destruct o; try discriminate. cbn [trouble] in Fo.
  destruct acting_on as [|u [|v [|w rest]]]; try (injection Fo as <-; auto; fail). destruct (_ && _); [discriminate|]. injection Fo as <-. auto.
Qed.

(** ** Concrete cases *)
Section Examples.
Open Scope Z_scope.
Let S := Zscalar.
Let after_calls (ks : list (call S)) : circuit S := after (forced (mk_circuit S (QList [2; 3]) None None)) ks.
Example ex_C98_history : forall ks, history (QList [2; 3]) None None ks (after_calls ks).
Proof. intros ks. eexists. split; [apply forced_ok; vm_compute; reflexivity | reflexivity]. Qed.

(** A cx with a register counted from the back is drawn; with three registers
    or a register too far, not. *)
Example ex_C98 :
  is_ok (circuit_str (after_calls [CX 0 None 1; CCX [-1; 0] 1; CX 1 None 1])) = true /\
  circuit_str (after_calls [CX 0 None 1; CCX [0; 1; 0] 1; CX 1 None 1]) = Err ValueError /\
  circuit_str (after_calls [CX 0 None 1; CCX [0; 2] 1; CCX [0; 1; 1] 1]) = Err IndexError /\
  first_some (trouble 2) (concat (layers_of (after_calls [CX 0 None 1; CCX [0; 2] 1; CCX [0; 1; 1] 1]))) = Some IndexError.
Proof. repeat split; vm_compute; reflexivity. Qed.
End Examples.

Print Assumptions C98_str_raises_at_the_first_bad_cx.
Print Assumptions C98_bad_cx_makes_every_later_drawing_raise.
