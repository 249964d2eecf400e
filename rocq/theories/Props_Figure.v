(** * Props_Figure: which circuits draw(style='mpl') can draw (C107). *)
From Coq Require Import List Arith ZArith Lia String Bool.
From Verif Require Import Py Scalar Mat Utils Gates Circuit Spec HistSpec History Errors BadGates InfoSpec Draw DrawFailSpec MplLib FigSpec FigLib ExLib DrawLib.
Import ListNotations.
Local Notation length := List.length.

(** ** C107: without a layer after the initial states there is no figure; else
    it fails exactly if some gate has no mark, and the first such gate, layer by
    layer, decides the exception. *)
Theorem C107_figure_raises_at_the_first_unmarked_gate :
  forall S l init out ks (c : circuit S), history (QList l) init out ks c ->
  if length (layers_of c) <? 2 then draw_circuit_mpl c = Err IndexError
  else match first_some (@unmarked S) (concat (layers_of c)) with
       | None => exists f, draw_circuit_mpl c = Ok f
       | Some e => draw_circuit_mpl c = Err e
       end.
Proof.
  intros S l init out ks c H. destruct (Nat.ltb_spec (length (layers_of c)) 2) as [A|A].
  - exact (no_layer_no_figure c A).
  - exact (figure_any H A).
Qed.

(** A cx call with three or more registers is accepted if it touches the line;
    from then on the circuit has no figure. *)
Theorem C107_cx_on_three_registers_spoils_every_later_figure :
  forall S l init out ks (c : circuit S) a p r x y,
  history (QList l) init out ks c -> ~ In CMeasureAll ks -> 3 <= length a ->
  r < length l -> In x a -> In y a -> (x <= Z.of_nat r <= y)%Z ->
  exists c', api c (CCX a p) = Ok (c', true) /\
    forall ks', exists e, draw_circuit_mpl (after c' ks') = Err e.
Proof.
  intros S l init out ks c a p r x y H Hm Ha Hr Hx Hy Hxy.
  destruct a as [|a0 [|a1 [|a2 a]]]; try (simpl in Ha; lia).
  assert (Hi : exists ds, issues c (CCX (a0 :: a1 :: a2 :: a) p) (OCX ds (a0 :: a1 :: a2 :: a) p)).
  { eexists. apply (@is_cx S c (a0 :: a1 :: a2 :: a) p a0 a1); [reflexivity|]. unfold py_get. rewrite py_index_in by (simpl length; lia). reflexivity. }
  destruct Hi as [ds Hi].
  assert (Hn : 0 < nregs (QList l)) by (simpl; lia).
  destruct (accepts H Hn Hm Hi ltac:(discriminate)) as [c' E]. exists c'. split; [exact E|]. intros ks'.
  assert (Es : step c (CCX (a0 :: a1 :: a2 :: a) p) = c') by (unfold step; rewrite E; reflexivity).
  assert (Ho : occupies (length l) (OCX ds (a0 :: a1 :: a2 :: a) p : op S) <> []) by (apply (@occupies_in S _ _ x y r); auto).
  pose proof (@unmarked_spoils S l init out ks c _ _ ValueError ks' H ltac:(intros ->; simpl in Hr; lia) Hm Hi Ho eq_refl) as [e D].
  exists e. unfold after in *. cbn [fold_left] in D. rewrite Es in D. exact D.
Qed.

(** ** Concrete cases *)
Section Examples.
Open Scope Z_scope.
Let S := Zscalar.
Let after_calls (ks : list (call S)) : circuit S := after (forced (mk_circuit S (QList [2; 3; 2]) None None)) ks.
Example ex_C107_history : forall ks, history (QList [2; 3; 2]) None None ks (after_calls ks).
Proof. intros ks. eexists. split; [apply forced_ok; vm_compute; reflexivity | reflexivity]. Qed.

(** A cx of registers 0 and 1 has a mark, one of registers 1 and 2 has none: the
    span has two entries and the drawing asks for the third.  A cx with three
    registers and a toffoli without controls fail in another way. *)
Example ex_C107 :
  draw_circuit_mpl (after_calls []) = Err IndexError /\
  is_ok (draw_circuit_mpl (after_calls [CCX [0; 1] 1; CTof [0] 1 1])) = true /\
  draw_circuit_mpl (after_calls [CX 0 None 1; CCX [1; 2] 1; CCX [0; 1; 2] 1]) = Err IndexError /\
  draw_circuit_mpl (after_calls [CX 0 None 1; CCX [0; 1; 2] 1; CCX [1; 2] 1]) = Err ValueError /\
  draw_circuit_mpl (after_calls [CTof [] 0 1]) = Err ValueError /\
  draw_circuit_mpl (after_calls [CTof [1] 2 1]) = Err IndexError.
Proof. repeat split; vm_compute; reflexivity. Qed.
End Examples.

Print Assumptions C107_figure_raises_at_the_first_unmarked_gate.
Print Assumptions C107_cx_on_three_registers_spoils_every_later_figure.
