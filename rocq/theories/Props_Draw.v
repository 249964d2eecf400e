(** * Props_Draw: the text drawing and the figure (C42, C43). *)
From Coq Require Import String.
From Verif Require Import Py Scalar Mat Utils Gates Circuit Spec Calls HistSpec Info InfoSpec Draw DrawSpec DrawLib MplLib ExLib.
Local Notation length := List.length.

(** ** C42 *)
Theorem C42_drawing_shows_each_gate :
  forall S l init out ks (c : circuit S), history (QList l) init out ks c -> l <> [] ->
  Forall (drawable (length l)) ks ->
  circuit_str c = Ok (picture (existsb (@is_measure_all S) ks) c (length l)).
Proof. intros S l init out ks c H Hl HD. exact (drawing H Hl HD). Qed.

Theorem C42_lines_have_equal_length :
  forall S l init out ks (c : circuit S), history (QList l) init out ks c ->
  Forall (fun d => d <= 9)%Z l -> (forall i, init = Some i -> Forall (fun e => 0 <= e)%Z i) ->
  Forall (@short_plus S) ks ->
  forall r, r < length l ->
  String.length (line (existsb (@is_measure_all S) ks) c r) = 6 + 5 * (gate_layers c + 1).
Proof. intros S l init out ks c H Hd Hi HD r Hr. exact (aligned H Hd Hi HD Hr). Qed.

(** ** C43 *)
Theorem C43_cx_is_drawn_only_from_register_zero :
  forall S l init out ks (c : circuit S), history (QList l) init out ks c ->
  forall lay ds s t p, In lay (layers_of c) -> In (OCX ds [s; t] p) lay ->
  (0 <= s < Z.of_nat (length l))%Z -> (0 <= t < Z.of_nat (length l))%Z ->
  draw_gate (OCX ds [s; t] p : op S)
  = if ((s =? 0) || (t =? 0))%Z then Ok (mark_of l (OCX ds [s; t] p : op S)) else Err IndexError.
Proof. intros S l init out ks c H lay ds s t p Hl Ho Hs Ht. eapply cx_label; eauto. Qed.

(** The label of a toffoli gate carries the dimension of register
    [lowest + t] instead of that of its target [t]. *)
Theorem C43_toffoli_label_is_shifted :
  forall S l init out ks (c : circuit S), history (QList l) init out ks c ->
  forall lay cs t p ds acting u, In lay (layers_of c) -> In (OTof cs t p ds acting u) lay -> cs <> [] ->
  (forall r, In r (t :: cs) -> (0 <= r < Z.of_nat (length l))%Z) ->
  draw_gate (OTof cs t p ds acting u : op S)
  = if (highest (t :: cs) <? lowest (t :: cs) + t)%Z then Err IndexError
    else Ok [MText t (shift_sign p (nth (Z.to_nat (lowest (t :: cs) + t)) l 0%Z)); joined cs t].
Proof. intros S l init out ks c H lay cs t p ds acting u Hl Ho Hc Hr. eapply tof_label; eauto. Qed.

Theorem C43_cx_away_from_zero_spoils_the_figure :
  forall S l init out ks (c : circuit S) s t p rest, history (QList l) init out ks c -> ~ In CMeasureAll ks ->
  (0 < s < Z.of_nat (length l))%Z -> (0 < t < Z.of_nat (length l))%Z ->
  exists e, draw_circuit_mpl (after c (CCX [s; t] p :: rest)) = Err e.
Proof. intros S l init out ks c s t p rest H Hm Hs Ht. exact (cx_spoils p rest H Hm Hs Ht). Qed.

Theorem C43_figure_is_right_from_register_zero :
  forall S l init out ks (c : circuit S), history (QList l) init out ks c ->
  Forall (@from_zero S (length l)) ks -> 2 <= length (layers_of c) ->
  draw_circuit_mpl c
  = Ok (length l, wires (hd [] (layers_of c)), map (fun lay => concat (map (mark_of l) lay)) (layers_of c)).
Proof. intros S l init out ks c H HP Hl. exact (figure H HP Hl). Qed.

Theorem C43_empty_circuit_has_no_figure :
  forall S (c : circuit S), length (layers_of c) < 2 -> draw_circuit_mpl c = Err IndexError.
Proof. intros S c H. exact (no_layer_no_figure c H). Qed.

(** ** Concrete cases *)
Section Examples.
Open Scope Z_scope.
Let S := Zscalar.
Let new : circuit S := forced (mk_circuit S (QList [2; 3; 4]) (Some [1; 2]) None).
Let calls : list (call S) := [CX 0 None 1; CX 2 None 12; CTof [0; 2] 1 (-1); CCX [2; 0] 3; CH 7 None; CZ 1 None].

(** The picture, line by line. *)
Example picture_ex :
  circuit_str (after new calls) = Ok (String.concat newline
    ["(2)|1>-X(1)--*---X(3)----------";
     "(3)|2>-----X(-1)--|----Z-------";
     "(4)|0>X(12)--*----*------------";
     ""; "depth: 4, width: 3"]%string) /\
  history (QList [2; 3; 4]) (Some [1; 2]) None calls (after new calls) /\
  Forall (drawable 3) calls /\ Forall (@short_plus S) calls.
Proof.
  split; [vm_compute; reflexivity|]. split; [exists new; split; [apply forced_ok|]; reflexivity|]. split; repeat (apply Forall_cons; [cbn|]); try apply Forall_nil; try exact I; try lia.
  exists 2, 0. repeat split; lia.
Qed.

(** A dimension of two digits spoils the alignment. *)
Example unaligned_10 : let c := after (forced (mk_circuit S (QList [2; 10]) None None)) [CMeasureAll] in
  String.length (line true c 0) = 11%nat /\ String.length (line true c 1) = 12%nat.
Proof. vm_compute. auto. Qed.

(** Registers 1, 2, 3 with target 1: the label shows the dimension of register
    2; target 2: that of register 3; target 3: IndexError. *)
Example toffoli_figure : let new := forced (mk_circuit S (QList [2; 3; 4; 5]) None None) in
  let shown k := match draw_circuit_mpl (after new [k]) with Ok (_, _, ms) => Ok (hd (MCnot 0 0) (nth 1 ms [])) | Err e => Err e end in
  shown (CTof [2; 3] 1 1) = Ok (MText 1 "$X^{+1}_{4}$") /\
  shown (CTof [1; 3] 2 1) = Ok (MText 2 "$X^{+1}_{5}$") /\ shown (CTof [1; 2] 3 1) = Err IndexError /\
  shown (CCX [1; 2] 1) = Err IndexError /\ shown (CCX [0; 2] 1) = Ok (MText 2 "$X^{+1}_{4}$") /\
  shown (CTof [0; 2] 1 2) = Ok (MText 1 "$X^{+2}_{3}$") /\
  draw_circuit_mpl new = Err IndexError.
Proof. vm_compute. repeat split. Qed.

Example figure_from_zero : Forall (@from_zero S 3) calls /\ (2 <= length (layers_of (after new calls)))%nat /\
  exists x, draw_circuit_mpl (after new calls) = Ok x.
Proof.
  split; [|split; [vm_compute; lia | eexists; vm_compute; reflexivity]].
  repeat (apply Forall_cons; [cbn|]); try apply Forall_nil; try exact I.
  - split; [discriminate|]. split; [auto|]. intros r [<-|[<-|[<-|[]]]]; lia.
  - exists 2, 0. repeat split; lia.
Qed.
End Examples.

Print Assumptions C42_drawing_shows_each_gate.
Print Assumptions C42_lines_have_equal_length.
Print Assumptions C43_cx_is_drawn_only_from_register_zero.
Print Assumptions C43_toffoli_label_is_shifted.
Print Assumptions C43_cx_away_from_zero_spoils_the_figure.
Print Assumptions C43_figure_is_right_from_register_zero.
Print Assumptions C43_empty_circuit_has_no_figure.
