(** * Props_Pages: the figures of the matplotlib drawing (C102). *)
From Coq Require Import String QArith Qround Lqa.
From Verif Require Import Py Scalar Mat Utils Gates Circuit Spec Calls HistSpec Info InfoSpec Draw DrawPages PagesSpec PagesThm ExLib.
Local Notation length := List.length.
Local Open Scope Q_scope.

(** Where the first figure starts its wires and its layers. *)
Definition first_position (tw : string -> Q) (labels : list string) : Q :=
  inject_Z (Qceiling (states_width tw labels + 1)).

(** Whatever the texts' widths, every layer is drawn once, in order, without
    overlap, on figures that are left when they are full. *)
Theorem C102_every_layer_is_in_one_figure :
  forall S tw (c : circuit S) compress bit labels marks,
  draw_circuit_mpl c = Ok (bit, labels, marks) ->
  exists ps, draw_pages tw c compress = Ok ps /\
  laid_out (layer_width tw) (15 + inject_Z (Z.of_nat bit) * compress) (first_position tw labels) marks
           (map (fun p => (p_number p, p_layers p)) ps).
Proof.
  intros S tw c compress bit labels marks H. unfold draw_pages. rewrite H. cbn [bind]. eexists. split; [reflexivity|].
  apply laid_out_of.
  apply (@pages_laid tw marks (figure_width bit compress) (first_position tw labels) (first_position tw labels)
           {| p_number := 1; p_wires := first_position tw labels; p_layers := [] |});
    cbn; [reflexivity | exact I | intros q m r E; discriminate | congruence].
Qed.

(** The figures fail to be drawn exactly when a mark does. *)
Theorem C102_fails_as_the_marks_do :
  forall S tw (c : circuit S) compress e, draw_pages tw c compress = Err e <-> draw_circuit_mpl c = Err e.
Proof.
  intros S tw c compress e. unfold draw_pages. destruct (draw_circuit_mpl c) as [[[bit labels] marks]|e']; cbn [bind].
  - split; discriminate.
  - split; intros E; injection E as ->; reflexivity.
Qed.

(** What the documentation of [draw] says about [compress]. *)
Theorem C102_more_compress_no_more_figures :
  forall S tw (c : circuit S) z z' ps ps', z <= z' ->
  draw_pages tw c z = Ok ps -> draw_pages tw c z' = Ok ps' -> (length ps' <= length ps)%nat.
Proof.
  intros S tw c z z' ps ps' Hz. unfold draw_pages.
  destruct (draw_circuit_mpl c) as [[[bit labels] marks]|e']; cbn [bind]; [|discriminate].
  intros E E'. injection E as <-. injection E' as <-. rewrite !pages_breaks.
  assert (X : figure_width bit z <= figure_width bit z').
  { unfold figure_width. assert (B : 0 <= inject_Z (Z.of_nat bit)) by (change 0 with (inject_Z 0); rewrite <- Zle_Qle; lia).
    assert (M : inject_Z (Z.of_nat bit) * z <= inject_Z (Z.of_nat bit) * z').
    { rewrite (Qmult_comm _ z), (Qmult_comm _ z'). apply Qmult_le_compat_r; assumption. }
    lra. }
  apply (breaks_mono tw X marks); [|apply Qle_refl].
  pose proof (widest_nonneg (map tw ("MSB"%string :: labels ++ ["LSB"%string]))) as W. unfold states_width.
  eapply Qle_trans; [|apply Qle_ceiling]. lra.
Qed.

(** Nothing sticks out of a figure when no layer is wider than two inches, the
    labels leave two inches and [compress] is whole. *)
Theorem C102_narrow_layers_are_not_cut :
  forall S tw (c : circuit S) (z : Z) ps bit labels marks,
  draw_circuit_mpl c = Ok (bit, labels, marks) -> draw_pages tw c (inject_Z z) = Ok ps ->
  let x := inject_Z (15 + Z.of_nat bit * z) in
  4 <= x -> first_position tw labels <= x - 2 ->
  (forall m, In m marks -> layer_width tw m <= 2) ->
  forall p q m, In p ps -> In (q, m) (p_layers p) -> q + layer_width tw m <= x.
Proof.
  intros S tw c z ps bit labels marks H HP x Hx Hs Hw p q m Hp Hq.
  destruct (C102_every_layer_is_in_one_figure S tw c (inject_Z z) bit labels marks H) as [ps' [E L]].
  rewrite HP in E. injection E as <-.
  assert (EX : 15 + inject_Z (Z.of_nat bit) * inject_Z z == x) by (unfold x; rewrite inject_Z_plus, inject_Z_mult; reflexivity).
  assert (W : layer_width tw m <= 2).
  { apply Hw. rewrite <- (lo_all _ _ _ _ _ L), map_map. apply in_concat. exists (map snd (p_layers p)).
    split; [apply in_map_iff; exists p; auto | apply in_map_iff; exists (q, m); auto]. }
  destruct (In_nth_error _ _ Hp) as [k Hk].
  assert (Hk' : nth_error (map (fun p => (p_number p, p_layers p)) ps) k = Some (p_number p, p_layers p))
    by (apply (map_nth_error (fun p => (p_number p, p_layers p))); exact Hk).
  assert (B : q <= x - 2).
  { pose proof (lo_spaced _ _ _ _ _ L k _ Hk') as SP. cbn [snd] in SP.
    destruct (p_layers p) as [|[q0 m0] l] eqn:El; [contradiction|]. destruct Hq as [Hq|Hq].
    - injection Hq as -> ->. destruct SP as [SP _]. rewrite SP. destruct k; cbn [origin]; [exact Hs | lra].
    - apply not_over.
      assert (N : ~ over (15 + inject_Z (Z.of_nat bit) * inject_Z z) q).
      { apply (lo_inside _ _ _ _ _ L (p_number p, p_layers p) q0 m0 l) with (m' := m).
        - apply (nth_error_In _ k). rewrite El. exact Hk'.
        - exact El.
        - exact Hq. }
      intros O. apply N. unfold over in *. fold x in O. lra. }
  lra.
Qed.

(** A full figure after the first holds more than [(x - 4) / (W + 1)] layers,
    [W] being the width of the widest. *)
Theorem C102_full_figures_are_used :
  forall R tw (c : circuit R) compress ps bit labels marks W,
  draw_circuit_mpl c = Ok (bit, labels, marks) -> draw_pages tw c compress = Ok ps ->
  (forall m, In m marks -> layer_width tw m <= W) ->
  forall k p, nth_error ps (S k) = Some p -> (S (S k) < length ps)%nat ->
  15 + inject_Z (Z.of_nat bit) * compress - 4 < inject_Z (Z.of_nat (length (p_layers p))) * (W + 1).
Proof.
  intros R tw c compress ps bit labels marks W H HP Hw k p Hk Hl.
  destruct (C102_every_layer_is_in_one_figure R tw c compress bit labels marks H) as [ps' [E L]].
  rewrite HP in E. injection E as <-.
  assert (Hk' : nth_error (map (fun p => (p_number p, p_layers p)) ps) (Datatypes.S k) = Some (p_number p, p_layers p))
    by (apply (map_nth_error (fun p => (p_number p, p_layers p))); exact Hk).
  destruct (lo_full _ _ _ _ _ L _ _ Hk') as [_ O]; [rewrite map_length; exact Hl|]. cbn [origin snd] in O.
  apply over_past in O.
  assert (B : next_free (layer_width tw) 2 (p_layers p) <= 2 + inject_Z (Z.of_nat (length (p_layers p))) * (W + 1)).
  { apply next_bound. intros q m I. apply Hw. rewrite <- (lo_all _ _ _ _ _ L), map_map. apply in_concat. exists (map snd (p_layers p)).
    split; [apply in_map_iff; exists p; split; [reflexivity | apply (nth_error_In _ _ Hk)] | apply in_map_iff; exists (q, m); auto]. }
  lra.
Qed.

(** A layer is as wide as the widest of its texts, cnot signs (a sixth of an
    inch) and boxes (an inch); control lines take no room. *)
Theorem C102_the_widest_mark_gives_the_width :
  forall tw l, let w := layer_width tw l in
  0 <= w /\ (forall r t, In (MText r t) l -> tw t <= w) /\
  (forall c t, In (MCnot c t) l -> 1 # 6 <= w) /\ (forall lo hi rows, In (MBox lo hi rows) l -> 1 <= w) /\
  (w = 0 \/ (exists r t, In (MText r t) l /\ w = tw t) \/ ((exists c t, In (MCnot c t) l) /\ w = 1 # 6) \/
   ((exists lo hi rows, In (MBox lo hi rows) l) /\ w = 1)).
Proof.
  intros tw l w. unfold w, layer_width. split; [apply widest_nonneg|].
  assert (U : forall m, In m l -> mark_width tw m <= widest (map (mark_width tw) l)) by (intros m I; apply widest_ge, in_map, I).
  split; [|split; [|split]].
  - intros r t I. exact (U _ I).
  - intros c t I. exact (U _ I).
  - intros lo hi rows I. exact (U _ I).
  - destruct (proj2 (proj2 (widest_acc (map (mark_width tw) l) 0))) as [E|I]; [left; exact E|].
    apply in_map_iff in I as [[r t|lo hi d|c t|lo hi rows] [E I]]; cbn [mark_width] in E.
    + right; left. exists r, t. auto.
    + left. auto.
    + right; right; left. split; [exists c, t; exact I | auto].
    + right; right; right. split; [exists lo, hi, rows; exact I | auto].
Qed.

(** ** Concrete cases *)
Section Examples.
Let S := Zscalar.
Let new : circuit S := forced (mk_circuit S (QList [2]%Z) None None).
Let half : string -> Q := fun _ => 1 # 2.
Let wide : string -> Q := fun _ => 5.
Let sizes (r : res (list page)) : list (nat * nat) :=
  match r with Ok ps => map (fun p => (p_number p, length (p_layers p))) ps | Err _ => [] end.

(** Labels half an inch wide.  Six gates and a measurement fit in one figure;
    one gate more, and a second figure follows with nothing on it; one more,
    and it holds the measurement. *)
Example figures_ex :
  sizes (draw_pages half (after new (repeat (CH 0 None) 6 ++ [CMeasureAll])) 1) = [(1, 8)]%nat /\
  sizes (draw_pages half (after new (repeat (CH 0 None) 7 ++ [CMeasureAll])) 1) = [(1, 9); (2, 0)]%nat /\
  sizes (draw_pages half (after new (repeat (CH 0 None) 8 ++ [CMeasureAll])) 1) = [(1, 9); (2, 1)]%nat /\
  sizes (draw_pages half (after new (repeat (CH 0 None) 18 ++ [CMeasureAll])) 1) = [(1, 9); (2, 9); (3, 2)]%nat /\
  sizes (draw_pages half (after new (repeat (CH 0 None) 18 ++ [CMeasureAll])) 20) = [(1, 20)]%nat.
Proof. vm_compute. repeat split. Qed.

(** Labels five inches wide: the figure is 16 inches wide, and its third layer
    goes from 13 to 18. *)
Example cut_ex : exists p ps, draw_pages wide (after new (repeat (CH 0 None) 3)) 1 = Ok (p :: ps) /\
  map (fun '(q, m) => (Qred q, Qred (q + layer_width wide m))) (p_layers p) = [(6, 6); (7, 12); (13, 18)] /\
  map (fun p => length (p_layers p)) ps = [1%nat].
Proof. eexists. eexists. split; [vm_compute; reflexivity|]. vm_compute. auto. Qed.

(** The hypotheses of the theorem on narrow layers. *)
Example narrow_ex : exists (labels : list string) (marks : list (list mark)),
  draw_circuit_mpl (after new (repeat (CH 0 None) 8)) = Ok (1%nat, labels, marks) /\
  first_position half labels <= inject_Z (15 + 1 * 1) - 2 /\ (forall m, In m marks -> layer_width half m <= 2).
Proof.
  eexists. eexists. split; [vm_compute; reflexivity|]. split; [vm_compute; discriminate|].
  intros m I. cbn in I. repeat (destruct I as [<-|I]; [vm_compute; discriminate|]). contradiction.
Qed.

(** A layer with two texts half an inch wide, a cnot sign and a line; one with a
    box too; one with a line only. *)
Example room_ex :
  layer_width half [MText 0 "a"; MText 1 "b"; MCnot 2 3; MLine 0 1 [0%Z]] = 1 # 2 /\
  layer_width half [MText 0 "a"; MBox 1 2 [1; 2]%Z] = 1 /\ layer_width half [MLine 0 1 [0%Z]] = 0.
Proof. vm_compute. auto. Qed.
End Examples.

Print Assumptions C102_every_layer_is_in_one_figure.
Print Assumptions C102_fails_as_the_marks_do.
Print Assumptions C102_more_compress_no_more_figures.
Print Assumptions C102_narrow_layers_are_not_cut.
Print Assumptions C102_full_figures_are_used.
Print Assumptions C102_the_widest_mark_gives_the_width.
