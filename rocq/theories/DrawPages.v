(** * DrawPages: how [draw(style='mpl')] spreads the layers over figures
    (src/qudiet/utility/circuit_draw.py). *)
From Coq Require Import String QArith Qround.
From Verif Require Import Py Scalar Mat Utils Gates Circuit Info Draw.
Set Implicit Arguments.
Local Notation length := List.length.
Local Open Scope Q_scope.

(** Python's [max] of two lengths. *)
Definition longer (a b : Q) : Q := if Qle_bool a b then b else a.

(** [max([0, ...])]: the lists of circuit_draw.py:127,211 start with a 0. *)
Definition widest (l : list Q) : Q := fold_left longer l 0.

Section Pages.
Variable S : scalar.

(** The width in inches of a text as matplotlib renders it
    ([t.get_window_extent()], divided by the resolution).  Positions are exact
    rationals here; they are floats in the code. *)
Variable text_width : string -> Q.

(** The width reported for a mark.  Models
    src/qudiet/utility/circuit_draw.py:28-30,49 (a text with a line),
    src/qudiet/utility/circuit_draw.py:52,63 ([(dpi/6)/dpi]),
    src/qudiet/utility/circuit_draw.py:89-92 (a text),
    src/qudiet/utility/circuit_draw.py:94-114 (a box). *)
Definition mark_width (m : mark) : Q :=
  match m with
  | MText _ t => text_width t
  | MLine _ _ _ => 0
  | MCnot _ _ => 1 # 6
  | MBox _ _ _ => 1
  end.

(** Models src/qudiet/utility/circuit_draw.py:210-229 [_draw_layer]. *)
Definition layer_width (l : list mark) : Q := widest (map mark_width l).

(** Models src/qudiet/utility/circuit_draw.py:125-171 [_draw_states]. *)
Definition states_width (labels : list string) : Q :=
  widest (map text_width ("MSB"%string :: labels ++ ["LSB"%string])).

(** One figure: its number, where its wires start, and the layers drawn in it
    with their positions.
    Models src/qudiet/utility/circuit_draw.py:244-249,260,270-277. *)
Record page : Type := { p_number : nat; p_wires : Q; p_layers : list (Q * list mark) }.

Definition put (p : page) (i : Q) (m : list mark) : page :=
  {| p_number := p_number p; p_wires := p_wires p; p_layers := p_layers p ++ [(i, m)] |}.

(** Models src/qudiet/utility/circuit_draw.py:265-278: the loop over the
    moments; [x] is the width of a figure, [i] the position of the next layer
    and [p] the figure being drawn. *)
Fixpoint pages_from (x i : Q) (p : page) (ms : list (list mark)) : list page :=
  match ms with
  | [] => [p]
  | m :: ms' =>
      let p' := put p i m in
      let i' := i + layer_width m + 1 in
      if Qle_bool (x - 1) (inject_Z (Qceiling i'))
      then p' :: pages_from x 2 {| p_number := p_number p + 1; p_wires := 1; p_layers := [] |} ms'
      else pages_from x i' p' ms'
  end.

(** Models src/qudiet/utility/circuit_draw.py:241.  (matplotlib refuses a
    figure whose width is not positive; that refusal is not modelled.) *)
Definition figure_width (bit : nat) (compress : Q) : Q := 15 + inject_Z (Z.of_nat bit) * compress.

(** Models src/qudiet/utility/circuit_draw.py:231-281 [draw_circuit_mpl] with
    its figures. *)
Definition draw_pages (c : circuit S) (compress : Q) : res (list page) :=
  '(bit, labels, marks) <- draw_circuit_mpl c ;;
  let start := inject_Z (Qceiling (states_width labels + 1)) in
  Ok (pages_from (figure_width bit compress) start
        {| p_number := 1; p_wires := start; p_layers := [] |} marks).
End Pages.
