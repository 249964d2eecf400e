(** * PagesSpec: what a drawing spread over several figures should look like. *)
From Coq Require Import List QArith Qround.
From Verif Require Import Draw.
Import ListNotations.
Local Open Scope Q_scope.

Section PagesSpec.
(** The room a layer takes. *)
Variable width : list mark -> Q.

(** Layers set one after the other from position [i], an inch apart. *)
Fixpoint spaced (i : Q) (l : list (Q * list mark)) : Prop :=
  match l with
  | [] => True
  | (q, m) :: l' => q == i /\ spaced (i + width m + 1) l'
  end.

(** Where the next layer would go. *)
Fixpoint next_free (i : Q) (l : list (Q * list mark)) : Q :=
  match l with
  | [] => i
  | (_, m) :: l' => next_free (i + width m + 1) l'
  end.

(** A position at which no layer is started any more, in a figure [x] wide:
    rounded up, it is in the last inch. *)
Definition over (x i : Q) : Prop := x - 1 <= inject_Z (Qceiling i).

(** The layers [marks] on figures [x] wide, the first starting at [start] and
    the others at 2.  A figure is given by its number and its layers. *)
Definition origin (start : Q) (k : nat) : Q := match k with O => start | _ => 2 end.

Record laid_out (x start : Q) (marks : list (list mark)) (figs : list (nat * list (Q * list mark))) : Prop := {
  (* every layer is drawn once, in order *)
  lo_all : concat (map (fun f => map snd (snd f)) figs) = marks;
  (* the figures are numbered 1, 2, ... *)
  lo_numbers : map fst figs = seq 1 (length figs);
  (* the layers of a figure do not overlap *)
  lo_spaced : forall k f, nth_error figs k = Some f -> spaced (origin start k) (snd f);
  (* only the first layer of a figure may start in its last inch *)
  lo_inside : forall f q m l, In f figs -> snd f = (q, m) :: l ->
    forall q' m', In (q', m') l -> ~ over x q';
  (* a figure with a successor is full *)
  lo_full : forall k f, nth_error figs k = Some f -> (S k < length figs)%nat ->
    snd f <> [] /\ over x (next_free (origin start k) (snd f));
  (* the last figure is not *)
  lo_last : forall f, nth_error figs (length figs - 1) = Some f ->
    snd f = [] \/ ~ over x (next_free (origin start (length figs - 1)) (snd f))
}.
End PagesSpec.
