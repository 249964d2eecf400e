(** * OverlapSpec: overlaps and marginals of reported outcomes.  Independent of
    the model, like Spec.v. *)
From Coq Require Import Reals.
From Verif Require Import Py Scalar Spec Complex ComplexSpec.
Set Implicit Arguments.

(** The inner product of two lists of outcomes: outcomes with the same levels
    are multiplied, the first one conjugated. *)
Definition overlap (S : scalar) (l1 l2 : list (config * S)) : S :=
  total S (fun '(s, a) => total S (fun '(t, b) => if config_eqb s t then smul (sconj a) b else s0) l2) l1.

(** The probability of the outcomes satisfying [P]. *)
Definition weight (P : config -> bool) (l : list (config * C)) : R :=
  fold_right Rplus 0%R (map (fun '(s, a) => if P s then prob a else 0%R) l).

(** Whether [P] holds depends on the levels of the registers [rs] only. *)
Definition reads (rs : list nat) (P : config -> bool) : Prop :=
  forall s t, (forall r, In r rs -> level s r = level t r) -> P s = P t.
