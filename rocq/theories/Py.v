(** * Py: the fragment of the Python runtime the model needs.

    Nothing here models a file of /repo: these are the Python (and list)
    primitives used by the modelled code.  Exceptions are values of [exn];
    a call that may raise returns [res]. *)
From Coq Require Export List Arith ZArith Lia Bool.
From Coq Require String DecimalString.
Export ListNotations.
Set Implicit Arguments.

(** Exceptions that the modelled code can raise. *)
Inductive exn : Type :=
| ValueError | IndexError | TypeError | AssertionError | AttributeError
| NotImplementedError | UnboundLocalError
| PlainException.  (** [raise Exception(...)] *)

Inductive res (A : Type) : Type :=
| Ok (a : A)
| Err (e : exn).
Arguments Ok {A} a.
Arguments Err {A} e.

Definition bind {A B} (r : res A) (f : A -> res B) : res B :=
  match r with Ok a => f a | Err e => Err e end.
Notation "x <- r ;; k" := (bind r (fun x => k))
  (at level 61, r at next level, right associativity).
Notation "' p <- r ;; k" := (bind r (fun p => k))
  (at level 61, p pattern, r at next level, right associativity).

Definition is_ok {A} (r : res A) : bool := match r with Ok _ => true | Err _ => false end.

(** [[f x for x in l]] where [f] may raise: left to right, first error wins. *)
Fixpoint mapM {A B} (f : A -> res B) (l : list A) : res (list B) :=
  match l with
  | [] => Ok []
  | x :: xs => y <- f x ;; ys <- mapM f xs ;; Ok (y :: ys)
  end.

(** Normalise a Python index against a sequence of length [n]:
    [0 <= i < n] is itself, [-n <= i < 0] counts from the end, anything
    else is an IndexError. *)
Definition py_index (n : nat) (i : Z) : option nat :=
  if ((0 <=? i) && (i <? Z.of_nat n))%Z then Some (Z.to_nat i)
  else if ((- Z.of_nat n <=? i) && (i <? 0))%Z then Some (Z.to_nat (i + Z.of_nat n))
  else None.

(** [l[i]] *)
Definition py_get {A} (l : list A) (i : Z) : res A :=
  match py_index (length l) i with
  | Some k => match nth_error l k with Some x => Ok x | None => Err IndexError end
  | None => Err IndexError
  end.

(** Replace position [k] (a no-op when [k] is out of range). *)
Fixpoint upd {A} (l : list A) (k : nat) (v : A) : list A :=
  match l, k with
  | [], _ => []
  | _ :: xs, O => v :: xs
  | x :: xs, S k' => x :: upd xs k' v
  end.

(** [l[i] = v] *)
Definition py_set {A} (l : list A) (i : Z) (v : A) : res (list A) :=
  match py_index (length l) i with
  | Some k => Ok (upd l k v)
  | None => Err IndexError
  end.

(** One bound of a slice [l[a:b]] on a sequence of length [n]. *)
Definition py_clip (n : nat) (a : Z) : nat :=
  if (a <? 0)%Z then Z.to_nat (Z.max 0 (a + Z.of_nat n))
  else Nat.min (Z.to_nat a) n.

(** [l[a:b]] *)
Definition py_slice {A} (l : list A) (a b : Z) : list A :=
  firstn (py_clip (length l) b - py_clip (length l) a) (skipn (py_clip (length l) a) l).

(** [range(lo, hi)] *)
Definition zrange (lo hi : Z) : list Z :=
  map (fun k => (lo + Z.of_nat k)%Z) (seq 0 (Z.to_nat (hi - lo))).

(** [min(l)], [max(l)]: ValueError on an empty sequence. *)
Definition py_min (l : list Z) : res Z :=
  match l with [] => Err ValueError | x :: xs => Ok (fold_left Z.min xs x) end.
Definition py_max (l : list Z) : res Z :=
  match l with [] => Err ValueError | x :: xs => Ok (fold_left Z.max xs x) end.

(** [x in l] for integers. *)
Definition zmem (x : Z) (l : list Z) : bool := existsb (Z.eqb x) l.

(** [n * [x]] (empty when [n <= 0]). *)
Definition zrepeat {A} (n : Z) (x : A) : list A := repeat x (Z.to_nat n).

(** [np.prod] / [np.product] on a list of naturals. *)
Definition prodn (l : list nat) : nat := fold_right Nat.mul 1 l.

(** [str(z)] for an integer. *)
Definition str_of_Z (z : Z) : String.string := DecimalString.NilZero.string_of_int (Z.to_int z).
