(** * Utils: src/qudiet/utils/linalg.py and src/qudiet/utils/numpy.py. *)
From Verif Require Import Py.
Set Implicit Arguments.

(** Models src/qudiet/utils/linalg.py:77-84, one column of the truth table:
    [np.repeat(range(q), rept)] tiled [times] times.
    ([np.prod([])] is the float 1.0; it is used as the integer 1.) *)
Definition ttg_col (qreg : list nat) (i q : nat) : list nat :=
  let rept := prodn (skipn (S i) qreg) in
  let times := prodn (firstn i qreg) in
  concat (repeat (flat_map (fun x => repeat x rept) (seq 0 q)) times).

(** Models src/qudiet/utils/linalg.py:37-88 [ttg]: the columns, transposed
    by [np.swapaxes(arr, 0, 1)].  [enumerate(qreg)] is [combine (seq ..) ..]. *)
Definition ttg (qreg : list nat) : list (list nat) :=
  let col_list := map (fun '(i, q) => ttg_col qreg i q) (combine (seq 0 (length qreg)) qreg) in
  map (fun r => map (fun col => nth r col 0) col_list) (seq 0 (length (hd [] col_list))).

Fixpoint list_eqb {A} (eqb : A -> A -> bool) (l m : list A) : bool :=
  match l, m with
  | [], [] => true
  | x :: l', y :: m' => eqb x y && list_eqb eqb l' m'
  | _, _ => false
  end.

(** Models src/qudiet/utils/numpy.py:29-32 [get_index]: position of the first
    row equal to [trgt]; [None] when there is none.  (Rows and target have the
    same length at every call site, so [np.all(v == trgt)] is list equality.) *)
Fixpoint get_index_from (k : nat) (src : list (list nat)) (trgt : list nat) : option nat :=
  match src with
  | [] => None
  | v :: vs => if list_eqb Nat.eqb v trgt then Some k else get_index_from (S k) vs trgt
  end.
Definition get_index := get_index_from 0.

(** Models the loop of src/qudiet/utils/numpy.py:50-57 on the reversed base:
    [while _repr: _base = base[len(digits)]; digits += [_repr % _base];
    _repr //= _base], then padding with zeros up to [len(base)].  Running off
    the end of [base] with a nonzero remainder is the IndexError of line 51.
    Result: least significant digit first. *)
Fixpoint nbase_digits (repr : Z) (rbase : list Z) : res (list Z) :=
  if (repr =? 0)%Z then Ok (repeat 0%Z (length rbase))
  else match rbase with
       | [] => Err IndexError
       | b :: bs => ds <- nbase_digits (repr / b) bs ;; Ok ((repr mod b)%Z :: ds)
       end.

(** Models src/qudiet/utils/numpy.py:47-58 [Nbase_to_bin] (bases are nonzero
    at every call site, so no ZeroDivisionError). *)
Definition Nbase_to_bin (repr : Z) (base : list Z) : res (list Z) :=
  ds <- nbase_digits repr (rev base) ;; Ok (rev ds).

(** numpy int64 arithmetic wraps modulo 2^64. *)
Definition wrap64 (z : Z) : Z := ((z + 2 ^ 63) mod 2 ^ 64 - 2 ^ 63)%Z.

(** [np.array(l).cumprod()] on int64. *)
Fixpoint cumprod_from (acc : Z) (l : list Z) : list Z :=
  match l with
  | [] => []
  | x :: xs => let a := wrap64 (acc * x) in a :: cumprod_from a xs
  end.

(** [np.sum(scale * target)] on int64. *)
Fixpoint dot64 (l m : list Z) : Z :=
  match l, m with
  | x :: l', y :: m' => wrap64 (wrap64 (x * y) + dot64 l' m')
  | _, _ => 0%Z
  end.

(** Models src/qudiet/utils/numpy.py:35-44 [bin_to_Nbase] with a list base. *)
Definition bin_to_Nbase (target base : list Z) : res Z :=
  if Nat.eqb (length target) (length base)
  then let scale := cumprod_from 1 (rev base) in
       let scale' := 1%Z :: removelast scale in
       Ok (dot64 (rev scale') target)
  else Err AssertionError.

(** Models src/qudiet/utils/numpy.py:36-37: an integer base. *)
Definition bin_to_Nbase_int (target : list Z) (base : Z) : res Z :=
  bin_to_Nbase target (repeat base (length target)).

(** Models src/qudiet/utils/linalg.py:29-30 [clip]. *)
Definition clip {A} (qreg : list A) (start stop : Z) : list A := py_slice qreg start (stop + 1).
