(** * RoundSpec: arithmetic that rounds.

    Numbers that stand for complex numbers, whose operations are correct up to
    a relative error [u]; backends that compute with them; and how much a gate
    can lengthen a vector.  Definitions only. *)
From Coq Require Import Reals.
From Verif Require Import Py Scalar Mat Utils Gates Circuit Spec Calls Complex BitSpec.
Set Implicit Arguments.
Local Open Scope R_scope.

Definition Cdist (x y : C) : R := Cabs (Cadd x (Copp y)).

Fixpoint rtotal {A} (f : A -> R) (l : list A) : R :=
  match l with [] => 0 | x :: l' => f x + rtotal f l' end.
Fixpoint ctotal {A} (f : A -> C) (l : list A) : C :=
  match l with [] => C0 | x :: l' => Cadd (f x) (ctotal f l') end.
Definition rprod (l : list R) : R := fold_right Rmult 1 l.

(** The relative error of [k] roundings. *)
Definition err (u : R) (k : nat) : R := (1 + u) ^ k - 1.

(** The numbers of [F] stand for complex numbers: [val].  One addition or
    multiplication is off by at most [u] relative to its exact result.  The
    routines for roots of unity and for 1/sqrt(d) are off by at most [e]
    roundings.  0 and 1 are exact among themselves. *)
Record rounded (F : scalar) (val : F -> C) (ord : nat -> list nat) (u : R) (e : nat) : Prop := {
  rd_u : 0 <= u;
  rd_0 : val s0 = C0;
  rd_1 : val s1 = C1;
  rd_eqb : forall x, seqb x s0 = true <-> val x = C0;
  rd_add : forall x y, Cdist (val (sadd x y)) (Cadd (val x) (val y)) <= u * Cabs (Cadd (val x) (val y));
  rd_mul : forall x y, Cdist (val (smul x y)) (Cmul (val x) (val y)) <= u * Cabs (Cmul (val x) (val y));
  rd_len : forall d, length (@sroots F d) = d;
  rd_roots : forall d k, (k < d)%nat ->
    Cdist (val (nth k (sroots d) s0)) (nth k (@sroots (Cscalar ord) d) C0) <= err u e;
  rd_isqrt : forall d, (0 < d)%nat -> Cdist (val (sisqrt d)) (/ sqrt (INR d), 0) <= err u e * / sqrt (INR d);
  rd_bits : bit_laws F }.

Section Backend.
Variable F : scalar.
Variable val : F -> C.
Variable u : R.
Variable B : backend F.

(** [ok]: the objects that count as matrices of the backend. *)
Variable ok : B -> Prop.

Definition rows (a : B) : nat := mr (b_toarray a).
Definition cols (a : B) : nat := mc (b_toarray a).
Definition entry (a : B) (i j : nat) : C := val (mget (b_toarray a) i j).

(** [a] is a matrix with [r] rows and [c] columns. *)
Definition sized (a : B) (r c : nat) : Prop := ok a /\ rows a = r /\ cols a = c.

(** A backend that rounds: one rounding per entry of a Kronecker product, and
    for a scalar product over [n] indices the usual bound, which holds for any
    order of the additions. *)
Record computes_rounded : Prop := {
  cr_matrix : forall m, sized (b_matrix m) (mr m) (mc m) /\
    forall i j, (i < mr m)%nat -> (j < mc m)%nat -> entry (b_matrix m) i j = val (mget m i j);
  cr_eye : forall n m, sized (b_eye n m) n m /\
    forall i j, (i < n)%nat -> (j < m)%nat -> entry (b_eye n m) i j = if Nat.eqb i j then C1 else C0;
  cr_trans : forall a r c, sized a r c -> sized (b_trans a) c r /\
    forall i j, (i < c)%nat -> (j < r)%nat -> entry (b_trans a) i j = entry a j i;
  cr_kron : forall a b r c r' c', sized a r c -> sized b r' c' -> sized (b_kron a b) (r * r') (c * c') /\
    forall i j, (i < r * r')%nat -> (j < c * c')%nat ->
      let exact := Cmul (entry a (i / r') (j / c')) (entry b (i mod r') (j mod c')) in
      Cdist (entry (b_kron a b) i j) exact <= u * Cabs exact;
  cr_dot : forall a b r n c, sized a r n -> sized b n c -> exists p, b_dot a b = Ok p /\ sized p r c /\
    forall i j, (i < r)%nat -> (j < c)%nat ->
      Cdist (entry p i j) (ctotal (fun k => Cmul (entry a i k) (entry b k j)) (seq 0 n))
      <= err u (n + 1) * rtotal (fun k => Cabs (entry a i k) * Cabs (entry b k j)) (seq 0 n) }.
End Backend.

(** [c] bounds the factor by which a row vector can get longer when it is
    multiplied by the matrix [m]. *)
Definition stretch {A} (l : list A) (m : A -> A -> C) (c : R) : Prop :=
  0 <= c /\ forall x : A -> C,
    rtotal (fun j => Cabs (ctotal (fun i => Cmul (x i) (m i j)) l) ^ 2) l <= c ^ 2 * rtotal (fun i => Cabs (x i) ^ 2) l.

(** The same for a gate.  A cx with control and target on one register sends two
    levels to one, so two numbers of the vector may be added. *)
Definition gain (ord : nat -> list nat) (dims : list nat) (g : gate (Cscalar ord)) (c : R) : Prop :=
  match g with
  | GX _ _ | GZ _ | GTof _ _ _ => c = 1
  | GCX a b _ => if (a =? b)%nat then c = sqrt 2 else c = 1
  | GH r => stretch (seq 0 (nth r dims 0%nat)) (had (Cscalar ord) (nth r dims 0%nat)) c
  | GU r m => stretch (seq 0 (nth r dims 0%nat)) m c
  | GSpan r k m => stretch (all_configs (span dims r k)) m c
  end.

(** A call of the user, read with the exact matrix [meant] in place of the
    array of rounded numbers. *)
Definition as_meant (F G : scalar) (meant : mat F -> mat G) (k : call F) : call G :=
  match k with
  | CH q d => CH q d
  | CX q d p => CX q d p
  | CZ q d => CZ q d
  | CCX a p => CCX a p
  | CTof c t p => CTof c t p
  | CGate m q d => CGate (meant m) q d
  | CMeasure q => CMeasure q
  | CMeasureAll => CMeasureAll
  end.

(** An array the user may hand over for the exact matrix [m]: every entry is
    off by at most [e] roundings, and its rows pass numpy's test in the
    arithmetic of the computer. *)
Definition stands_for (F : scalar) (val : F -> C) (u : R) (e : nat) (ord : nat -> list nat)
    (a : mat F) (m : mat (Cscalar ord)) : Prop :=
  mr m = mr a /\ mc m = mc a /\
  (forall i j, (i < mr a)%nat -> (j < mc a)%nat ->
     Cdist (val (mget a i j)) (mget m i j) <= err u e * Cabs (mget m i j)) /\
  orthonormal_rows F Nat.eqb (seq 0 (mr a)) (mget a).

(** The distance of two states. *)
Definition distance (dims : list nat) (psi phi : config -> C) : R :=
  sqrt (rtotal (fun s => Cdist (psi s) (phi s) ^ 2) (all_configs dims)).

(** The bound: [m] gates on registers [dims], growth factors [cs]. *)
Definition roundings (e : nat) (dims : list nat) : nat :=
  prodn dims + 1 + length dims * (2 * e + 2).
Definition bound (u : R) (e : nat) (dims : list nat) (m : nat) (cs : list R) : R :=
  sqrt (INR (prodn dims)) * rprod cs * ((1 + sqrt (INR (prodn dims)) * err u (roundings e dims)) ^ (m + 1) - 1).
