(** * RaiseSpec: the exception run() raises, read off the layers.
    Definitions only; part of the specification. *)
From Verif Require Import Py Scalar Mat Utils Gates Circuit Spec HistSpec ShapeSpec.
Set Implicit Arguments.

(** What computing a matrix comes to: an exception, or a matrix of some size. *)
Inductive verdict : Type := Raises (e : exn) | Sized (rows cols : nat).

Section RaiseSpec.
Variable S : scalar.

Definition prodz (ds : list Z) : nat := fold_right (fun d n => Z.to_nat d * n) 1 ds.

(** The inner products of the rows are 1 and 0, up to the tolerance of
    np.isclose. *)
Definition orthonormal (u : mat S) : bool :=
  forallb (fun i => forallb (fun j =>
    sclose (if Nat.eqb i j then s1 else s0)
           (total S (fun k => smul (mget u i k) (sconj (mget u j k))) (seq 0 (mc u))))
    (seq 0 (mr u))) (seq 0 (mr u)).

Definition square_of (u : mat S) (d : Z) : verdict :=
  if ((Z.of_nat (mr u) =? d) && (Z.of_nat (mc u) =? d))%Z%bool then Sized (mr u) (mc u) else Raises AssertionError.

(** The smallest of some registers. *)
Definition lowest (r : Z) (l : list Z) : Z := fold_right Z.min r l.

(** One operation of a layer:
    - h and z need a dimension that is not negative: below -1 it is a
      ValueError, at -1 an IndexError;
    - x needs an increment between -d and d - 1 (IndexError);
    - cx needs two registers (ValueError) that are no further apart than the
      dimensions it got (IndexError);
    - toffoli raises Exception if the target is a control and is moved, and
      AssertionError if it spans two registers;
    - a matrix with rows that are not orthonormal is an Exception, and then the
      shape counts for one register (AssertionError); two registers are always
      an AssertionError;
    - a measurement has no matrix. *)
Definition verdict_of (o : op S) : verdict :=
  match o with
  | OInit _ _ _ v => Sized (mr v) (mc v)
  | OI _ d => Sized (Z.to_nat d) (Z.to_nat d)
  | OH _ d | OZ _ d =>
      if (d <? -1)%Z then Raises ValueError
      else if (d =? -1)%Z then Raises IndexError
      else Sized (Z.to_nat d) (Z.to_nat d)
  | OX _ d p =>
      if (d <? 0)%Z then Raises ValueError
      else if ((- d <=? p) && (p <? d))%Z%bool then Sized (Z.to_nat d) (Z.to_nat d)
      else Raises IndexError
  | OCX ds [s; t] _ =>
      if (Z.abs (s - t) <? Z.of_nat (length ds))%Z then Sized (prodz ds) (prodz ds)
      else Raises IndexError
  | OCX _ _ _ => Raises ValueError
  | OTof cs t p ds _ _ =>
      let d := nth (Z.to_nat (t - lowest t cs)) ds 0%Z in
      if (existsb (Z.eqb t) cs && negb (p mod d =? 0)%Z)%bool then Raises PlainException
      else if Nat.eqb (length ds) 2 then Raises AssertionError
      else Sized (prodz ds) (prodz ds)
  | OArb _ ds u =>
      if orthonormal u then
        match ds with
        | RInt d | RList [d] => square_of u d
        | RList [_; _] => Raises AssertionError
        | RList _ => Sized (mr u) (mc u)
        end
      else Raises PlainException
  | OMeas _ => Raises TypeError
  end.

(** A layer: the first exception from left to right, or the product of the
    sizes. *)
Fixpoint in_order (vs : list verdict) : verdict :=
  match vs with
  | [] => Sized 1 1
  | Raises e :: _ => Raises e
  | Sized r c :: vs' =>
      match in_order vs' with
      | Raises e => Raises e
      | Sized r' c' => Sized (r * r') (c * c')
      end
  end.
Definition layer_verdict (l : list (op S)) : verdict := in_order (map verdict_of l).

(** The layers are computed and multiplied starting from the last one: the
    first layer met that raises decides, unless its rows already do not match
    the columns of the layer after it (ValueError). *)
Fixpoint failing (need : option nat) (ls : list (list (op S))) : option exn :=
  match ls with
  | [] => None
  | l :: ls' =>
      match layer_verdict l with
      | Raises e => Some e
      | Sized r c =>
          match need with
          | Some n => if Nat.eqb n r then failing (Some c) ls' else Some ValueError
          | None => failing (Some c) ls'
          end
      end
  end.

Definition rows_of (v : verdict) : nat := match v with Raises _ => 0 | Sized r _ => r end.

Definition raises (o : op S) : option exn :=
  match verdict_of o with Raises e => Some e | Sized _ _ => None end.

(** Calls for gates of the size of their registers, whatever else may be wrong
    with them: dims arguments are absent, not positive, or the dimension;
    toffoli has no negative register; matrices for three or more registers are
    square and of the size of the registers. *)
Definition right_size (dims : list nat) (k : call S) : Prop :=
  match k with
  | CH r dm | CX r dm _ | CZ r dm | CGate _ (RInt r) dm =>
      forall d, dm = Some d -> (0 <= r < Z.of_nat (length dims))%Z -> (d <= 0 \/ Z.of_nat (nth (Z.to_nat r) dims O) <= d)%Z
  | CCX _ _ | CMeasure _ => True
  | CTof cs t _ => forall r, In r (t :: cs) -> (0 <= r)%Z
  | CGate u (RList l) dm =>
      (dm = None \/ dm = Some 0%Z) /\ (3 <= length l -> mr u = room dims l /\ mc u = room dims l)
  | CMeasureAll => False
  end.
End RaiseSpec.
