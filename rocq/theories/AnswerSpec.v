(** * AnswerSpec: what every call answers, from the dimensions of the registers
    and whether measure_all() has been called.  Part of the specification. *)
From Verif Require Import Py Scalar Mat Utils Gates Circuit.
Set Implicit Arguments.

(** Python's index: -1 is the last register. *)
Definition indexable (n : nat) (r : Z) : bool := (- Z.of_nat n <=? r)%Z && (r <? Z.of_nat n)%Z.
Definition dim_at (dims : list nat) (r : Z) : Z :=
  Z.of_nat (nth (Z.to_nat (if r <? 0 then r + Z.of_nat (length dims) else r)%Z) dims 0).

(** One register with the [dims] argument. *)
Definition check_one (dims : list nat) (dm : option Z) (r : Z) : res unit :=
  if (Z.of_nat (length dims) <=? r)%Z then Err ValueError
  else if negb (indexable (length dims) r) then Err IndexError
  else match dm with
       | Some d => if (dim_at dims r <? d)%Z then Err ValueError else Ok tt
       | None => Ok tt
       end.

Fixpoint first_error (l : list (res unit)) : res unit :=
  match l with
  | [] => Ok tt
  | Ok _ :: l' => first_error l'
  | Err e :: _ => Err e
  end.

(** A list of registers: with a dimension they are checked one by one, without
    one too large registers come first. *)
Definition check_list (dims : list nat) (dm : option Z) (l : list Z) : res unit :=
  match l with
  | [] => Err ValueError
  | _ => match dm with
         | None | Some 0%Z =>
             if existsb (fun r => Z.of_nat (length dims) <=? r)%Z l then Err ValueError
             else if forallb (indexable (length dims)) l then Ok tt else Err IndexError
         | Some _ => first_error (map (check_one dims dm) l)
         end
  end.

(** The answer to the call: an exception, or the returned truth value. *)
Definition reply {S} (dims : list nat) (measured : bool) (k : call S) : res bool :=
  let gate (r : res unit) := _ <- r ;; Ok (negb measured) in
  match k with
  | CH r dm | CX r dm _ | CZ r dm | CGate _ (RInt r) dm => gate (check_one dims dm r)
  | CGate _ (RList l) dm => gate (check_list dims dm l)
  | CCX l _ => if length l <? 2 then Err IndexError else Ok (negb measured)
  | CTof cs t _ => if forallb (indexable (length dims)) (t :: cs) then Ok true else Err IndexError
  | CMeasure _ => Err NotImplementedError
  | CMeasureAll => Ok true
  end.
