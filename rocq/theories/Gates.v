(** * Gates: gate objects and their unitaries
    (src/qudiet/circuit_library, src/qudiet/core/init_states.py). *)
From Verif Require Import Py Scalar Mat Utils.
Set Implicit Arguments.

Section Gates.
Variable S : scalar.
Notation mat := (mat S).

(** [type(qreg) is int] or [type(qreg) is list], for registers and dims. *)
Inductive regs : Type := RInt (z : Z) | RList (l : list Z).

(** The objects a Moment holds. *)
Inductive op : Type :=
| OInit (dim state qreg : Z) (v : mat)          (* init_states.py:33-54 *)
| OI (qreg dims : Z)                            (* i.py:35-44 *)
| OH (qreg dims : Z)                            (* h.py:38-47 *)
| OX (qreg dims plus : Z)                       (* x.py:37-47 *)
| OZ (qreg dims : Z)                            (* z.py:36-45 *)
| OCX (qreg acting_on : list Z) (plus : Z)      (* cx.py:39-60 *)
| OTof (controls : list Z) (target : Z) (plus : Z)
       (dims acting_on : list Z) (u : mat)      (* toffoli_utility.py:79-84 *)
| OArb (qreg dims : regs) (u : mat)             (* circuit_library/__init__.py:39-51 *)
| OMeas (qreg : Z).                             (* measurement.py:32-34 *)

(** [scipy.linalg.circulant(c)]: the matrix with entry [c[(i - j) % n]]. *)
Definition circulant (c : list S) : mat :=
  let n := length c in
  mkmat n n (fun i j => nth ((i + n - j) mod n) c s0).

(** Models src/qudiet/core/init_states.py:43-51: validation, then
    [np.zeros((dim, 1))] with row [state] set to 1. *)
Definition init_state (dim state qreg : Z) : res op :=
  if ((dim <? state) || (dim <? 2))%Z%bool then Err ValueError
  else
    match py_index (Z.to_nat dim) state with
    | None => Err IndexError
    | Some k => Ok (OInit dim state qreg
                     (mkmat (Z.to_nat dim) 1 (fun i _ => if Nat.eqb i k then s1 else s0)))
    end.

(** Models src/qudiet/circuit_library/standard_gates/x.py:65-75. *)
Definition x_unitary (dims plus : Z) : res mat :=
  if (dims <? 0)%Z then Err ValueError  (* np.zeros of a negative shape *)
  else
    match py_index (Z.to_nat dims) plus with
    | None => Err IndexError
    | Some k => Ok (circulant (upd (repeat s0 (Z.to_nat dims)) k s1))
    end.

(** Models src/qudiet/circuit_library/standard_gates/h.py:66-84: [np.zeros] of
    [dims + 1] entries, of which the first is set; the last of the roots is
    deleted, so there has to be one. *)
Definition h_unitary (dims : Z) : res mat :=
  if (dims + 1 <? 0)%Z then Err ValueError
  else if (dims <=? 0)%Z then Err IndexError
  else
    let d := Z.to_nat dims in
    let usable := removelast (sroots d) in          (* np.delete(roots, len - 1) *)
    let builder := circulant usable in
    let first := repeat s1 (length usable) :: md builder in        (* np.vstack *)
    let unnorm := map (cons s1) first in                           (* np.c_ *)
    Ok (mat_of_rows S (length usable + 1) (map (map (smul (sisqrt d))) unnorm)).

(** Models src/qudiet/circuit_library/standard_gates/z.py:64-77:
    [np.diag(np.flipud(np.flipud(roots)))]; the polynomial is built as for h. *)
Definition z_unitary (dims : Z) : res mat :=
  if (dims + 1 <? 0)%Z then Err ValueError
  else if (dims + 1 =? 0)%Z then Err IndexError
  else
    let d := Z.to_nat dims in
    let roots := rev (rev (@sroots S d)) in
    Ok (mkmat (length roots) (length roots)
          (fun i j => if Nat.eqb i j then nth i roots s0 else s0)).

(** Models src/qudiet/circuit_library/standard_gates/cx.py:141-159 [update].
    [row] is row [i] of the identity.  A target row that is missing from the
    table would make [res[None] = 1] fill the whole row. *)
Definition cx_update (index : list (list nat)) (row : list S)
           (plus target : Z) (target_i : nat) : res (list S) :=
  match filter (fun k => seqb (nth k row s0) s1) (seq 0 (length row)) with
  | [] => Err IndexError
  | src_index :: _ =>
      let src := nth src_index index [] in
      let change_to := ((Z.of_nat (nth target_i src 0%nat) + plus) mod target)%Z in
      let trgt := upd src target_i (Z.to_nat change_to) in
      match get_index index trgt with
      | Some k => Ok (upd (repeat s0 (length row)) k s1)
      | None => Ok (repeat s1 (length row))
      end
  end.

(** Models src/qudiet/circuit_library/standard_gates/cx.py:85-139 [unitary] up
    to, and without, the final [backend.matrix(I).transpose()].  Lines 122-125
    ([_slice], [_from], [_to]) compute values that are never used and cannot
    raise when every dimension is positive; they are left out.  Each loop
    iteration reads and writes row [i] only, so the loop is a map over rows. *)
Definition cx_rows (qreg acting_on : list Z) (plus : Z) : res mat :=
  match acting_on with
  | [s; t] =>
      let si := if (s <? t)%Z then 0%Z else (s - t)%Z in
      let ti := if (s <? t)%Z then (t - s)%Z else 0%Z in
      source <- py_get qreg si ;;
      target <- py_get qreg ti ;;
      let nq := map Z.to_nat qreg in
      let dim := prodn nq in
      let index := ttg nq in
      rows <- mapM (fun '(i, x) =>
                let Ii := map (fun j => if Nat.eqb i j then s1 else s0) (seq 0 dim) in
                if (Z.of_nat (nth (Z.to_nat si) x 0%nat) =? source - 1)%Z
                then cx_update index Ii plus target (Z.to_nat ti)
                else Ok Ii)
              (combine (seq 0 (length index)) index) ;;
      Ok (mat_of_rows S dim rows)
  | _ => Err ValueError        (* unpacking [source_i, target_i] *)
  end.

(** Models src/qudiet/circuit_library/standard_gates/toffoli_utility.py:12-14. *)
Fixpoint generate_combinations (base_list : list nat) : list (list nat) :=
  match base_list with
  | [] => [[]]
  | b :: bs => flat_map (fun x => map (cons x) (generate_combinations bs)) (seq 0 b)
  end.

(** Models src/qudiet/circuit_library/standard_gates/toffoli_utility.py:16-77
    [toffoli_dm]; returns the matrix and the bounds [lb], [ub].  The worklist
    loop of lines 56-64 fills the dictionary [replacement_dict] entry by entry
    and lines 73-75 read it back with the row index as default; the model reads
    the same association directly.  [indexes.index(t)] raising ValueError is
    the [None] branch. *)
Definition toffoli_dm (c : list Z) (t plus : Z) (dims : list Z) : res (mat * Z * Z) :=
  lb <- py_min (c ++ [t]) ;;
  ub <- py_max (c ++ [t]) ;;
  span <- mapM (py_get dims) (zrange lb (ub + 1)) ;;
  let nspan := map Z.to_nat span in
  let max_cap := map (fun d => d - 1)%Z span in
  let size_exp := prodn nspan in
  let indexes := generate_combinations nspan in
  let recalc_c := map (fun _c => _c - lb)%Z c in
  dt <- py_get dims t ;;
  repl <- mapM (fun '(idx, x) =>
      if forallb (fun rc => (Z.of_nat (nth (Z.to_nat rc) x 0%nat)
                             =? nth (Z.to_nat rc) max_cap 0)%Z) recalc_c
      then let ti := Z.to_nat (t - lb) in
           let tgt := upd x ti (Z.to_nat ((Z.of_nat (nth ti x 0%nat) + plus) mod dt)) in
           match get_index indexes tgt with
           | Some k => Ok k
           | None => Err ValueError
           end
      else Ok idx) (combine (seq 0 size_exp) indexes) ;;
  let create_identity :=
    mkmat size_exp size_exp
          (fun row_idx j => if Nat.eqb (nth row_idx repl row_idx) j then s1 else s0) in
  Ok (dtrans create_identity, lb, ub).

(** Models src/qudiet/circuit_library/standard_gates/toffoli_utility.py:79-84
    [Toffoli.__init__]. *)
Definition mk_toffoli (c : list Z) (t plus : Z) (dims : list Z) : res op :=
  '(u, lb, ub) <- toffoli_dm c t plus dims ;;
  let acting_on := zrange lb (ub + 1) in
  ds <- mapM (py_get dims) acting_on ;;
  Ok (OTof c t plus ds acting_on u).

(** Models src/qudiet/circuit_library/__init__.py:69-94 [ArbitaryGate.unitary]
    up to [backend.matrix].  For a list of two dims line 85 compares the tuple
    [shape] with the list [dims]: never equal, so the assertion always fails. *)
Definition arb_unitary (dims : regs) (u : mat) : res mat :=
  if is_unitary u then
    match dims with
    | RInt d => if ((Z.of_nat (mr u) =? d) && (Z.of_nat (mc u) =? d))%Z%bool
                then Ok u else Err AssertionError
    | RList [d] => if ((Z.of_nat (mr u) =? d) && (Z.of_nat (mc u) =? d))%Z%bool
                   then Ok u else Err AssertionError
    | RList [_; _] => Err AssertionError
    | RList _ => Ok u
    end
  else Err PlainException.

(** [gate.unitary] for every class, through the gate's backend.
    i.py:63-68, h.py:84, x.py:73, z.py:77, cx.py:139, circuit_library:94,
    init_states.py:54,64-66.  [Measurement.unitary] is [None]
    (measurement.py:52-58); using it as a matrix fails. *)
Definition unitary (B : backend S) (o : op) : res B :=
  match o with
  | OInit _ _ _ v => Ok (b_matrix v)
  | OI _ d => Ok (b_eye (Z.to_nat d) (Z.to_nat d))
  | OH _ d => m <- h_unitary d ;; Ok (b_matrix m)
  | OX _ d p => m <- x_unitary d p ;; Ok (b_matrix m)
  | OZ _ d => m <- z_unitary d ;; Ok (b_matrix m)
  | OCX q a p => m <- cx_rows q a p ;; Ok (b_trans (b_matrix m))
  | OTof _ _ _ ds _ u => m <- arb_unitary (RList ds) u ;; Ok (b_matrix m)
  | OArb _ ds u => m <- arb_unitary ds u ;; Ok (b_matrix m)
  | OMeas _ => Err TypeError
  end.

End Gates.

Arguments OInit {S}.
Arguments OI {S}.
Arguments OH {S}.
Arguments OX {S}.
Arguments OZ {S}.
Arguments OCX {S}.
Arguments OTof {S}.
Arguments OArb {S}.
Arguments OMeas {S}.
