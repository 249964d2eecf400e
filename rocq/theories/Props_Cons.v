(** * Props_Cons: other kinds of arguments of the constructor (C127). *)
From Verif Require Import Py Scalar Mat Utils Gates Circuit ConsArgs.
Set Implicit Arguments.

(** The levels an argument lists. *)
Definition levels (a : init_arg) : list Z :=
  match a with
  | INone | IInt _ => []
  | IList l | ITuple l => l
  | IArray x l => x :: l
  end.

Lemma pad_enough : forall n l, (n <= Z.of_nat (length l))%Z -> pad_init n l = l.
Proof. intros n l H. unfold pad_init. rewrite (proj2 (Z.ltb_ge _ _) H). reflexivity. Qed.

Lemma pad_zero : forall n, (1 <= n)%Z -> pad_init n [0%Z] = pad_init n [].
Proof.
  intros n H. unfold pad_init. cbn [length app]. change (Z.of_nat 1) with 1%Z. change (Z.of_nat 0) with 0%Z.
  rewrite (proj2 (Z.ltb_lt 0 n)) by lia. unfold zrepeat. replace (Z.to_nat (n - 0)) with (Datatypes.S (Z.to_nat (n - 1))) by lia. cbn [repeat].
  destruct (1 <? n)%Z eqn:E; [reflexivity|]. apply Z.ltb_ge in E. replace (n - 1)%Z with 0%Z by lia. reflexivity.
Qed.

(** Lists: as always. *)
Theorem C127_lists :
  forall S q l out, construct S (Plain q) (IList l) out = mk_circuit S q (Some l) out /\
  construct S (Plain q) INone out = mk_circuit S q None out.
Proof. intros S q [|x l] out; split; reflexivity. Qed.

(** Tuples must name the levels of all registers, or be empty. *)
Theorem C127_tuples :
  forall S L l out,
  (l = [] \/ length L <= length l -> construct S (Plain (QList L)) (ITuple l) out = mk_circuit S (QList L) (Some l) out) /\
  (l <> [] -> length l < length L -> construct S (Plain (QList L)) (ITuple l) out = Err AttributeError).
Proof.
  intros S L l out. split.
  - intros [->|H]; [reflexivity|]. destruct l as [|x l]; [reflexivity|]. unfold construct, mk_circuit, states_of, filled. cbn [bind reg_layout].
    rewrite pad_enough by lia. destruct (Z.of_nat (length (x :: l)) <? Z.of_nat (length L))%Z eqn:E; [apply Z.ltb_lt in E; lia|reflexivity].
  - intros H H0. destruct l as [|x l]; [congruence|]. unfold construct, states_of, filled. cbn [bind reg_layout].
    rewrite (proj2 (Z.ltb_lt _ _)) by lia. reflexivity.
Qed.

(** Arrays are refused unless they have one entry; a nonzero one must be the
    level of the only register. *)
Theorem C127_arrays :
  forall S L x l out, L <> [] ->
  (l <> [] -> construct S (Plain (QList L)) (IArray x l) out = Err ValueError) /\
  (x = 0%Z \/ length L = 1 -> construct S (Plain (QList L)) (IArray x []) out = mk_circuit S (QList L) (Some [x]) out) /\
  (x <> 0%Z -> 1 < length L -> construct S (Plain (QList L)) (IArray x []) out = Err AttributeError).
Proof.
  intros S L x l out HL. split; [|split].
  - intros H. destruct l; [congruence|reflexivity].
  - intros H. unfold construct, mk_circuit, states_of. cbn [bind reg_layout]. destruct (x =? 0)%Z eqn:E.
    + apply Z.eqb_eq in E. subst x. unfold filled. cbn [bind]. rewrite pad_zero; [reflexivity|]. destruct L; [congruence|cbn [length]; lia].
    + apply Z.eqb_neq in E. destruct H as [H|H]; [congruence|]. rewrite H. reflexivity.
  - intros H H0. unfold construct, states_of. rewrite (proj2 (Z.eqb_neq _ _) H). cbn [bind reg_layout filled length].
    rewrite (proj2 (Z.ltb_lt _ _)) by lia. reflexivity.
Qed.

(** An int: 0 counts as nothing given. *)
Theorem C127_ints :
  forall S L z out,
  construct S (Plain (QList L)) (IInt z) out = if (z =? 0)%Z then mk_circuit S (QList L) None out else Err TypeError.
Proof. intros S L z out. unfold construct, states_of. destruct (z =? 0)%Z; reflexivity. Qed.

(** No kind of argument gives a circuit with other levels than it lists. *)
Theorem C127_never_other_levels :
  forall S q a out c, (forall n d, q = QTuple [n; d] -> 1 <= n)%Z -> (forall L, q = QList L -> L <> []) ->
  (forall l, q = QTuple l -> length l = 2) ->
  construct S (Plain q) a out = Ok c -> mk_circuit S q (Some (levels a)) out = Ok c.
Proof.
  intros S q a out c Ht Hl H2 H.
  assert (Hn : forall n dims, reg_layout q = Ok (n, dims) -> (1 <= n)%Z).
  { intros n dims E. destruct q as [l|l].
    - specialize (H2 l eq_refl). destruct l as [|n' [|d [|? ?]]]; try discriminate. cbn in E. injection E as <- _. exact (Ht _ _ eq_refl).
    - cbn in E. injection E as <- _. specialize (Hl l eq_refl). destruct l; [congruence|cbn [length]; lia]. }
  unfold construct in H. unfold mk_circuit.
  destruct (states_of a) as [s|e] eqn:Es; [|discriminate]. cbn [bind] in H.
  destruct (reg_layout q) as [[n dims]|e] eqn:El; [|discriminate]. cbn [bind] in *. specialize (Hn _ _ eq_refl).
  destruct (filled n s) as [st|e] eqn:Ef; [|discriminate]. cbn [bind] in H.
  replace (pad_init n (levels a)) with st; [exact H|]. clear H.
  assert (F : forall l, filled n (Fixed l) = Ok st -> st = pad_init n l).
  { intros l. unfold filled. destruct (_ <? _)%Z eqn:E; [discriminate|]. apply Z.ltb_ge in E. intros I. injection I as <-. symmetry. apply pad_enough. exact E. }
  destruct a as [|l|l|x l|z]; cbn [levels].
  - injection Es as <-. injection Ef as <-. reflexivity.
  - destruct l; injection Es as <-; injection Ef as <-; reflexivity.
  - destruct l; injection Es as <-; [injection Ef as <-; reflexivity|]. apply F. exact Ef.
  - destruct l; [|discriminate]. cbn [states_of] in Es. destruct (x =? 0)%Z eqn:E; injection Es as <-.
    + apply Z.eqb_eq in E. subst x. injection Ef as <-. symmetry. apply pad_zero. exact Hn.
    + apply F. exact Ef.
  - cbn [states_of] in Es. destruct (z =? 0)%Z; injection Es as <-; [injection Ef as <-; reflexivity|discriminate].
Qed.

(** Registers in anything but a list or a tuple. *)
Theorem C127_registers :
  forall S a out, construct S Foreign a out = Err ValueError /\
  ((forall x y l, a <> IArray x (y :: l)) -> construct S Subclass a out = Err AttributeError).
Proof.
  intros S a out. split; [reflexivity|]. intros H.
  destruct a as [|[|? ?]|[|? ?]|x [|y l]|z]; try reflexivity. destruct (H x y l eq_refl).
Qed.

(** ** Concrete cases *)
Section Examples.
Let S := Zscalar.
Let starts (q : reg_arg) (a : init_arg) : res (list Z) := c <- construct S q a None ;; Ok (c_init c).

Example ex_C127 :
  starts (Plain (QList [2; 3]%Z)) (ITuple [1; 2]%Z) = Ok [1; 2]%Z /\
  starts (Plain (QList [2; 3]%Z)) (ITuple [1]%Z) = Err AttributeError /\
  starts (Plain (QList [2; 3]%Z)) (IList [1]%Z) = Ok [1; 0]%Z /\
  starts (Plain (QList [2; 3]%Z)) (IArray 1 [2]%Z) = Err ValueError /\
  starts (Plain (QList [2; 3]%Z)) (IArray 1 []) = Err AttributeError /\
  starts (Plain (QList [2; 3]%Z)) (IArray 0 []) = Ok [0; 0]%Z /\
  starts (Plain (QList [3]%Z)) (IArray 2 []) = Ok [2]%Z /\
  starts (Plain (QTuple [2; 3]%Z)) (ITuple [1; 2]%Z) = Ok [1; 2]%Z /\
  starts (Plain (QList [2; 3]%Z)) (IInt 1) = Err TypeError /\
  starts (Plain (QList [2; 3]%Z)) (IInt 0) = Ok [0; 0]%Z /\
  starts Subclass INone = Err AttributeError /\ starts Foreign INone = Err ValueError.
Proof. repeat split; vm_compute; reflexivity. Qed.
End Examples.

Print Assumptions C127_lists.
Print Assumptions C127_tuples.
Print Assumptions C127_arrays.
Print Assumptions C127_ints.
Print Assumptions C127_never_other_levels.
Print Assumptions C127_registers.
