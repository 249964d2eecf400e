(** * Props_Construct: the constructor, the tuple form and the index
    conversions (C11, C17-C20). *)
From Coq Require Import String.
From Verif Require Import Py Scalar Mat Utils Gates Circuit Spec Calls HistSpec CallSpec
  Construct Convert Tuple NewCircuit ExLib Props_Run.
Local Notation length := List.length.

(** ** C11: labels and indices are inverse.  [all_below s base]: the digits
    [s] are valid in [base]. *)
Definition all_below (s base : list Z) : Prop := Forall2 (fun x b => 0 <= x < b)%Z s base.
Fixpoint product (l : list Z) : Z := match l with [] => 1 | b :: bs => b * product bs end%Z.

Lemma product_zprod : forall l, product l = zprod l.
Proof. reflexivity. Qed.

Theorem C11_digits_to_index_and_back :
  forall base s, all_below s base -> (product base <= 2 ^ 63)%Z ->
  exists v, bin_to_Nbase s base = Ok v /\ (0 <= v < product base)%Z /\ Nbase_to_bin v base = Ok s.
Proof. exact bin_nbase. Qed.

Theorem C11_index_to_digits_and_back :
  forall base v, (forall b, In b base -> 0 < b)%Z -> (product base <= 2 ^ 63)%Z -> (0 <= v < product base)%Z ->
  exists s, Nbase_to_bin v base = Ok s /\ all_below s base /\ bin_to_Nbase s base = Ok v.
Proof. exact nbase_bin. Qed.

Theorem C11_index_out_of_range_raises :
  forall base v, (forall b, In b base -> 0 < b)%Z -> (v < 0 \/ product base <= v)%Z ->
  Nbase_to_bin v base = Err IndexError.
Proof. exact nbase_big. Qed.

(** Digits of different number than the base are rejected. *)
Theorem C11_length_mismatch_raises :
  forall base s, length s <> length base -> bin_to_Nbase s base = Err AssertionError.
Proof. intros base s H. unfold bin_to_Nbase. apply Nat.eqb_neq in H. rewrite H. reflexivity. Qed.

(** An integer base: the value of the digits, most significant first. *)
Theorem C11_one_base_for_all_digits :
  forall b s, (forall x, In x s -> 0 <= x < b)%Z -> (b ^ Z.of_nat (length s) <= 2 ^ 63)%Z ->
  bin_to_Nbase_int s b = Ok (fold_left (fun v x => v * b + x) s 0)%Z.
Proof.
  intros b s Hs Hb. unfold bin_to_Nbase_int. rewrite bin_to_Nbase_exact by (rewrite repeat_length; reflexivity). f_equal.
  assert (Z1 : forall n, zprod (repeat b n) = (b ^ Z.of_nat n)%Z).
  { induction n as [|n IH]; [reflexivity|]. change (zprod (repeat b (Datatypes.S n))) with (b * zprod (repeat b n))%Z. rewrite IH, Nat2Z.inj_succ, Z.pow_succ_r by lia. reflexivity. }
  assert (F : forall s v, fold_left (fun v x => v * b + x)%Z s v = (v * b ^ Z.of_nat (length s) + value (repeat b (length s)) s)%Z).
  { induction s0 as [|x s0 IH]; intros v; [simpl; lia|]. cbn [fold_left length repeat value]. rewrite IH, Z1, Nat2Z.inj_succ, Z.pow_succ_r by lia. ring. }
  rewrite F. simpl (0 * _ + _)%Z. apply wrap_small.
  assert (V : (0 <= value (repeat b (length s)) s < b ^ Z.of_nat (length s))%Z); [|lia].
  clear -Hs Z1. induction s as [|x s IH]; [simpl; lia|]. cbn [length repeat value]. rewrite Z1, Nat2Z.inj_succ, Z.pow_succ_r by lia.
  pose proof (Hs x (or_introl eq_refl)). assert (I : forall y, In y s -> (0 <= y < b)%Z) by (intros y Hy; apply Hs; right; exact Hy). specialize (IH I). nia.
Qed.

(** ** C17 *)
Theorem C17_constructor_accepts_iff :
  forall S L lv out,
  (exists c, mk_circuit S (QList L) (Some lv) out = Ok c) <->
  length lv <= length L /\ forall i d, nth_error L i = Some d -> (2 <= d)%Z /\ (- d <= nth i lv 0 < d)%Z.
Proof. exact new_iff. Qed.

(** The first offending position decides the exception. *)
Theorem C17_constructor_exceptions :
  forall S L lv out e, mk_circuit S (QList L) (Some lv) out = Err e ->
  exists i,
    (forall j, j < i -> exists d, nth_error L j = Some d /\ (2 <= d)%Z /\ (- d <= nth j lv 0 < d)%Z) /\
    (i = length L /\ length L < length lv /\ e = IndexError \/
     exists d, nth_error L i = Some d /\
       ((d < 2 \/ d < nth i lv 0)%Z /\ e = ValueError \/
        (2 <= d /\ (nth i lv 0 = d \/ nth i lv 0 < - d))%Z /\ e = IndexError)).
Proof. exact new_first_error. Qed.

(** Missing levels are 0. *)
Theorem C17_missing_levels_are_zero :
  forall S L lv out k, length lv + k <= length L ->
  mk_circuit S (QList L) (Some (lv ++ repeat 0%Z k)) out = mk_circuit S (QList L) (Some lv) out /\
  mk_circuit S (QList L) None out = mk_circuit S (QList L) (Some []) out.
Proof. exact new_missing. Qed.

(** ** C18 *)
Theorem C18_negative_levels_wrap :
  forall S (B : backend S) L lv out ks, length lv <= length L ->
  (forall i d, nth_error L i = Some d -> (2 <= d)%Z /\ (- d <= nth i lv 0 < d)%Z) ->
  simulate B (QList L) (Some lv) out ks
  = simulate B (QList L) (Some (map (fun '(d, s) => if (s <? 0)%Z then (d + s)%Z else s) (combine L lv))) out ks.
Proof. exact simulate_negative. Qed.

(** ** C19: [init_arg_after q init] is the caller's list object after
    QuantumCircuit(q, init_states=init). *)
Theorem C19_init_states_list_is_extended :
  forall L lv, lv <> [] -> length lv < length L ->
  init_arg_after (QList L) lv = Ok (lv ++ repeat 0%Z (length L - length lv)).
Proof. exact init_extended. Qed.

Theorem C19_second_use_of_the_list_raises :
  forall S L L' lv out, lv <> [] -> length lv <= length L' -> length L' < length L ->
  (forall i d, nth_error L i = Some d -> (2 <= d)%Z /\ (- d <= nth i lv 0 < d)%Z) ->
  (forall i d, nth_error L' i = Some d -> (2 <= d)%Z /\ (- d <= nth i lv 0 < d)%Z) ->
  (exists c, mk_circuit S (QList L) (Some lv) out = Ok c) /\
  (exists c, mk_circuit S (QList L') (Some lv) out = Ok c) /\
  exists lv', init_arg_after (QList L) lv = Ok lv' /\ mk_circuit S (QList L') (Some lv') out = Err IndexError.
Proof. exact second_use. Qed.

(** An empty list is not touched. *)
Theorem C19_empty_list_is_not_touched :
  forall L, init_arg_after (QList L) [] = Ok [].
Proof. reflexivity. Qed.

(** ** C20: classical programs on QuantumCircuit((n, d)).  The outcome is
    right, but its label spells its index in base (n, d). *)
Theorem C20_tuple_circuits_mislabel :
  forall S (L : scalar_laws S) (B : backend S) n d ks prog, supported B -> 0 < n -> 2 <= d ->
  existsb (@is_toffoli S) ks = false -> asks (repeat d n) ks prog -> forallb (@is_classical S) prog = true ->
  let v := fold_left (fun a x => a * d + x) (moves (repeat d n) prog (repeat 0 n)) 0 in
  simulate B (QTuple [Z.of_nat n; Z.of_nat d]) (Some []) None ks
  = if v <? n * d
    then Ok [(LStr ("|" ++ str_of_Z (Z.of_nat (v / d)) ++ str_of_Z (Z.of_nat (v mod d)) ++ ">")%string, s1)]
    else Err IndexError.
Proof.
  intros S L B n d ks prog HB Hn Hd Hk [HF Hok] Hr. rewrite (supported_sim S L) by exact HB.
  exact (tuple_reversible L Hn Hd Hk HF Hok Hr).
Qed.

(** The measured empty circuit is labelled |00> whatever n. *)
Theorem C20_tuple_empty_circuit_is_00 :
  forall S (L : scalar_laws S) (B : backend S) n d, supported B -> 0 < n -> 2 <= d ->
  simulate B (QTuple [Z.of_nat n; Z.of_nat d]) (Some []) None [] = Ok [(LStr "|00>"%string, s1)].
Proof. intros S L B n d HB Hn Hd. rewrite (supported_sim S L) by exact HB. exact (tuple_empty L Hn Hd). Qed.

(** toffoli with a register other than 0 and 1 raises on every tuple circuit. *)
Theorem C20_tuple_toffoli_raises :
  forall S n d init out ks (c : circuit S) cs t p,
  history (QTuple [n; d]) init out ks c -> (exists r, In r (t :: cs) /\ (2 <= r)%Z) ->
  api c (CTof cs t p) = Err IndexError.
Proof. exact tuple_toffoli. Qed.

(** ** Concrete cases *)
Section Examples.
Open Scope Z_scope.
Let S := Zscalar.

Example ex_C11 : all_below [1; 0; 2] [2; 3; 4] /\ bin_to_Nbase [1; 0; 2] [2; 3; 4] = Ok 14 /\
  Nbase_to_bin 14 [2; 3; 4] = Ok [1; 0; 2] /\ product [2; 3; 4] = 24 /\
  Nbase_to_bin 24 [2; 3; 4] = Err IndexError /\ Nbase_to_bin (-1) [2; 3; 4] = Err IndexError.
Proof. split; [repeat constructor; lia|]. repeat split; vm_compute; reflexivity. Qed.
Example ex_C11_one_base : bin_to_Nbase_int [1; 0; 1; 1] 2 = Ok 11 /\ bin_to_Nbase_int [2; 0; 1] 3 = Ok 19.
Proof. split; vm_compute; reflexivity. Qed.
(** Without the bound the index overflows. *)
Example ex_C11_overflow : bin_to_Nbase (1 :: repeat 0 63) (repeat 2 64) = Ok (- 2 ^ 63).
Proof. vm_compute. reflexivity. Qed.

Definition outcome {A} (r : res A) : option exn := match r with Ok _ => None | Err e => Some e end.
Example ex_C17 :
  outcome (mk_circuit S (QList [2; 3]) (Some [-2; 2]) None) = None /\
  outcome (mk_circuit S (QList [2; 3]) (Some [1]) None) = None /\
  outcome (mk_circuit S (QList [2; 1]) (Some [1]) None) = Some ValueError /\
  outcome (mk_circuit S (QList [2; 3]) (Some [3]) None) = Some ValueError /\
  outcome (mk_circuit S (QList [2; 3]) (Some [2]) None) = Some IndexError /\
  outcome (mk_circuit S (QList [2; 3]) (Some [0; -4]) None) = Some IndexError /\
  outcome (mk_circuit S (QList [2; 3]) (Some [0; 0; 0]) None) = Some IndexError /\
  outcome (mk_circuit S (QList [2; 3]) (Some [2; 5]) None) = Some IndexError.
Proof. repeat split; vm_compute; reflexivity. Qed.

Example ex_C18 :
  simulate (NumpyBackend S) (QList [2; 3]) (Some [1; -1]) None [CX 0 None 1] = Ok [(LStr "|02>"%string, 1)] /\
  map (fun '(d, s) => if (s <? 0) then d + s else s) (combine [2; 3] [1; -1]) = [1; 2].
Proof. split; vm_compute; reflexivity. Qed.

Example ex_C19 : init_arg_after (QList [2; 3; 2]) [1] = Ok [1; 0; 0] /\
  outcome (mk_circuit S (QList [2; 3]) (Some [1; 0; 0]) None) = Some IndexError /\
  outcome (mk_circuit S (QList [2; 3]) (Some [1]) None) = None.
Proof. repeat split; vm_compute; reflexivity. Qed.

(** Three qubits: state 011 is labelled |11>, state 110 raises. *)
Example ex_C20 :
  simulate (NumpyBackend S) (QTuple [3; 2]) (Some []) None [CX 1 None 1; CCX [1; 2] 1] = Ok [(LStr "|11>"%string, 1)] /\
  simulate (NumpyBackend S) (QTuple [3; 2]) (Some []) None [CX 0 None 1; CCX [0; 1] 1] = Err IndexError /\
  moves (S := S) [2; 2; 2]%nat [GX 1 1; GCX 1 2 1] [0; 0; 0]%nat = [0; 1; 1]%nat /\
  flag (api (forced (mk_circuit S (QTuple [3; 2]) (Some []) None)) (CTof [0; 1] 2 1)) = Err IndexError.
Proof. repeat split; vm_compute; reflexivity. Qed.
End Examples.

Print Assumptions C11_digits_to_index_and_back.
Print Assumptions C11_index_to_digits_and_back.
Print Assumptions C11_index_out_of_range_raises.
Print Assumptions C11_one_base_for_all_digits.
Print Assumptions C11_length_mismatch_raises.
Print Assumptions C17_constructor_accepts_iff.
Print Assumptions C17_constructor_exceptions.
Print Assumptions C17_missing_levels_are_zero.
Print Assumptions C18_negative_levels_wrap.
Print Assumptions C19_init_states_list_is_extended.
Print Assumptions C19_second_use_of_the_list_raises.
Print Assumptions C19_empty_list_is_not_touched.
Print Assumptions C20_tuple_circuits_mislabel.
Print Assumptions C20_tuple_empty_circuit_is_00.
Print Assumptions C20_tuple_toffoli_raises.
