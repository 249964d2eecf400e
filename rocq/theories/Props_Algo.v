(** * Props_Algo: two textbook circuits on any number of qubits (C78, C79).
    Statements only.  [ord] is the order in which the root finder returns the
    roots of unity. *)
From Coq Require Import String Reals Lra.
From Verif Require Import Py Scalar Mat Utils Gates Circuit Spec Calls Complex ComplexSpec ComplexLib Lib Refine Run Reversible Local Unitary
  ComplexGates ComplexRun Product Algo Props_Run Props_Complex.
Local Notation length := List.length.

(** ** C78: h on the first qubit and a chain of cx gates. *)
Theorem C78_ghz_circuit :
  forall ord, orders ord -> forall (B : backend (Cscalar ord)) n levels out ty, 1 <= n ->
  let dims := repeat 2 n in
  supported B -> line dims levels -> wants dims out ty OutAmplitude -> (forall x, In x levels -> x = 0) ->
  simulate B (QList (map Z.of_nat dims)) (Some (map Z.of_nat levels)) out
    (CH 0 None :: map (fun i => CCX [Z.of_nat i; Z.of_nat (i + 1)] 1%Z) (seq 0 (n - 1)))
  = Ok [(shown ty (repeat 0 n), (/ sqrt 2, 0)%R); (shown ty (repeat 1 n), (/ sqrt 2, 0)%R)].
Proof.
  intros ord Hord B n levels out ty Hn dims HB Hl Hw Hz.
  assert (Es : start dims levels = repeat 0 n).
  { destruct Hl as [_ [_ [Hl _]]]. unfold start, dims in *. rewrite repeat_length in *.
    replace levels with (repeat 0 (length levels)) at 1.
    - rewrite <- repeat_app. f_equal. lia.
    - clear -Hz. induction levels as [|x l IH]; [reflexivity|]. simpl. rewrite IH by (intros y Hy; apply Hz; right; exact Hy).
      f_equal. symmetry. apply Hz. left. reflexivity. }
  etransitivity; [apply (C01_run_applies_gates_in_order _ (Cscalar_laws Hord) B dims levels out ty OutAmplitude _
    (GH 0 :: map (fun i => GCX i (i + 1) 1) (seq 0 (n - 1))) HB Hl Hw)|].
  - split.
    + constructor; [apply (@den_h _ dims 0 None); left; reflexivity|].
      induction (seq 0 (n - 1)) as [|i l IH]; simpl; constructor; [apply (@den_cx _ dims i (i + 1)) | exact IH].
    + constructor; [simpl; unfold dims; rewrite repeat_length; lia|]. apply Forall_forall. intros g Hg.
      apply in_map_iff in Hg as [i [<- Hi]]. apply in_seq in Hi. simpl. unfold dims. rewrite repeat_length. lia.
  - rewrite Es. unfold dims. change (repeat 2 n) with (qubits n).
    rewrite (ghz_answer (Cscalar_laws Hord) Hn); [reflexivity|]. apply (@scale_neq0 ord 2). lia.
Qed.

(** ** C79: an x on the last qubit, h everywhere, cx gates from any qubits to the
    last one in any order, h everywhere.  The outcome shows, with certainty, how
    often each qubit was a control, modulo 2. *)
Theorem C79_hidden_parities_are_found :
  forall ord, orders ord -> one_last ord 2 -> forall (B : backend (Cscalar ord)) n (cs : list nat) levels out ty,
  let dims := repeat 2 (n + 1) in
  let s := start dims levels in
  supported B -> line dims levels -> wants dims out ty OutAmplitude -> level s n = 0 -> (forall c, In c cs -> c < n) ->
  let all_h := map (fun r => CH (Z.of_nat r) None) (seq 0 (n + 1)) in
  simulate B (QList (map Z.of_nat dims)) (Some (map Z.of_nat levels)) out
    (CX (Z.of_nat n) None 1%Z :: all_h ++ map (fun c => CCX [Z.of_nat c; Z.of_nat n] 1%Z) cs ++ all_h)
  = Ok [(shown ty (map (fun r => (level s r + count_occ Nat.eq_dec cs r) mod 2) (seq 0 n) ++ [1]), C1)].
Proof.
  intros ord Hord H1 B n cs levels out ty dims s HB Hl Hw H0 Hc all_h.
  set (hs := map (fun r => GH r) (seq 0 (n + 1)) : list (gate (Cscalar ord))).
  set (orc := map (fun c => GCX c n 1) cs : list (gate (Cscalar ord))).
  assert (Ld : length dims = n + 1) by apply repeat_length.
  assert (Dn : nth n dims 0 = 2) by (apply nth_qubits; lia).
  assert (Ah : asks (S := Cscalar ord) dims all_h hs).
  { split.
    - unfold all_h, hs. induction (seq 0 (n + 1)) as [|i l IH]; simpl; constructor; [apply (@den_h _ dims i None); left; reflexivity | exact IH].
    - apply Forall_forall. intros g Hg. apply in_map_iff in Hg as [i [<- Hi]]. apply in_seq in Hi. simpl. lia. }
  assert (Ao : asks (S := Cscalar ord) dims (map (fun c => CCX [Z.of_nat c; Z.of_nat n] 1%Z) cs) orc).
  { split.
    - unfold orc. clear. induction cs as [|i l IH]; simpl; constructor; [apply (@den_cx _ dims i n) | exact IH].
    - apply Forall_forall. intros g Hg. apply in_map_iff in Hg as [i [<- Hi]]. specialize (Hc i Hi). simpl. lia. }
  assert (Ax : asks (S := Cscalar ord) dims [CX (Z.of_nat n) None 1%Z] [GX n 1]).
  { split; constructor; [apply den_x; left; reflexivity | constructor | simpl | constructor].
    rewrite Dn, Ld. lia. }
  assert (A : asks (S := Cscalar ord) dims (CX (Z.of_nat n) None 1%Z :: all_h ++ map (fun c => CCX [Z.of_nat c; Z.of_nat n] 1%Z) cs ++ all_h) ([GX n 1] ++ hs ++ orc ++ hs))
    by (apply (asks_app ord dims [_]); [exact Ax | apply asks_app; [exact Ah | apply asks_app; [exact Ao | exact Ah]]]).
  etransitivity; [exact (C01_run_applies_gates_in_order _ (Cscalar_laws Hord) B dims levels out ty OutAmplitude _ _ HB Hl Hw A)|].
  destruct Hl as [_ [_ [_ Hv]]]. fold s in Hv |- *.
  pose proof (valid_length Hv) as Ls.
  assert (Mv : move (S := Cscalar ord) dims (GX n 1) s = put s n 1).
  { simpl. unfold move_x. rewrite Dn, H0. reflexivity. }
  assert (Vb : valid dims (put s n 1)).
  { apply valid_put; [exact Hv|]. rewrite Dn. lia. }
  set (e := map (fun r => (level s r + count_occ Nat.eq_dec cs r) mod 2) (seq 0 n) ++ [1]).
  assert (Ve : valid dims e).
  { unfold valid, dims, e. replace (n + 1) with (length (seq 0 n) + 1) by (rewrite seq_length; reflexivity).
    rewrite repeat_app. apply Forall2_app; [|constructor; [lia | constructor]].
    clear. induction (seq 0 n) as [|i l IH]; cbn [map length repeat]; constructor; [apply Nat.mod_upper_bound; lia | exact IH]. }
  assert (Cn : count_occ Nat.eq_dec cs n = 0) by (apply count_occ_not_In; intros X; specialize (Hc n X); lia).
  assert (Ee : map (fun r => (level (put s n 1) r + count_occ Nat.eq_dec cs r) mod 2) (seq 0 (n + 1)) = e).
  { unfold e. rewrite seq_app, map_app. f_equal.
    - apply map_ext_in. intros r Hr. apply in_seq in Hr. rewrite level_put by lia. rewrite (proj2 (Nat.eqb_neq r n)) by lia. reflexivity.
    - simpl. rewrite level_put, Nat.eqb_refl, Cn by lia. reflexivity. }
  f_equal. transitivity (report ty OutAmplitude [(e, s1 : Cscalar ord)]); [|reflexivity]. f_equal.
  etransitivity; [|exact (answer_basis (Cscalar_laws Hord) Ve)].
  apply answer_ext. intros t Ht. rewrite ComplexRun.final_app, <- Ee.
  rewrite <- (@hidden_parity _ (Cscalar_laws Hord)); [| | | exact Ht | exact Vb | rewrite level_put, Nat.eqb_refl by lia; reflexivity | exact Hc].
  - apply final_ext; [|exact Ht]. intros u Hu. cbn [final].
    rewrite (apply_basis (Cscalar_laws Hord)); [| reflexivity | apply (Forall_inv (proj2 Ax)) | exact Hv]. rewrite Mv. reflexivity.
  - unfold Cscalar. cbn [sroots s0 s1 sopp]. rewrite (ord_2 Hord H1). cbn [map nth]. rewrite root_2_1. apply C_ext; simpl; ring.
  - pose proof (@scale_sq ord 2 ltac:(lia)) as E. etransitivity; [exact (f_equal2 Cadd E E)|]. apply C_ext; simpl; lra.
Qed.

(** ** Non-trivial instances *)
Section Examples.
Let S := Cscalar np_ord.
Open Scope Z_scope.

Example ex_C78 :
  line (repeat 2 4)%nat [] /\
  simulate (SparseBackend S) (QList [2; 2; 2; 2]) (Some []) None [CH 0 None; CCX [0; 1] 1; CCX [1; 2] 1; CCX [2; 3] 1]
  = Ok [(LStr "|0000>", (/ sqrt 2, 0)%R); (LStr "|1111>", (/ sqrt 2, 0)%R)]%string.
Proof.
  assert (HL : line (repeat 2 4)%nat []) by (split; [discriminate|split; [simpl; intros; lia|split; [simpl; lia | repeat constructor]]]).
  split; [exact HL|].
  refine (C78_ghz_circuit np_ord np_ord_orders (SparseBackend S) 4 [] None OutPrint _ _ HL _ _); [lia | right; reflexivity | right; auto | simpl; tauto].
Qed.

(** The secret 101, asked for with five cx gates. *)
Example ex_C79 :
  line (repeat 2 4)%nat [] /\
  simulate (NumpyBackend S) (QList [2; 2; 2; 2]) (Some []) None
    [CX 3 None 1; CH 0 None; CH 1 None; CH 2 None; CH 3 None;
     CCX [2; 3] 1; CCX [1; 3] 1; CCX [0; 3] 1; CCX [1; 3] 1;
     CH 0 None; CH 1 None; CH 2 None; CH 3 None]
  = Ok [(LStr "|1011>", C1)]%string.
Proof.
  assert (HL : line (repeat 2 4)%nat []) by (split; [discriminate|split; [simpl; intros; lia|split; [simpl; lia | repeat constructor]]]).
  split; [exact HL|].
  refine (C79_hidden_parities_are_found np_ord np_ord_orders (np_ord_last 2 ltac:(lia)) (NumpyBackend S) 3 [2; 1; 0; 1]%nat [] None OutPrint _ HL _ _ _);
    [left; reflexivity | right; auto | reflexivity | simpl; intros; lia].
Qed.
End Examples.

Print Assumptions C78_ghz_circuit.
Print Assumptions C79_hidden_parities_are_found.
