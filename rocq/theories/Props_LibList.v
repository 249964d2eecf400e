(** * Props_LibList: gate() given a gate class of the library and a list of
    registers (C129). *)
From Coq Require Import List Arith ZArith Lia Bool String.
From Verif Require Import Py Scalar Mat Utils Gates Circuit Spec Calls HistSpec CallSpec InfoSpec ShapeSpec RaiseSpec DrawFailSpec ListRegs LibGates LibList UserMat
  Lib Kern Blocks Ignored BadGates History Reject Shapes ListThm LibListThm Props_Run Props_List ExLib.
Import ListNotations.
Local Notation length := List.length.

(** ** C129: gate(HGate, [..]), gate(IGate, [..]) and the others.  All of [l]
    are registers of the line: *)
Definition on_line (dims : list nat) (l : list Z) : Prop :=
  forall q, In q l -> exists r, q = Z.of_nat r /\ r < length dims.

(** With a dimension, HGate and ZGate do what h() and z() do with the list. *)
Theorem C129_h_and_z_are_the_methods :
  forall S no_matrix dims init out ks (c : circuit S) l d, history (QList (map Z.of_nat dims)) init out ks c -> d <> 0%Z ->
  lib_list no_matrix c KlassH l (Some d) = list_call c MH l (Some d) /\
  lib_list no_matrix c KlassZ l (Some d) = list_call c MZ l (Some d).
Proof. intros S no_matrix dims init out ks c l d H Hd. split; apply (same_method no_matrix dims H l Hd); auto. Qed.

(** IGate on a list with one register, with its dimension, is accepted and
    changes no result. *)
Theorem C129_identity_on_one_register_changes_nothing :
  forall S (L : scalar_laws S) (B : backend S) no_matrix dims levels out ty me ks1 ks2 prog1 prog2 c0 r,
  supported B -> line dims levels -> wants dims out ty me -> reads dims ks1 prog1 -> reads dims ks2 prog2 -> r < length dims ->
  mk_circuit S (QList (map Z.of_nat dims)) (Some (map Z.of_nat levels)) out = Ok c0 ->
  exists c1, lib_list no_matrix (after c0 ks1) KlassI [Z.of_nat r] (Some (Z.of_nat (nth r dims 0))) = Ok (c1, true) /\
    run B (after c1 (ks2 ++ [CMeasureAll]))
    = Ok (report ty me (answer dims (final dims (prog1 ++ prog2) (basis S (start dims levels))))).
Proof.
  intros S L B no_matrix dims levels out ty me ks1 ks2 prog1 prog2 c0 r HB [H1 [H2 [H3 H4]]] Hw A1 A2 Hr E0.
  destruct (@one_identity S no_matrix L dims levels out ty me ks1 ks2 prog1 prog2 c0 r H1 H2 H3 H4 Hw) as [c1 [E1 E2]]; try assumption.
  exists c1. split; [exact E1|]. rewrite (supported_run S L B) by exact HB. exact E2.
Qed.

(** On two different registers it is accepted as well, and run() raises,
    whatever is called afterwards. *)
Theorem C129_identity_on_several_registers_never_runs :
  forall S (L : scalar_laws S) (B : backend S) no_matrix dims init out ks (c : circuit S) l d q q' ks', supported B ->
  history (QList (map Z.of_nat dims)) init out ks c -> ~ In CMeasureAll ks -> d <> 0%Z -> roomy dims l d ->
  In q l -> In q' l -> q <> q' -> Forall (tame dims) ks -> Forall (tame dims) ks' ->
  exists c', lib_list no_matrix c KlassI l (Some d) = Ok (c', true) /\ exists e, run B (after c' ks') = Err e.
Proof.
  intros S L B no_matrix dims init out ks c l d q q' ks' HB H Hm Hd Hr Hq Hq' Hne T1 T2.
  destruct (@wide_identity S no_matrix L dims init out ks c l d q q' ks' H Hm Hd Hr Hq Hq' Hne T1 T2) as [c' [E [e X]]].
  exists c'. split; [exact E|]. exists e. rewrite (supported_run S L B) by exact HB. exact X.
Qed.

(** Without a dimension, HGate and ZGate raise TypeError if the last layer
    leaves all the registers idle.  Otherwise, and always for IGate, the call is
    accepted ... *)
Theorem C129_without_dims :
  forall S no_matrix dims init out ks (c : circuit S) k l dm, history (QList (map Z.of_nat dims)) init out ks c ->
  ~ In CMeasureAll ks -> dm = None \/ dm = Some 0%Z -> l <> [] -> on_line dims l ->
  (k = KlassH \/ k = KlassZ -> (forall q, In q l -> idle_at_end c q) -> lib_list no_matrix c k l dm = Err TypeError) /\
  (k = KlassH \/ k = KlassZ -> (exists q, In q l /\ ~ idle_at_end c q) -> exists c', lib_list no_matrix c k l dm = Ok (c', true)) /\
  (k = KlassI -> exists c', lib_list no_matrix c k l dm = Ok (c', true)).
Proof.
  intros S no_matrix dims init out ks c k l dm H Hm Hd Hl Hin. split; [|split].
  - intros Hk Hi. exact (bare_idle no_matrix dims H Hin Hl Hm Hk Hd Hi).
  - intros Hk [q [Hq Hb]]. exact (bare_busy no_matrix dims H Hin Hl Hm Hk Hd Hq Hb).
  - intros ->. rewrite (bare_identity no_matrix dims H) by exact Hd. exact (inside_accepts no_matrix dims H Hin Hl Hm Hd).
Qed.

(** ... and run() never returns a result, whatever is called afterwards. *)
Theorem C129_without_dims_never_runs :
  forall S (B : backend S) (object_of : mat S -> mat_object) no_matrix dims init out ks (c c' : circuit S) k l dm q ks',
  object_of no_matrix <> NdArray -> history (QList (map Z.of_nat dims)) init out ks c ->
  dm = None \/ dm = Some 0%Z -> lib_list no_matrix c k l dm = Ok (c', true) -> In q l -> (0 <= q)%Z ->
  exists e, run_of object_of B (after c' ks') = Err e.
Proof.
  intros S B object_of no_matrix dims init out ks c c' k l dm q ks' Ho H Hd E Hq Hq0.
  assert (Hk : In k [KlassH; KlassZ; KlassI]).
  { destruct (in_dec (fun a b : gate_class => ltac:(decide equality) : {a = b} + {a <> b}) k [KlassH; KlassZ; KlassI]) as [|N]; [assumption|].
    rewrite (others no_matrix c l dm N) in E. destruct (validate c (RList l) dm); [|discriminate]. cbn [bind] in E.
    destruct (dims_arg c dm l); discriminate. }
  exact (@bare_never S no_matrix dims init out ks c H object_of Ho k l dm c' q Hk Hd E Hq Hq0 B ks').
Qed.

(** The other classes are never accepted: TypeError, or ValueError for a
    Toffoli on a number of registers other than two. *)
Theorem C129_other_classes_raise :
  forall S no_matrix dims init out ks (c : circuit S) k l dm, history (QList (map Z.of_nat dims)) init out ks c ->
  In k [KlassX; KlassCX; KlassToffoli; KlassMeasurement; KlassInit] ->
  (exists e, lib_list no_matrix c k l dm = Err e) /\
  (on_line dims l -> (forall d, dm = Some d -> roomy dims l d) ->
   lib_list no_matrix c k l dm = Err (match k with KlassToffoli => if length l =? 2 then TypeError else ValueError | _ => TypeError end)).
Proof.
  intros S no_matrix dims init out ks c k l dm H Hk.
  assert (N : ~ In k [KlassH; KlassZ; KlassI]) by (intros X; simpl in Hk, X; intuition (subst; discriminate)).
  rewrite (others no_matrix c l dm N). split.
  - destruct (validate c (RList l) dm); cbn [bind]; [|eauto]. destruct (dims_arg c dm l); cbn [bind]; eauto.
  - intros Hin Hr.
    assert (V : validate c (RList l) dm = Ok tt).
    { destruct dm as [d|]; [destruct (Z.eq_dec d 0) as [->|Hd]|].
      - apply (inside_valid dims H l Hin). auto.
      - apply validate_list. intros q Hq. destruct (Hr d eq_refl q Hq) as [r [-> [Hr1 Hr2]]].
        pose proof (hl_shaped dims H) as Hs. unfold validate1. rewrite (sh_len Hs), (sh_get Hs Hr1).
        destruct (Z.ltb_spec (Z.of_nat (length dims) - 1) (Z.of_nat r)); [lia|].
        destruct (Z.eqb_spec d 0); [contradiction|]. cbn [bind]. destruct (Z.ltb_spec (Z.of_nat (nth r dims 0)) d); [lia | reflexivity].
      - apply (inside_valid dims H l Hin). auto. }
    rewrite V. cbn [bind]. destruct (inside_gets dims H l Hin) as [ds E].
    unfold dims_arg. rewrite E. destruct dm as [d|]; [destruct (d =? 0)%Z|]; reflexivity.
Qed.

(** ** Concrete cases *)
Section Examples.
Open Scope Z_scope.
Let S := Zscalar.
Let dims : list nat := [2; 3; 2]%nat.
Let new : circuit S := forced (mk_circuit S (QList (map Z.of_nat dims)) (Some [0; 1]) None).
Let on (ks : list (call S)) : circuit S := after new ks.
(** A matrix no gate of the program has. *)
Let no_matrix : mat S := mkmat 1 1 (fun _ _ => s0).
Let object_of (u : mat S) : mat_object := if orthonormal u then NdArray else Number.
Let lib := lib_list no_matrix.
Let got (r : res (circuit S * bool)) : res (nat * bool) :=
  match r with Ok (c, b) => Ok (length (f_list (c_flow c)), b) | Err e => Err e end.
Let ran (r : res (circuit S * bool)) (ks : list (call S)) : res (list (label * Z)) :=
  match r with Ok (c, _) => run_of object_of (SparseBackend S) (after c (ks ++ [CMeasureAll])) | Err e => Err e end.

Example ex_C129_history : forall ks, history (QList (map Z.of_nat dims)) (Some [0; 1]) None ks (on ks).
Proof. intros ks. eexists. split; [apply forced_ok; vm_compute; reflexivity | reflexivity]. Qed.

Example ex_C129_no_matrix : object_of no_matrix <> NdArray /\ line dims [0; 1]%nat /\ wants dims None OutPrint OutAmplitude.
Proof.
  split; [vm_compute; discriminate|]. split; [|right; auto].
  split; [discriminate|]. split; [intros d Hd; simpl in Hd; lia|]. split; [simpl; lia|]. vm_compute. repeat constructor.
Qed.

Example ex_C129_calls :
  got (lib (on []) KlassH [1; 2] (Some 2)) = Ok (2%nat, true) /\
  got (lib (on [CX 0 None 1]) KlassH [1; 2] (Some 2)) = Err TypeError /\
  got (lib (on [CX 0 None 1]) KlassZ [0; 2] (Some 2)) = Ok (3%nat, true) /\
  got (lib (on [CX 0 None 1]) KlassI [1] (Some 3)) = Ok (3%nat, true) /\
  got (lib (on [CX 0 None 1]) KlassI [1] None) = Ok (3%nat, true) /\
  got (lib (on [CX 0 None 1]) KlassZ [1; 2] None) = Err TypeError /\
  got (lib (on [CX 0 None 1]) KlassZ [0; 1] (Some 0)) = Ok (3%nat, true) /\
  got (lib (on [CX 0 None 1]) KlassX [0; 1] None) = Err TypeError /\
  got (lib (on [CX 0 None 1]) KlassToffoli [0; 1] None) = Err TypeError /\
  got (lib (on [CX 0 None 1]) KlassToffoli [0; 1; 2] None) = Err ValueError /\
  got (lib (on [CX 0 None 1]) KlassI [] None) = Err ValueError /\
  got (lib (on [CX 0 None 1]) KlassI [0; 3] None) = Err ValueError /\
  got (lib (on [CMeasureAll]) KlassI [0] None) = Ok (2%nat, false).
Proof. vm_compute. repeat split. Qed.

Example ex_C129_runs :
  ran (lib (on [CX 0 None 1]) KlassI [1] (Some 3)) [CX 1 None 1; CCX [1; 2] 1] = Ok [(LStr "|121>"%string, 1)] /\
  ran (lib (on [CX 0 None 1]) KlassI [1; 2] (Some 2)) [CX 1 None 1] = Err ValueError /\
  ran (lib (on [CX 0 None 1]) KlassI [1] None) [CX 1 None 1] = Err TypeError /\
  ran (lib (on [CX 0 None 1]) KlassI [1] None) [CX 1 None 5] = Err IndexError /\
  ran (lib (on []) KlassH [0] None) [] = Err TypeError.
Proof. vm_compute. repeat split. Qed.

Example ex_C129_reads : reads dims [CX 0 None 1 : call S] [GX 0 1] /\ reads dims [CX 1 None 1; CCX [1; 2] 1 : call S] [GX 1 1; GCX 1 2 1].
Proof.
  split.
  - apply reads_gate; [apply (@den_x S dims 0 None 1); left; reflexivity | simpl; lia | apply reads_nil].
  - apply reads_gate; [apply (@den_x S dims 1 None 1); left; reflexivity | simpl; lia |].
    apply reads_gate; [apply (@den_cx S dims 1 2 1) | simpl; lia | apply reads_nil].
Qed.

Example ex_C129_idle : idle_at_end (on [CX 0 None 1]) 1 /\ ~ idle_at_end (on [CX 0 None 1]) 0 /\
  on_line dims [0; 1; 2] /\ roomy dims [0; 1; 2] 2 /\ Forall (tame dims) [CX 0 None 1 : call S] /\ ~ In CMeasureAll [CX 0 None 1 : call S].
Proof.
  split; [|split; [|split; [|split; [|split]]]].
  - unfold idle_at_end. exists (layers_of (on [])). eexists. exists 3. split; [vm_compute; reflexivity|]. right. left. reflexivity.
  - intros [b [x [z [E Hin]]]]. vm_compute in E.
    destruct b as [|b0 [|b1 b]]; try discriminate; [|destruct b; discriminate].
    injection E as _ <-. destruct Hin as [X|[X|[X|[]]]]; discriminate.
  - intros q Hq. exists (Z.to_nat q). simpl in Hq. simpl length. lia.
  - intros q Hq. exists (Z.to_nat q). simpl in Hq. destruct Hq as [<-|[<-|[<-|[]]]]; simpl; lia.
  - repeat constructor.
  - intros [X|[]]; discriminate.
Qed.
End Examples.

Print Assumptions C129_h_and_z_are_the_methods.
Print Assumptions C129_identity_on_one_register_changes_nothing.
Print Assumptions C129_identity_on_several_registers_never_runs.
Print Assumptions C129_without_dims.
Print Assumptions C129_without_dims_never_runs.
Print Assumptions C129_other_classes_raise.
