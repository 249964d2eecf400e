(** * Props_Universal: which reversible functions can be programmed (C112). *)
From Coq Require Import List Arith ZArith Lia Bool String.
From Verif Require Import Py Scalar Mat Utils Gates Circuit Spec Calls Run Reversible PermSpec Universal Sign Props_Run ExLib.
Import ListNotations.
Local Notation length := List.length.

(** A call of x, cx or toffoli. *)
Definition moving {S} (k : call S) : Prop := match k with CX _ _ _ | CCX _ _ | CTof _ _ _ => True | _ => False end.

(** The calls compute [f]: whatever the initial levels, there is one outcome,
    and it is [f] of them. *)
Definition computes {S} (dims : list nat) (ks : list (call S)) (f : config -> config) : Prop :=
  forall (B : backend S) levels out ty me, supported B -> line dims levels -> wants dims out ty me ->
  simulate B (QList (map Z.of_nat dims)) (Some (map Z.of_nat levels)) out ks = Ok [(shown ty (f (start dims levels)), s1)].

Lemma calls_for : forall S dims (prog : list (gate S)), (forall g, In g prog -> reversible g) ->
  exists ks, Forall2 (denotes dims) ks prog /\ forall k, In k ks -> moving k.
Proof.
  intros S dims prog. induction prog as [|g prog IH]; intros H; [exists []; split; [constructor | intros k []]|].
  destruct (IH (fun x Hx => H x (or_intror Hx))) as [ks [D M]]. pose proof (H g (or_introl eq_refl)) as R.
  assert (G : exists k, denotes dims k g /\ moving k).
  { destruct g as [r p|r|r|c t p|cs t p|r u|r k u]; try contradiction.
    - exists (CX (Z.of_nat r) None p). split; [constructor; left; reflexivity | exact I].
    - exists (CCX [Z.of_nat c; Z.of_nat t] p). split; [constructor | exact I].
    - exists (CTof (map Z.of_nat cs) (Z.of_nat t) p). split; [constructor | exact I]. }
  destruct G as [k [Dk Mk]]. exists (k :: ks). split; [constructor; assumption|]. intros x [<-|Hx]; [exact Mk | apply M, Hx].
Qed.

Lemma can_computes : forall S (L : scalar_laws S) dims f, can S dims f -> exists ks : list (call S), (forall k, In k ks -> moving k) /\ computes dims ks f.
Proof.
  intros S L dims f [prog [Hp E]]. destruct (calls_for S dims prog) as [ks [D M]]; [intros g Hg; apply Hp, Hg|].
  exists ks. split; [exact M|]. intros B levels out ty me HB HL Hw.
  rewrite (C05_reversible_circuits_give_one_outcome S L B dims levels out ty me ks prog HB HL Hw).
  - rewrite E; [reflexivity | apply HL].
  - split; [exact D|]. apply Forall_forall. intros g Hg. apply Hp, Hg.
  - apply forallb_forall. intros g Hg. destruct (Hp g Hg) as [R _]. destruct g; try contradiction; reflexivity.
Qed.

(** ** C112: with two registers or more, one of them of even dimension, every
    permutation of the basis states can be programmed with x, cx and toffoli. *)
Theorem C112_every_permutation_can_be_programmed :
  forall S (L : scalar_laws S) dims f, 2 <= length dims -> (forall d, In d dims -> 2 <= d) -> (exists d, In d dims /\ Nat.Even d) ->
  permutes dims f -> exists ks : list (call S), (forall k, In k ks -> moving k) /\ computes dims ks f.
Proof.
  intros S L dims f Hn Hd [d [Hin He]] Hf. apply (can_computes S L). destruct (permutes_swaps Hf) as [l [Hl El]].
  apply (In_nth _ _ 0) in Hin as [r [Hr Er]]. rewrite <- Er in He. destruct (some_edge dims Hd Hn) as [a [_ [Ha _]]].
  apply (can_ext _ (all_swaps S Hd Hn Hr He Ha Hl)). exact El.
Qed.

(** Whatever the dimensions, a function of the levels of the other registers can
    be added to the level of a register. *)
Theorem C112_every_function_can_be_added_to_a_register :
  forall S (L : scalar_laws S) dims r (f : config -> Z), (forall d, In d dims -> 2 <= d) -> r < length dims ->
  (forall s x, f (put s r x) = f s) ->
  exists ks : list (call S), (forall k, In k ks -> moving k) /\ computes dims ks (fun s => put s r (shift (nth r dims 0) (level s r) (f s))).
Proof. intros S L dims r f Hd Hr Hf. exact (can_computes S L dims _ (@can_turns S dims Hd r f Hr Hf)). Qed.

(** Without a register of even dimension every even permutation can. *)
Theorem C112_even_permutations_can_be_programmed :
  forall S (L : scalar_laws S) dims l, 2 <= length dims -> (forall d, In d dims -> 2 <= d) ->
  real_swaps dims l -> Nat.Even (length l) -> exists ks : list (call S), (forall k, In k ks -> moving k) /\ computes dims ks (swaps l).
Proof. intros S L dims l Hn Hd Hl He. apply (can_computes S L), (even_swaps S Hd Hn Hl He). Qed.

(** No odd one can, if all dimensions are odd. *)
Theorem C112_odd_dimensions_allow_even_permutations_only :
  forall S (L : scalar_laws S) dims ks prog l, dims <> [] -> (forall d, In d dims -> 2 <= d /\ Nat.Odd d) ->
  asks dims ks prog -> (forall g, In g prog -> reversible g) -> real_swaps dims l ->
  computes (S := S) dims ks (swaps l) -> Nat.Even (length l).
Proof.
  intros S L dims ks prog l Hne Hd Ha Hr Hl Hc.
  assert (Hd2 : forall d, In d dims -> 2 <= d) by (intros d H; apply Hd, H).
  apply (@odd_dims_even_swaps dims Hd2 Hne S prog l); try assumption; [|apply Ha|].
  - intros r H. apply Nat.odd_spec, Hd, nth_In, H.
  - intros s Hs. set (o := {| o_base := map Z.of_nat dims; o_type := OutState; o_method := OutAmplitude |}).
    assert (Es : start dims s = s). { unfold start. rewrite (Lib.valid_length Hs), Nat.sub_diag. apply app_nil_r. }
    assert (HL : line dims s). { split; [exact Hne|]. split; [exact Hd2|]. rewrite Es. rewrite (Lib.valid_length Hs). split; [apply le_n | exact Hs]. }
    assert (Hw : wants dims (Some o) OutState OutAmplitude) by (left; reflexivity).
    pose proof (Hc (NumpyBackend S) s (Some o) OutState OutAmplitude (or_introl eq_refl) HL Hw) as E1.
    rewrite (C05_reversible_circuits_give_one_outcome S L (NumpyBackend S) dims s (Some o) OutState OutAmplitude ks prog (or_introl eq_refl) HL Hw Ha) in E1.
    + rewrite Es in E1. injection E1 as E1. apply (f_equal (map Z.to_nat)) in E1. rewrite !map_map in E1.
      rewrite !(map_ext (fun x => Z.to_nat (Z.of_nat x)) (fun x => x) Nat2Z.id), !map_id in E1. exact E1.
    + apply forallb_forall. intros g Hg. pose proof (Hr g Hg) as R. destruct g; try contradiction; reflexivity.
Qed.

(** A single register can only be turned. *)
Theorem C112_one_register_can_only_be_turned :
  forall S (L : scalar_laws S) d ks prog, 2 <= d -> asks [d] ks prog -> (forall g, In g prog -> reversible g) ->
  exists p, computes (S := S) [d] ks (fun s => [shift d (level s 0) p]).
Proof.
  intros S L d ks prog Hd Ha Hr.
  assert (G : exists p, forall x, x < d -> moves [d] prog [x] = [shift d x p]).
  { destruct Ha as [_ Hg]. revert Hg Hr. clear -Hd. induction prog as [|g prog IH]; intros Hg Hr.
    - exists 0%Z. intros x Hx. cbn [moves]. rewrite GateMat.shift_0 by exact Hx. reflexivity.
    - inversion_clear Hg as [|? ? G1 G2]. destruct (IH G2 (fun y Hy => Hr y (or_intror Hy))) as [p Hp]. pose proof (Hr g (or_introl eq_refl)) as R.
      assert (Eg : exists q, forall x, move [d] g [x] = [shift d x q]).
      { destruct g as [r q|r|r|c t q|cs t q|r u|r k u]; try contradiction; cbn [gate_ok reversible length] in *.
        - exists q. intros x. assert (r = 0) by lia. subst r. reflexivity.
        - lia.
        - exists q. intros x. destruct G1 as [Hc [Ht [Hn _]]]. assert (t = 0) by lia. subst t.
          destruct cs as [|c cs]; [reflexivity|]. exfalso. apply Hn. left. specialize (Hc c (or_introl eq_refl)). lia. }
      destruct Eg as [q Hq]. exists (q + p)%Z. intros x Hx. cbn [moves]. rewrite Hq, Hp by (apply Lib.shift_lt; lia).
      rewrite GateMat.shift_shift by exact Hx. reflexivity. }
  destruct G as [p Hp]. exists p. intros B levels out ty me HB HL Hw.
  rewrite (C05_reversible_circuits_give_one_outcome S L B [d] levels out ty me ks prog HB HL Hw Ha).
  - destruct HL as [_ [_ [_ V]]]. inversion V as [|x d' s ds Hx Hs E1 E2]. subst. inversion Hs. subst. rewrite Hp by exact Hx. reflexivity.
  - apply forallb_forall. intros g Hg. pose proof (Hr g Hg) as R. destruct g; try contradiction; reflexivity.
Qed.

(** ** Concrete cases *)
Section Examples.
Let S := Zscalar.

(** Exchanging |00> and |11> of two qubits. *)
Example ex_C112_swap :
  let ks := [CX 0 None 1; CCX [0; 1] 1; CCX [1; 0] 1; CCX [0; 1] 1; CX 0 None 1]%Z : list (call S) in
  map (fun s => simulate (NumpyBackend S) (QList [2; 2]%Z) (Some s) None ks) [[0; 0]; [0; 1]; [1; 0]; [1; 1]]%Z
  = map (fun t => Ok [(LStr t, 1%Z)]) ["|11>"; "|01>"; "|10>"; "|00>"]%string /\
  map (swap [0; 0] [1; 1]) [[0; 0]; [0; 1]; [1; 0]; [1; 1]] = [[1; 1]; [0; 1]; [1; 0]; [0; 0]] /\
  permutes [2; 2] (swap [0; 0] [1; 1]) /\ Nat.Even 2 /\ real_swaps [2; 2] [([0; 0], [1; 1])].
Proof.
  cbv zeta. split; [vm_compute; reflexivity|]. split; [vm_compute; reflexivity|].
  assert (V0 : valid [2; 2] [0; 0]) by (repeat constructor). assert (V1 : valid [2; 2] [1; 1]) by (repeat constructor).
  split; [apply permutes_swap; assumption|]. split; [exists 1; reflexivity|]. apply real_one; [exact V0 | exact V1 | discriminate].
Qed.

(** The disjunction of two qubits added to a third. *)
Example ex_C112_or :
  let ks := [CX 0 None 1; CX 1 None 1; CTof [0; 1] 2 1; CX 2 None 1; CX 0 None 1; CX 1 None 1]%Z : list (call S) in
  let f := fun s => Z.of_nat (Nat.max (level s 0) (level s 1)) in
  map (fun s => simulate (NumpyBackend S) (QList [2; 2; 2]%Z) (Some (map Z.of_nat s)) None ks) (all_configs [2; 2; 2])
  = map (fun s => Ok [(shown OutPrint (put s 2 (shift 2 (level s 2) (f s))), 1%Z)]) (all_configs [2; 2; 2]) /\
  forall s x, f (put s 2 x) = f s.
Proof. cbv zeta. split; [vm_compute; reflexivity|]. intros [|a [|b [|c s]]] x; reflexivity. Qed.

(** A cycle of three configurations of two qutrits; a single swap is odd. *)
Example ex_C112_qutrits :
  let ks := [CCX [0; 1] 1; CCX [1; 0] 1; CCX [0; 1] 2; CCX [1; 0] 2]%Z : list (call S) in
  let all := all_configs [3; 3] in
  map (fun s => simulate (NumpyBackend S) (QList [3; 3]%Z) (Some (map Z.of_nat s)) None ks) all
  = map (fun s => Ok [(shown OutPrint (swaps [([2; 2], [1; 2]); ([2; 1], [2; 2])] s), 1%Z)]) all /\
  real_swaps [3; 3] [([2; 2], [1; 2]); ([2; 1], [2; 2])] /\ ~ Nat.Even (length [([2; 2], [1; 2])]).
Proof.
  cbv zeta. split; [vm_compute; reflexivity|]. split.
  - intros a b [E|[E|[]]]; injection E as <- <-; (split; [repeat constructor | split; [repeat constructor | discriminate]]).
  - intros [m Hm]. cbn in Hm. lia.
Qed.

Example ex_C112_hypotheses :
  asks [3; 3] [CX 0 None 1; CCX [0; 1] 1]%Z [@GX S 0 1; GCX 0 1 1] /\ (forall g, In g [@GX S 0 1; GCX 0 1 1] -> reversible g) /\
  (forall d, In d [3; 3] -> 2 <= d /\ Nat.Odd d) /\ asks [4] [CX 0 None 3]%Z [@GX S 0 3].
Proof.
  split; [split; [constructor; [exact (@den_x S [3; 3] 0 None 1%Z (or_introl eq_refl)) | constructor; [exact (@den_cx S [3; 3] 0 1 1%Z) | constructor]]|]|split; [|split]].
  - constructor; [cbn; lia | constructor; [cbn; lia | constructor]].
  - intros g [<-|[<-|[]]]; cbn; [exact I | lia].
  - intros d [<-|[<-|[]]]; (split; [lia | exists 1; reflexivity]).
  - split; [constructor; [exact (@den_x S [4] 0 None 3%Z (or_introl eq_refl)) | constructor] | constructor; [cbn; lia | constructor]].
Qed.
End Examples.

Print Assumptions C112_every_permutation_can_be_programmed.
Print Assumptions C112_every_function_can_be_added_to_a_register.
Print Assumptions C112_even_permutations_can_be_programmed.
Print Assumptions C112_odd_dimensions_allow_even_permutations_only.
Print Assumptions C112_one_register_can_only_be_turned.
