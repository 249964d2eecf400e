(** * Exact: which exception one bad gate in a valid program raises. *)
From Verif Require Import Py Scalar Mat Utils Gates Circuit Spec Calls HistSpec Lib Kern GateMat GateTof Flow Layers Blocks Refine Run History Merge Errors Relate Construct Ignored BadGates.
Set Implicit Arguments.

Section Exact.
Variable S : scalar.
Hypothesis L : scalar_laws S.
Notation op := (op S).
Notation circuit := (circuit S).
Notation call := (call S).
Notation NB := (NumpyBackend S).

Lemma script_after : forall ks (c c' : circuit), script c ks = Ok c' -> after c ks = c'.
Proof.
  intros ks; induction ks as [|k ks IH]; intros c c' H; simpl in H; [injection H as ->; reflexivity|].
  unfold after. cbn [fold_left]. unfold step. destruct (api c k) as [[c1 b]|e]; cbn [bind] in H; [|discriminate].
  apply IH. exact H.
Qed.

Lemma after_app : forall ks ks' (c : circuit), after c (ks ++ ks') = after (after c ks) ks'.
Proof. intros ks ks' c. unfold after. apply fold_left_app. Qed.

Add Ring Sring : (sl_ring L).
Lemma identity_rows : forall d, orthonormal_rows S Nat.eqb (seq 0 d) (fun i j => if Nat.eqb i j then s1 else s0).
Proof.
  intros d i j Hi Hj. rewrite <- bsum_total.
  rewrite (@bsum_single S L _ _ (seq 0 d) i (seq_NoDup d 0) Hi).
  - rewrite Nat.eqb_refl, (Nat.eqb_sym j i). destruct (Nat.eqb i j); rewrite ?(sl_conj0 L), ?(sl_conj1 L).
    + replace (smul (@s1 S) s1) with (@s1 S) by ring. apply (sl_close_refl L).
    + replace (smul (@s1 S) s0) with (@s0 S) by ring. apply (sl_close_refl L).
  - intros k _ Hk. destruct (Nat.eqb_spec i k); [congruence|]. ring.
Qed.

(** Replacing a valid call by one that only differs in a matrix which raises
    [e] turns the result into [e]. *)
Lemma exact_bad : forall (R : op -> op -> Prop) e, (forall o, R o o) -> (forall o o', R o o' -> alike o o') ->
  (forall o o', R o o' -> unitary NB o = unitary NB o' \/ unitary NB o = Err e) ->
  forall dims levels out ty me ks1 ks2 k k' prog1 prog2 g,
  dims <> [] -> (forall d, In d dims -> 2 <= d) ->
  length levels <= length dims -> valid dims (start dims levels) -> wants dims out ty me ->
  Forall2 (denotes dims) ks1 prog1 -> Forall (gate_ok dims) prog1 ->
  Forall2 (denotes dims) ks2 prog2 -> Forall (gate_ok dims) prog2 ->
  denotes dims k' g -> gate_ok dims g ->
  (forall c : circuit, shaped dims c -> res_rel (arel R) (api c k) (api c k')) ->
  (forall c : circuit, history (QList (map Z.of_nat dims)) (Some (map Z.of_nat levels)) out ks1 c ->
     ~ In CMeasureAll ks1 -> exists c', api c k = Ok (c', true) /\ never_runs c') ->
  simulate NB (QList (map Z.of_nat dims)) (Some (map Z.of_nat levels)) out (ks1 ++ k :: ks2) = Err e.
Proof.
  intros R e Hrefl Halike Hbad dims levels out ty me ks1 ks2 k k' prog1 prog2 g
    Hne Hd Hlen Hv Hw HF1 Hok1 HF2 Hok2 Hk Hg Hrel Hnever.
  assert (Hpos : forall d, In d dims -> 0 < d) by (intros d H; specialize (Hd d H); lia).
  pose proof (@simulate_correct S L dims levels out ty me (ks1 ++ k' :: ks2) (prog1 ++ g :: prog2) Hne Hd Hlen Hv Hw) as Hgood.
  specialize (Hgood ltac:(apply Forall2_app; [assumption | constructor; assumption])
                    ltac:(apply Forall_app; split; [assumption | constructor; assumption])).
  destruct (@mk_circuit_good S dims levels out Hd Hlen Hv) as [c0 [E0 [Hg0 Eo0]]].
  destruct (script_good L Hne Hpos HF1 Hok1 Hg0) as [c1 [bss1 [E1 [Hg1 _]]]].
  unfold simulate in *. rewrite E0 in *. cbn [bind] in *. rewrite <- !app_assoc in *. rewrite !script_app in *. rewrite E1 in *. cbn [bind] in *.
  cbn [app script] in *.
  assert (Hm1 : ~ In CMeasureAll ks1).
  { clear - HF1. induction HF1 as [|k0 g0 ks prog Hk HF IH]; [auto|]. intros [->|X]; [inversion Hk | auto]. }
  assert (Hh : history (QList (map Z.of_nat dims)) (Some (map Z.of_nat levels)) out ks1 c1).
  { exists c0. split; [exact E0|]. symmetry. apply script_after. exact E1. }
  destruct (Hnever c1 Hh Hm1) as [cb [Eb Hn]].
  specialize (Hrel c1 (g_shaped Hg1)). rewrite Eb in *. cbn [bind].
  inversion Hrel as [a a' Hcc X Ea'|]; subst. destruct a' as [cg b']. rewrite <- Ea' in Hgood. cbn [bind] in Hgood.
  destruct Hcc as [Hcc _]. cbn [fst] in Hcc.
  pose proof (@script_rel S R Hrefl Halike (ks2 ++ [CMeasureAll]) cb cg Hcc) as Hs.
  inversion Hs as [cf cf' Hcf Ef Ef'|e' Ef Ef']; rewrite <- Ef' in Hgood; cbn [bind] in Hgood; [|discriminate].
  cbn [bind]. symmetry in Ef. apply script_after in Ef. destruct (Hn NB (ks2 ++ [CMeasureAll])) as [e' Ee']. rewrite Ef in Ee'.
  destruct (@run_or S R NB e Hbad cf cf' Hcf) as [Er|Er]; [|exact Er]. rewrite Er, Hgood in Ee'. discriminate.
Qed.

(** x with an increment outside -d .. d-1 *)
Theorem exact_x : forall dims levels out ty me ks1 ks2 r dm p prog1 prog2,
  dims <> [] -> (forall d, In d dims -> 2 <= d) ->
  length levels <= length dims -> valid dims (start dims levels) -> wants dims out ty me ->
  Forall2 (denotes dims) ks1 prog1 -> Forall (gate_ok dims) prog1 ->
  Forall2 (denotes dims) ks2 prog2 -> Forall (gate_ok dims) prog2 ->
  r < length dims -> dflt dims r dm -> (p < - Z.of_nat (nth r dims O) \/ Z.of_nat (nth r dims O) <= p)%Z ->
  simulate NB (QList (map Z.of_nat dims)) (Some (map Z.of_nat levels)) out (ks1 ++ CX (Z.of_nat r) dm p :: ks2) = Err IndexError.
Proof.
  intros dims levels out ty me ks1 ks2 r dm p prog1 prog2 Hne Hd Hlen Hv Hw HF1 Hok1 HF2 Hok2 Hr Hdm Hp.
  set (d := Z.of_nat (nth r dims 0)) in *.
  set (R := fun o o' : op => o = o' \/ o = OX (Z.of_nat r) d p /\ o' = OX (Z.of_nat r) d 0).
  apply (@exact_bad R IndexError) with (ty := ty) (me := me) (k' := CX (Z.of_nat r) dm 0) (prog1 := prog1) (prog2 := prog2) (g := GX r 0); auto.
  - left; reflexivity.
  - intros o o' [->|[-> ->]]; [apply alike_refl|]. unfold alike. simpl. repeat split. constructor. reflexivity.
  - intros o o' [->|[-> ->]]; [left; reflexivity|]. right. apply x_out. exact Hp.
  - constructor; exact Hdm.
  - split; [exact Hr|]. pose proof (Hd _ (nth_In dims 0 Hr)). lia.
  - intros c Hs. cbn [api]. 
    destruct (validate1 c (Z.of_nat r) dm); cbn [bind]; [|constructor].
    assert (Ed : dims_or c dm (Z.of_nat r) = Ok d).
    { unfold dims_or. rewrite (sh_dims Hs), (@Lib.py_get_nat Z _ _ 0%Z) by (rewrite map_length; exact Hr). rewrite nth_map_Z.
      destruct Hdm as [->|[->| ->]]; [reflexivity | reflexivity |]. fold d. destruct (d =? 0)%Z; reflexivity. }
    rewrite Ed. cbn [bind]. apply (@add_moment_rel S R); auto.
    + left; reflexivity.
    + intros o o' [->|[-> ->]]; [apply alike_refl|]. unfold alike. simpl. repeat split. constructor. reflexivity.
    + apply crel_refl. left; reflexivity.
    + reflexivity.
    + right. auto.
  - intros c Hc Hm. exact (@bad_x S dims _ _ _ c Hc Hm r dm p Hr Hdm Hp).
Qed.

(** gate with a matrix that is not unitary, or unitary of the wrong shape *)
Theorem exact_arb1 : forall dims levels out ty me ks1 ks2 r dm u e prog1 prog2,
  dims <> [] -> (forall d, In d dims -> 2 <= d) ->
  length levels <= length dims -> valid dims (start dims levels) -> wants dims out ty me ->
  Forall2 (denotes dims) ks1 prog1 -> Forall (gate_ok dims) prog1 ->
  Forall2 (denotes dims) ks2 prog2 -> Forall (gate_ok dims) prog2 ->
  r < length dims -> dflt dims r dm ->
  (is_unitary u = false /\ e = PlainException \/
   is_unitary u = true /\ (mr u <> nth r dims 0 \/ mc u <> nth r dims 0) /\ e = AssertionError) ->
  simulate NB (QList (map Z.of_nat dims)) (Some (map Z.of_nat levels)) out (ks1 ++ CGate u (RInt (Z.of_nat r)) dm :: ks2) = Err e.
Proof.
  intros dims levels out ty me ks1 ks2 r dm u e prog1 prog2 Hne Hd Hlen Hv Hw HF1 Hok1 HF2 Hok2 Hr Hdm Hu.
  set (d := nth r dims 0) in *. set (M := deye S d d).
  set (R := fun o o' : op => o = o' \/ o = OArb (RInt (Z.of_nat r)) (RInt (Z.of_nat d)) u /\
                                       o' = OArb (RInt (Z.of_nat r)) (RInt (Z.of_nat d)) M).
  assert (Halike : forall o o', R o o' -> alike o o').
  { intros o o' [->|[-> ->]]; [apply alike_refl|]. unfold alike. simpl. repeat split. constructor. reflexivity. }
  apply (@exact_bad R e) with (ty := ty) (me := me) (k' := CGate M (RInt (Z.of_nat r)) dm) (prog1 := prog1) (prog2 := prog2)
     (g := GU r (fun i j => if Nat.eqb i j then s1 else s0)); auto.
  - left; reflexivity.
  - intros o o' [->|[-> ->]]; [left; reflexivity|]. right. cbn [unitary]. unfold arb_unitary.
    destruct Hu as [[-> ->]|[-> [Hs ->]]]; [reflexivity|].
    destruct (Z.eqb_spec (Z.of_nat (mr u)) (Z.of_nat d)); [|reflexivity].
    destruct (Z.eqb_spec (Z.of_nat (mc u)) (Z.of_nat d)); [|reflexivity]. exfalso; destruct Hs; lia.
  - constructor; [exact Hdm | reflexivity | reflexivity |]. intros i j Hi Hj. unfold M, deye. rewrite mget_mkmat by assumption. reflexivity.
  - split; [exact Hr|]. apply identity_rows.
  - intros c Hs. cbn [api validate].
    destruct (validate1 c (Z.of_nat r) dm); cbn [bind]; [|constructor].
    assert (Ed : dims_or c dm (Z.of_nat r) = Ok (Z.of_nat d)).
    { unfold dims_or. rewrite (sh_dims Hs), (@Lib.py_get_nat Z _ _ 0%Z) by (rewrite map_length; exact Hr). rewrite nth_map_Z.
      destruct Hdm as [->|[->| ->]]; [reflexivity | reflexivity |]. fold d. destruct (Z.of_nat d =? 0)%Z; reflexivity. }
    rewrite Ed. cbn [bind]. apply (@add_moment_rel S R); auto.
    + left; reflexivity.
    + apply crel_refl. left; reflexivity.
    + reflexivity.
    + right. auto.
  - intros c Hc Hm. apply (@bad_arb1 S dims _ _ _ c Hc Hm r dm u Hr Hdm).
    destruct Hu as [[? _]|[_ [? _]]]; [left; assumption | right; assumption].
Qed.

(** gate on two registers *)
Theorem exact_arb2 : forall dims levels out ty me ks1 ks2 a b dm u e prog1 prog2,
  dims <> [] -> (forall d, In d dims -> 2 <= d) ->
  length levels <= length dims -> valid dims (start dims levels) -> wants dims out ty me ->
  Forall2 (denotes dims) ks1 prog1 -> Forall (gate_ok dims) prog1 ->
  Forall2 (denotes dims) ks2 prog2 -> Forall (gate_ok dims) prog2 ->
  a < length dims -> b < length dims -> dm = None \/ dm = Some 0%Z ->
  e = (if is_unitary u then AssertionError else PlainException) ->
  simulate NB (QList (map Z.of_nat dims)) (Some (map Z.of_nat levels)) out
    (ks1 ++ CGate u (RList [Z.of_nat a; Z.of_nat b]) dm :: ks2) = Err e.
Proof.
  intros dims levels out ty me ks1 ks2 a b dm u e prog1 prog2 Hne Hd Hlen Hv Hw HF1 Hok1 HF2 Hok2 Ha Hb Hdm Eu.
  set (ab := [Z.of_nat a; Z.of_nat b]).
  set (R := fun o o' : op => o = o' \/ exists ds, o = OArb (RList ab) (RList [Z.of_nat (nth a dims 0); Z.of_nat (nth b dims 0)]) u /\
                                       o' = OCX ds ab 0).
  assert (Halike : forall o o', R o o' -> alike o o').
  { intros o o' [->|[ds [-> ->]]]; [apply alike_refl|]. unfold alike. simpl. repeat split. constructor. reflexivity. }
  assert (Hrefl : forall o, R o o) by (left; reflexivity).
  apply (@exact_bad R e) with (ty := ty) (me := me) (k' := CCX ab 0) (prog1 := prog1) (prog2 := prog2) (g := GCX a b 0); auto.
  - intros o o' [->|[ds [-> ->]]]; [left; reflexivity|]. right. cbn [unitary]. unfold arb_unitary. rewrite Eu.
    destruct (is_unitary u); reflexivity.
  - constructor.
  - split; assumption.
  - intros c Hs. cbn [api validate].
    assert (Hg : forall r, r < length dims -> py_get (c_dims c) (Z.of_nat r) = Ok (Z.of_nat (nth r dims 0))).
    { intros r Hr. rewrite (sh_dims Hs), (@Lib.py_get_nat Z _ _ 0%Z) by (rewrite map_length; exact Hr). rewrite nth_map_Z. reflexivity. }
    assert (Hv1 : forall r, r < length dims -> validate1 c (Z.of_nat r) dm = Ok tt).
    { intros r Hr. unfold validate1. rewrite (sh_len Hs), (proj2 (Z.ltb_ge _ _)) by lia. destruct Hdm as [->| ->]; reflexivity. }
    assert (Ev : mapM (fun q => validate1 c q dm) ab = Ok [tt; tt]) by (unfold ab; cbn [mapM]; rewrite !Hv1 by assumption; reflexivity).
    assert (Ed : mapM (py_get (c_dims c)) ab = Ok [Z.of_nat (nth a dims 0); Z.of_nat (nth b dims 0)])
      by (unfold ab; cbn [mapM]; rewrite !Hg by assumption; reflexivity).
    rewrite Ev. cbn [bind].
    replace (match dm with
             | Some d => if (d =? 0)%Z then r <- mapM (py_get (c_dims c)) ab ;; Ok (RList r) else Ok (RInt d)
             | None => r <- mapM (py_get (c_dims c)) ab ;; Ok (RList r)
             end) with (Ok (RList [Z.of_nat (nth a dims 0); Z.of_nat (nth b dims 0)]))
      by (destruct Hdm as [->| ->]; rewrite Ed; reflexivity).
    cbn [bind]. unfold ab at 3 4.
    change (py_get [Z.of_nat a; Z.of_nat b] 0) with (Ok (Z.of_nat a)). change (py_get [Z.of_nat a; Z.of_nat b] 1) with (Ok (Z.of_nat b)). cbn [bind].
    apply (@add_moment_rel S R); auto.
    + apply crel_refl. exact Hrefl.
    + apply same_extent_refl.
    + right. eexists. split; reflexivity.
  - intros c Hc Hm. exact (@bad_arb2 S dims _ _ _ c Hc Hm a b dm u Hdm Ha Hb).
Qed.

End Exact.
