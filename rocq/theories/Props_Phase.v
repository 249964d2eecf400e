(** * Props_Phase: the three-qubit code against phase errors (C130). *)
From Coq Require Import Reals Lra String.
From Verif Require Import Py Scalar Mat Utils Gates Circuit Spec Calls Lib Run Refine Reversible PartsSpec Product Jozsa Complex ComplexSpec ComplexLib ComplexGates RenameSpec EmbedSpec Embed Protocols PhaseThm EmbedRun Props_Run Props_Embed.
Set Implicit Arguments.
Local Open Scope nat_scope.

(** The circuit for any error on one of the registers that acts as a diagonal matrix. *)
Lemma phase_code :
  forall ord, orders ord -> one_last ord 2 -> forall (B : backend (Cscalar ord)) dims levels out ty me ks1 prog1 a b c e ke g g0 u,
  supported B -> line dims levels -> wants dims out ty me -> asks dims ks1 prog1 ->
  NoDup [a; b; c] -> (forall r, In r [a; b; c] -> qubit_of dims r) ->
  (forall r, In r [b; c] -> level (start dims levels) r = 0 /\ forall g, In g prog1 -> ~ In r (changes g)) ->
  e < 3 -> denotes dims ke g -> gate_ok dims g -> g = rename (fun i => nth i [a; b; c] 0) g0 -> gate_ok (qubits 3) g0 ->
  together (fun i => nth i [a; b; c] 0) g0 ->
  (forall f s, valid (qubits 3) s -> apply (qubits 3) g0 f s = qu (S := Cscalar ord) e u f s) -> u 0 1 = s0 -> u 1 0 = s0 ->
  let go := simulate B (QList (map Z.of_nat dims)) (Some (map Z.of_nat levels)) out in
  let h r := CH (Z.of_nat r) None in
  let cx r q := CCX [Z.of_nat r; Z.of_nat q] 1%Z in
  exists l1 l2 : list (config * Cscalar ord),
    go ks1 = Ok (report ty me l1) /\
    go (ks1 ++ [cx a b; cx a c; h a; h b; h c; ke; h a; h b; h c; cx a b; cx a c; CTof [Z.of_nat b; Z.of_nat c] (Z.of_nat a) 1%Z]) = Ok (report ty me l2) /\
    (forall s x, In (s, x) (l1 ++ l2) -> valid dims s) /\
    forall s, valid dims s ->
      listed l2 s = Cmul (Cmul (/ 2, 0)%R
                           (if config_eqb [level s b; level s c] [0; 0] then Cadd (u 0 0) (u 1 1)
                            else if config_eqb [level s b; level s c] (nth e [[1; 1]; [1; 0]; [0; 1]] []) then Cadd (u 0 0) (Copp (u 1 1)) else C0))
                         (listed l1 (put (put (put s c 0) b 0) a (level s a))).
Proof.
  intros ord Ho H1 B dims levels out ty me ks1 prog1 a b c e ke g g0 u HB HL Hw A1 Hn Hq Hz He Hd Hg Eg Hg0 Ht0 Hu U1 U2 go h cx.
  pose proof (Cscalar_laws Ho) as L.
  destruct (Hq a) as [La Da]; [simpl; auto|]. destruct (Hq b) as [Lb Db]; [simpl; auto|]. destruct (Hq c) as [Lc Dc]; [simpl; auto|].
  destruct (Hz b) as [Zb Cb]; [simpl; auto|]. destruct (Hz c) as [Zc Cc]; [simpl; auto|].
  assert (Hr : forall r, In r [a; b; c] -> r < length dims) by (intros r H; apply Hq, H).
  assert (Es : part [a; b; c] dims = qubits 3) by (unfold part; cbn [map]; rewrite Da, Db, Dc; reflexivity).
  assert (Na : a <> b /\ a <> c /\ b <> c).
  { apply NoDup_cons_iff in Hn as [Na Hn]. apply NoDup_cons_iff in Hn as [Nb _]. simpl in Na, Nb. repeat split; intros ->; tauto. }
  destruct Na as [Nab [Nac Nbc]].
  destruct (@part_run _ L B dims levels out ty me HB HL Hw ks1 [cx a b; cx a c; h a; h b; h c; ke; h a; h b; h c; cx a b; cx a c; CTof [Z.of_nat b; Z.of_nat c] (Z.of_nat a) 1%Z]
     prog1 [a; b; c] (phased g0) Hn Hr A1) as [l2 [R1 [R2 [V E]]]].
  - assert (Gh : forall r, denotes (S := Cscalar ord) dims (h r) (GH r)) by (intros r; apply (@den_h _ dims r None); left; reflexivity).
    assert (Gc : forall r q, denotes (S := Cscalar ord) dims (cx r q) (GCX r q 1)) by (intros r q0; apply den_cx).
    assert (Gt : denotes (S := Cscalar ord) dims (CTof [Z.of_nat b; Z.of_nat c] (Z.of_nat a) 1%Z) (GTof [b; c] a 1)) by (apply (@den_tof _ dims [b; c] a 1)).
    rewrite Eg in Hd, Hg.
    split; [repeat (constructor; [first [apply Gh | apply Gc | exact Hd | exact Gt]|]); constructor|].
    repeat (constructor; [first [exact Hg | assumption | split; assumption]|]). constructor; [|constructor]. cbn [rename map nth gate_ok].
    split; [intros x [<-|[<-|[]]]; assumption|]. split; [assumption|]. split; [intros [->|[->|[]]]; congruence|].
    intros [lo [_ [_ H]]]. pose proof (H a ltac:(simpl; auto)). pose proof (H b ltac:(simpl; auto)). pose proof (H c ltac:(simpl; auto)). lia.
  - rewrite Es. do 5 (constructor; [simpl; lia|]). constructor; [exact Hg0|]. do 5 (constructor; [simpl; lia|]). constructor; [|constructor]. simpl.
    split; [intros x [<-|[<-|[]]]; lia|]. split; [lia|]. split; [intros [|[|[]]]; discriminate|].
    intros [lo [_ [_ H]]]. pose proof (H 0 ltac:(simpl; auto)). pose proof (H 1 ltac:(simpl; auto)). pose proof (H 2 ltac:(simpl; auto)). lia.
  - intros g' Hg'. repeat (destruct Hg' as [<-|Hg']; [first [exact Ht0 | exact I]|]). destruct Hg'.
  - eexists; exists l2. split; [exact R1|]. split; [exact R2|]. split; [exact V|].
    intros s Hs. rewrite E by exact Hs. rewrite Es. pose proof (valid_length Hs) as Ls.
    rewrite (@phase_restored _ L (roots_2 Ho H1) (half_2 ord) e u) by first [exact He | exact U1 | exact U2 | exact Hu | rewrite <- Es; apply there_valid; assumption |
      intros x y z N; (destruct N as [N|N]; [apply (@still_zero _ L dims levels ks1 prog1 b _ A1) | apply (@still_zero _ L dims levels ks1 prog1 c _ A1)]; try assumption; cbn [puts];
        rewrite !level_put by (rewrite ?Moved.put_length, ?Ls; assumption);
        rewrite ?Nat.eqb_refl, ?(proj2 (Nat.eqb_neq b a)), ?(proj2 (Nat.eqb_neq c a)), ?(proj2 (Nat.eqb_neq c b)) by congruence; exact N)].
    unfold between, syndrome. cbn [Nat.eqb there map level nth]. rewrite scale_sq by lia. cbn [puts].
    change (level [level s a; level s b; level s c] 1) with (level s b). change (level [level s a; level s b; level s c] 2) with (level s c).
    change (level [level s a; level s b; level s c] 0) with (level s a).
    repeat match goal with |- context [if ?x then _ else _] => destruct x end; try reflexivity.
    apply C_ext; simpl; ring.
Qed.

(** ** C130 *)
Theorem C130_phase_code :
  forall ord, orders ord -> one_last ord 2 -> forall (B : backend (Cscalar ord)) dims levels out ty me ks1 prog1 a b c e (M : mat (Cscalar ord)) p q,
  supported B -> line dims levels -> wants dims out ty me -> asks dims ks1 prog1 ->
  NoDup [a; b; c] -> (forall r, In r [a; b; c] -> qubit_of dims r) ->
  (forall r, In r [b; c] -> level (start dims levels) r = 0 /\ forall g, In g prog1 -> ~ In r (changes g)) ->
  e < 3 -> mr M = 2 -> mc M = 2 -> mget M 0 0 = p -> mget M 1 1 = q -> mget M 0 1 = C0 -> mget M 1 0 = C0 ->
  gate_ok dims (GU (nth e [a; b; c] 0) (mget M)) ->
  let go := simulate B (QList (map Z.of_nat dims)) (Some (map Z.of_nat levels)) out in
  let h r := CH (Z.of_nat r) None in
  let cx r q := CCX [Z.of_nat r; Z.of_nat q] 1%Z in
  exists l1 l2 : list (config * Cscalar ord),
    go ks1 = Ok (report ty me l1) /\
    go (ks1 ++ [cx a b; cx a c; h a; h b; h c; CGate M (RInt (Z.of_nat (nth e [a; b; c] 0))) None; h a; h b; h c; cx a b; cx a c;
                CTof [Z.of_nat b; Z.of_nat c] (Z.of_nat a) 1%Z]) = Ok (report ty me l2) /\
    (forall s x, In (s, x) (l1 ++ l2) -> valid dims s) /\
    forall s, valid dims s ->
      listed l2 s = Cmul (Cmul (/ 2, 0)%R
                           (if config_eqb [level s b; level s c] [0; 0] then Cadd p q
                            else if config_eqb [level s b; level s c] (nth e [[1; 1]; [1; 0]; [0; 1]] []) then Cadd p (Copp q) else C0))
                         (listed l1 (put (put (put s c 0) b 0) a (level s a))).
Proof.
  intros ord Ho H1 B dims levels out ty me ks1 prog1 a b c e M p q HB HL Hw A1 Hn Hq Hz He Hr1 Hc1 <- <- M1 M2 HU.
  assert (De : nth (nth e [a; b; c] 0) dims 0 = 2) by (destruct e as [|[|[|e]]]; try lia; apply Hq; simpl; auto).
  apply phase_code with (prog1 := prog1) (g := GU (nth e [a; b; c] 0) (mget M)) (g0 := GU e (mget M)); try assumption.
  - apply den_u; [left; reflexivity | congruence | congruence | reflexivity].
  - reflexivity.
  - cbn [gate_ok]. rewrite len_qubits. split; [exact He|]. destruct HU as [_ HU]. rewrite De in HU. rewrite (nth_qubits He). exact HU.
  - exact I.
  - intros f s Hs. apply (@apply_qu _ (Cscalar_laws Ho)); [lia | exact Hs].
Qed.

(** A z on one of the three registers is found out and undone, up to the sign. *)
Theorem C130_a_z_is_undone :
  forall ord, orders ord -> one_last ord 2 -> forall (B : backend (Cscalar ord)) dims levels out ty me ks1 prog1 a b c e,
  supported B -> line dims levels -> wants dims out ty me -> asks dims ks1 prog1 ->
  NoDup [a; b; c] -> (forall r, In r [a; b; c] -> qubit_of dims r) ->
  (forall r, In r [b; c] -> level (start dims levels) r = 0 /\ forall g, In g prog1 -> ~ In r (changes g)) ->
  e < 3 ->
  let go := simulate B (QList (map Z.of_nat dims)) (Some (map Z.of_nat levels)) out in
  let h r := CH (Z.of_nat r) None in
  let cx r q := CCX [Z.of_nat r; Z.of_nat q] 1%Z in
  exists l1 l2 : list (config * Cscalar ord),
    go ks1 = Ok (report ty me l1) /\
    go (ks1 ++ [cx a b; cx a c; h a; h b; h c; CZ (Z.of_nat (nth e [a; b; c] 0)) None; h a; h b; h c; cx a b; cx a c;
                CTof [Z.of_nat b; Z.of_nat c] (Z.of_nat a) 1%Z]) = Ok (report ty me l2) /\
    (forall s x, In (s, x) (l1 ++ l2) -> valid dims s) /\
    forall s, valid dims s ->
      listed l2 s = if config_eqb [level s b; level s c] (nth e [[1; 1]; [1; 0]; [0; 1]] [])
                    then Copp (listed l1 (put (put (put s c 0) b 0) a (level s a))) else C0.
Proof.
  intros ord Ho H1 B dims levels out ty me ks1 prog1 a b c e HB HL Hw A1 Hn Hq Hz He go h cx.
  pose (u := fun i j : nat => if Nat.eqb i j then (if Nat.eqb i 1 then C1 else Copp C1) else C0).
  destruct (@phase_code ord Ho H1 B dims levels out ty me ks1 prog1 a b c e (CZ (Z.of_nat (nth e [a; b; c] 0)) None) (GZ (nth e [a; b; c] 0)) (GZ e) u) as [l1 [l2 [R1 [R2 [V E]]]]]; try assumption; try reflexivity; try exact I.
  - apply (@den_z _ dims (nth e [a; b; c] 0) None). left; reflexivity.
  - simpl. destruct e as [|[|[|e]]]; try lia; apply Hq; simpl; auto.
  - intros f s Hs. rewrite (@apply_qz _ (Cscalar_laws Ho) (roots_2 Ho H1)) by first [lia | exact Hs].
    pose proof (bit_level Hs He) as Hb. unfold qz, qu, u. pose proof (put_level s e) as Ep.
    destruct (level s e) as [|[|x]]; [| |lia]; cbn [Nat.eqb]; rewrite Ep; apply C_ext; simpl; ring.
  - exists l1, l2. split; [exact R1|]. split; [exact R2|]. split; [exact V|]. intros s Hs. rewrite E by exact Hs. unfold u. cbn [Nat.eqb].
    destruct (config_eqb _ [0; 0]) eqn:E0.
    + apply config_eqb_eq in E0. injection E0 as E0b E0c. rewrite E0b, E0c.
      replace (config_eqb [0; 0] (nth e [[1; 1]; [1; 0]; [0; 1]] [])) with false by (destruct e as [|[|[|e]]]; try lia; reflexivity).
      apply C_ext; simpl; ring.
    + destruct (config_eqb [level s b; level s c] (nth e [[1; 1]; [1; 0]; [0; 1]] [])); (match goal with |- context [listed l1 ?w] => generalize (listed l1 w) end); intros x; apply C_ext; simpl; field.
Qed.

(** ** Concrete cases, with integers for amplitudes: h is not scaled, so every
    amplitude is 8 times too large. *)
Section Examples.
Let S := Zscalar.
Let go (ks : list (call S)) := simulate (NumpyBackend S) (QList [2; 3; 2; 2]%Z) (Some []) None ks.
Let code (k : call S) : list (call S) :=
  [CH 0 None; CCX [0; 1] 2; CCX [0; 2] 1; CCX [0; 3] 1; CH 0 None; CH 2 None; CH 3 None; k;
   CH 0 None; CH 2 None; CH 3 None; CCX [0; 2] 1; CCX [0; 3] 1; CTof [2; 3] 0 1]%Z.

(** The hypotheses are those of ex_start in Props_Embed.v and the error. *)
Example ex_C130_error :
  let M := mkmat (S := S) 2 2 (fun i j => if Nat.eqb i j then (if Nat.eqb i 0 then 1 else -1) else 0)%Z in
  gate_ok [2; 3; 2; 2] (GU 3 (mget M)) /\
  go (code (CGate M (RInt 3) None)) = Ok [(LStr "|0001>", 8%Z); (LStr "|1201>", 8%Z)]%string.
Proof.
  split; [|vm_compute; reflexivity]. split; [simpl; lia|]. intros i j Hi Hj. apply in_seq in Hi, Hj. simpl in Hi, Hj.
  destruct i as [|[|i]]; try lia; destruct j as [|[|j]]; try lia; reflexivity.
Qed.
Example ex_C130_z :
  map (fun r => go (code (CZ r None))) [0; 2; 3]%Z
  = map (fun t => Ok [(LStr ("|00" ++ t ++ ">"), -8); (LStr ("|12" ++ t ++ ">"), -8)]%Z%string) ["11"; "10"; "01"]%string.
Proof. vm_compute. reflexivity. Qed.
End Examples.

Print Assumptions C130_phase_code.
Print Assumptions C130_a_z_is_undone.
