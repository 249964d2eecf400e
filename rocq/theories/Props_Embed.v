(** * Props_Embed: circuits on some registers of a line (C121), and three
    circuits that use this: teleportation (C122), superdense coding (C123) and
    the repetition code (C124). *)
From Coq Require Import Reals Lra String.
From Verif Require Import Py Scalar Mat Utils Gates Circuit Spec Calls Lib Run Refine Reversible PartsSpec Product Jozsa Complex ComplexSpec ComplexLib ComplexGates RenameSpec EmbedSpec Embed Protocols EmbedRun Props_Run.
Set Implicit Arguments.
Local Open Scope nat_scope.

(** ** C121 *)
Theorem C121_a_circuit_on_some_registers_acts_as_it_does_alone :
  forall S (L : scalar_laws S) (B : backend S) dims levels out out' ty me rs ks1 prog1 ks ks' prog,
  supported B -> line dims levels -> wants dims out ty me -> wants (part rs dims) out' ty me -> asks dims ks1 prog1 ->
  rs <> [] -> NoDup rs -> (forall r, In r rs -> r < length dims) ->
  asks (part rs dims) ks prog -> asks dims ks' (map (rename (fun i => nth i rs 0)) prog) ->
  (forall g, In g prog -> together (fun i => nth i rs 0) g) ->
  exists l1 l2 l,
    simulate B (QList (map Z.of_nat dims)) (Some (map Z.of_nat levels)) out ks1 = Ok (report ty me l1) /\
    simulate B (QList (map Z.of_nat dims)) (Some (map Z.of_nat levels)) out (ks1 ++ ks') = Ok (report ty me l2) /\
    (forall t, valid (part rs dims) t ->
       simulate B (QList (map Z.of_nat (part rs dims))) (Some (map Z.of_nat t)) out' ks = Ok (report ty me (l t))) /\
    (forall s a, In (s, a) (l1 ++ l2) -> valid dims s) /\
    forall s, valid dims s ->
      listed l2 s = total S (fun t => smul (listed (l t) (there rs s)) (listed l1 (puts s rs t))) (all_configs (part rs dims)).
Proof.
  intros S L B dims levels out out' ty me rs ks1 prog1 ks ks' prog HB HL Hw Hw' A1 Hne Hn Hr A A' Hto.
  destruct (@part_run S L B dims levels out ty me HB HL Hw ks1 ks' prog1 rs prog Hn Hr A1 A' (proj2 A) Hto) as [l2 [R1 [R2 [V E]]]].
  exists (answer dims (final dims prog1 (basis S (start dims levels)))), l2, (fun t => answer (part rs dims) (final (part rs dims) prog (basis S t))).
  split; [exact R1|]. split; [exact R2|]. split; [|split; [exact V|]].
  - intros t Ht. pose proof (valid_length Ht) as Lt.
    assert (Es : start (part rs dims) t = t) by (unfold start; rewrite Lt, Nat.sub_diag; apply app_nil_r).
    etransitivity; [apply (C01_run_applies_gates_in_order S L B (part rs dims) t out' ty me ks prog HB)|].
    + split; [destruct rs; [congruence | discriminate]|]. split; [|split; [lia | rewrite Es; exact Ht]].
      intros d Hd. apply in_map_iff in Hd as [r [<- Hin]]. apply HL, nth_In, Hr, Hin.
    + exact Hw'.
    + exact A.
    + rewrite Es. reflexivity.
  - intros s Hs. rewrite E by exact Hs. rewrite (final_sum L) by (apply there_valid; assumption).
    rewrite <- bsum_total. apply bsum_ext. intros t Ht. apply in_all_configs in Ht. f_equal. symmetry. apply (listed_answer L). apply there_valid; assumption.
Qed.

(** ** C122: teleportation *)
Definition qubit_of (dims : list nat) (r : nat) : Prop := r < length dims /\ nth r dims 0 = 2.

Lemma roots_2 : forall ord, orders ord -> one_last ord 2 -> sroots 2 = [sopp s1; s1] :> list (Cscalar ord).
Proof.
  intros ord Ho H. unfold Cscalar. cbn [sroots sopp s1]. rewrite (ord_2 Ho H). cbn [map]. rewrite root_2_1, root_0. repeat f_equal; apply C_ext; simpl; ring.
Qed.
Lemma half_2 : forall ord, smul (s := Cscalar ord) (smul (sisqrt 2) (sisqrt 2)) (sadd s1 s1) = s1.
Proof. intros ord. rewrite scale_sq by lia. apply C_ext; simpl; field. Qed.

Theorem C122_teleportation :
  forall ord, orders ord -> one_last ord 2 -> forall (B : backend (Cscalar ord)) dims levels out ty me ks1 prog1 a b c,
  supported B -> line dims levels -> wants dims out ty me -> asks dims ks1 prog1 ->
  NoDup [a; b; c] -> (forall r, In r [a; b; c] -> qubit_of dims r) ->
  (forall r, In r [b; c] -> level (start dims levels) r = 0 /\ forall g, In g prog1 -> ~ In r (changes g)) ->
  let go := simulate B (QList (map Z.of_nat dims)) (Some (map Z.of_nat levels)) out in
  let h r := CH (Z.of_nat r) None in
  let cx r q := CCX [Z.of_nat r; Z.of_nat q] 1%Z in
  exists l1 l2 : list (config * Cscalar ord),
    go ks1 = Ok (report ty me l1) /\
    go (ks1 ++ [h b; cx b c; cx a b; h a; cx b c; h c; cx a c; h c]) = Ok (report ty me l2) /\
    (forall s x, In (s, x) (l1 ++ l2) -> valid dims s) /\
    forall s, valid dims s ->
      listed l2 s = Cmul (/ 2, 0)%R (listed l1 (put (put (put s c 0) b 0) a (level s c))).
Proof.
  intros ord Ho H1 B dims levels out ty me ks1 prog1 a b c HB HL Hw A1 Hn Hq Hz go h cx.
  pose proof (Cscalar_laws Ho) as L.
  destruct (Hq a) as [La Da]; [simpl; auto|]. destruct (Hq b) as [Lb Db]; [simpl; auto|]. destruct (Hq c) as [Lc Dc]; [simpl; auto|].
  destruct (Hz b) as [Zb Cb]; [simpl; auto|]. destruct (Hz c) as [Zc Cc]; [simpl; auto|].
  assert (Hr : forall r, In r [a; b; c] -> r < length dims) by (intros r H; apply Hq, H).
  assert (Es : part [a; b; c] dims = qubits 3) by (unfold part; cbn [map]; rewrite Da, Db, Dc; reflexivity).
  destruct (@part_run _ L B dims levels out ty me HB HL Hw ks1 [h b; cx b c; cx a b; h a; cx b c; h c; cx a c; h c] prog1 [a; b; c] (teleporting (Cscalar ord)) Hn Hr A1) as [l2 [R1 [R2 [V E]]]].
  - assert (Gh : forall r, denotes (S := Cscalar ord) dims (h r) (GH r)) by (intros r; apply (@den_h _ dims r None); left; reflexivity).
    assert (Gc : forall r q, denotes (S := Cscalar ord) dims (cx r q) (GCX r q 1)) by (intros r q; apply den_cx).
    split; [repeat (constructor; [first [apply Gh | apply Gc]|]); constructor|].
    repeat (constructor; [simpl; first [assumption | split; assumption]|]). constructor.
  - rewrite Es. repeat (constructor; [simpl; lia|]). constructor.
  - intros g Hg. repeat (destruct Hg as [<-|Hg]; [exact I|]). destruct Hg.
  - eexists; exists l2. split; [exact R1|]. split; [exact R2|]. split; [exact V|].
    intros s Hs. rewrite E by exact Hs. rewrite Es. rewrite (teleported L (roots_2 Ho H1) (half_2 ord)).
    + rewrite scale_sq by lia. reflexivity.
    + rewrite <- Es. apply there_valid; assumption.
    + intros x y z Hne.
      destruct Hne as [Hne|Hne]; [apply (@still_zero _ L dims levels ks1 prog1 b _ A1) | apply (@still_zero _ L dims levels ks1 prog1 c _ A1)]; try assumption.
      * cbn [puts]. pose proof (valid_length Hs) as Ls. apply NoDup_cons_iff in Hn as [Na Hn].
        assert (b <> a) by (intros ->; apply Na; simpl; auto).
        rewrite !level_put by (rewrite ?Moved.put_length, ?Ls; assumption). rewrite Nat.eqb_refl. rewrite (proj2 (Nat.eqb_neq b a)) by assumption. exact Hne.
      * cbn [puts]. pose proof (valid_length Hs) as Ls. apply NoDup_cons_iff in Hn as [Na Hn]. apply NoDup_cons_iff in Hn as [Nb _].
        assert (c <> a) by (intros ->; apply Na; simpl; auto). assert (c <> b) by (intros ->; apply Nb; simpl; auto).
        rewrite !level_put by (rewrite ?Moved.put_length, ?Ls; assumption). rewrite Nat.eqb_refl.
        rewrite (proj2 (Nat.eqb_neq c a)), (proj2 (Nat.eqb_neq c b)) by assumption. exact Hne.
Qed.

(** ** C123: superdense coding *)
Theorem C123_superdense_coding :
  forall ord, orders ord -> one_last ord 2 -> forall (B : backend (Cscalar ord)) dims levels out ty me ks1 prog1 a b (m k : bool),
  supported B -> line dims levels -> wants dims out ty me -> asks dims ks1 prog1 ->
  a <> b -> (forall r, In r [a; b] -> qubit_of dims r) ->
  (forall r, In r [a; b] -> level (start dims levels) r = 0 /\ forall g, In g prog1 -> ~ In r (changes g)) ->
  let go := simulate B (QList (map Z.of_nat dims)) (Some (map Z.of_nat levels)) out in
  let za := Z.of_nat a in let zb := Z.of_nat b in
  exists l1 l2 : list (config * Cscalar ord),
    go ks1 = Ok (report ty me l1) /\
    go (ks1 ++ [CH za None; CCX [za; zb] 1%Z] ++ (if k then [CX za None 1%Z] else []) ++ (if m then [CZ za None] else [])
            ++ [CCX [za; zb] 1%Z; CH za None]) = Ok (report ty me l2) /\
    (forall s x, In (s, x) (l1 ++ l2) -> valid dims s) /\
    forall s, valid dims s ->
      listed l2 s = if (level s a =? Nat.b2n m) && (level s b =? Nat.b2n k)
                    then (if m then Copp (listed l1 (put (put s b 0) a 0)) else listed l1 (put (put s b 0) a 0))
                    else C0.
Proof.
  intros ord Ho H1 B dims levels out ty me ks1 prog1 a b m k HB HL Hw A1 Hne Hq Hz go za zb.
  pose proof (Cscalar_laws Ho) as L.
  destruct (Hq a) as [La Da]; [simpl; auto|]. destruct (Hq b) as [Lb Db]; [simpl; auto|].
  destruct (Hz a) as [Za Ca]; [simpl; auto|]. destruct (Hz b) as [Zb Cb]; [simpl; auto|].
  assert (Hr : forall r, In r [a; b] -> r < length dims) by (intros r H; apply Hq, H).
  assert (Hn : NoDup [a; b]) by (constructor; [intros [->|[]]; congruence | constructor; [intros [] | constructor]]).
  assert (Es : part [a; b] dims = qubits 2) by (unfold part; cbn [map]; rewrite Da, Db; reflexivity).
  destruct (@part_run _ L B dims levels out ty me HB HL Hw ks1 ([CH za None; CCX [za; zb] 1%Z] ++ (if k then [CX za None 1%Z] else []) ++ (if m then [CZ za None] else [])
            ++ [CCX [za; zb] 1%Z; CH za None]) prog1 [a; b] (dense (Cscalar ord) m k) Hn Hr A1) as [l2 [R1 [R2 [V E]]]].
  - assert (Gh : denotes (S := Cscalar ord) dims (CH za None) (GH a)) by (apply (@den_h _ dims a None); left; reflexivity).
    assert (Gz : denotes (S := Cscalar ord) dims (CZ za None) (GZ a)) by (apply (@den_z _ dims a None); left; reflexivity).
    assert (Gx : denotes (S := Cscalar ord) dims (CX za None 1%Z) (GX a 1)) by (apply (@den_x _ dims a None); left; reflexivity).
    assert (Gc : denotes (S := Cscalar ord) dims (CCX [za; zb] 1%Z) (GCX a b 1)) by apply den_cx.
    destruct m, k; (split; [repeat (constructor; [first [exact Gh | exact Gc | exact Gx | exact Gz]|]); constructor|]);
    repeat (constructor; [simpl; first [assumption | split; assumption | rewrite Da; split; [assumption | lia]]|]); constructor.
  - rewrite Es. destruct m, k; repeat (constructor; [simpl; lia|]); constructor.
  - intros g Hg. destruct m, k; (repeat (destruct Hg as [<-|Hg]; [exact I|]); destruct Hg).
  - eexists; exists l2. split; [exact R1|]. split; [exact R2|]. split; [exact V|].
    intros s Hs. rewrite E by exact Hs. rewrite Es. pose proof (valid_length Hs) as Ls.
    rewrite (densely L (roots_2 Ho H1) (half_2 ord)).
    + cbn [puts there map]. replace (config_eqb [level s a; level s b] [Nat.b2n m; Nat.b2n k]) with ((level s a =? Nat.b2n m) && (level s b =? Nat.b2n k)); [reflexivity|].
      symmetry. destruct (Nat.eqb_spec (level s a) (Nat.b2n m)) as [->|N]; [destruct (Nat.eqb_spec (level s b) (Nat.b2n k)) as [->|N]|]; cbn [andb];
        [apply config_eqb_refl | apply config_eqb_neq; congruence | apply config_eqb_neq; congruence].
    + rewrite <- Es. apply there_valid; assumption.
    + intros x y N. destruct N as [N|N]; [apply (@still_zero _ L dims levels ks1 prog1 a _ A1) | apply (@still_zero _ L dims levels ks1 prog1 b _ A1)]; try assumption; cbn [puts];
        rewrite !level_put by (rewrite ?Moved.put_length, ?Ls; assumption); rewrite ?Nat.eqb_refl, ?(proj2 (Nat.eqb_neq b a)) by congruence; exact N.
Qed.

(** ** C124: the repetition code *)
Theorem C124_repetition_code :
  forall S (L : scalar_laws S) (B : backend S) dims levels out ty me ks1 prog1 a b c e M p q,
  supported B -> line dims levels -> wants dims out ty me -> asks dims ks1 prog1 ->
  NoDup [a; b; c] -> (forall r, In r [a; b; c] -> qubit_of dims r) ->
  (forall r, In r [b; c] -> level (start dims levels) r = 0 /\ forall g, In g prog1 -> ~ In r (changes g)) ->
  e < 3 -> mr M = 2 -> mc M = 2 -> (forall i j, i < 2 -> j < 2 -> mget M i j = if Nat.eqb i j then p else q) ->
  gate_ok dims (GU (nth e [a; b; c] 0) (mget M)) ->
  let go := simulate B (QList (map Z.of_nat dims)) (Some (map Z.of_nat levels)) out in
  let cx r q := CCX [Z.of_nat r; Z.of_nat q] 1%Z in
  exists l1 l2 : list (config * S),
    go ks1 = Ok (report ty me l1) /\
    go (ks1 ++ [cx a b; cx a c; CGate M (RInt (Z.of_nat (nth e [a; b; c] 0))) None; cx a b; cx a c; CTof [Z.of_nat b; Z.of_nat c] (Z.of_nat a) 1%Z]) = Ok (report ty me l2) /\
    (forall s x, In (s, x) (l1 ++ l2) -> valid dims s) /\
    forall s, valid dims s ->
      listed l2 s = smul (if config_eqb [level s b; level s c] [0; 0] then p
                          else if config_eqb [level s b; level s c] (nth e [[1; 1]; [1; 0]; [0; 1]] []) then q else s0)
                         (listed l1 (put (put (put s c 0) b 0) a (level s a))).
Proof.
  intros S L B dims levels out ty me ks1 prog1 a b c e M p q HB HL Hw A1 Hn Hq Hz He Hr1 Hc1 HM HU go cx.
  destruct (Hq a) as [La Da]; [simpl; auto|]. destruct (Hq b) as [Lb Db]; [simpl; auto|]. destruct (Hq c) as [Lc Dc]; [simpl; auto|].
  destruct (Hz b) as [Zb Cb]; [simpl; auto|]. destruct (Hz c) as [Zc Cc]; [simpl; auto|].
  assert (Hr : forall r, In r [a; b; c] -> r < length dims) by (intros r H; apply Hq, H).
  assert (Es : part [a; b; c] dims = qubits 3) by (unfold part; cbn [map]; rewrite Da, Db, Dc; reflexivity).
  assert (Na : a <> b /\ a <> c /\ b <> c).
  { apply NoDup_cons_iff in Hn as [Na Hn]. apply NoDup_cons_iff in Hn as [Nb _]. simpl in Na, Nb. repeat split; intros ->; tauto. }
  destruct Na as [Nab [Nac Nbc]].
  assert (De : nth (nth e [a; b; c] 0) dims 0 = 2) by (destruct e as [|[|[|e]]]; [exact Da | exact Db | exact Dc | lia]).
  destruct (@part_run _ L B dims levels out ty me HB HL Hw ks1 [cx a b; cx a c; CGate M (RInt (Z.of_nat (nth e [a; b; c] 0))) None; cx a b; cx a c; CTof [Z.of_nat b; Z.of_nat c] (Z.of_nat a) 1%Z]
     prog1 [a; b; c] (repeated S e (mget M)) Hn Hr A1) as [l2 [R1 [R2 [V E]]]].
  - assert (Gc : forall r q, denotes (S := S) dims (cx r q) (GCX r q 1)) by (intros r q0; apply den_cx).
    assert (Gu : denotes dims (CGate M (RInt (Z.of_nat (nth e [a; b; c] 0))) None) (GU (nth e [a; b; c] 0) (mget M))).
    { apply den_u; [left; reflexivity | congruence | congruence | reflexivity]. }
    assert (Gt : denotes (S := S) dims (CTof [Z.of_nat b; Z.of_nat c] (Z.of_nat a) 1%Z) (GTof [b; c] a 1)) by (apply (@den_tof S dims [b; c] a 1)).
    split; [repeat (constructor; [first [apply Gc | exact Gu | exact Gt]|]); constructor|].
    repeat (constructor; [first [split; assumption | exact HU]|]). constructor; [|constructor]. cbn [rename map nth gate_ok].
    split; [intros x [<-|[<-|[]]]; assumption|]. split; [assumption|]. split; [intros [->|[->|[]]]; congruence|].
    intros [lo [_ [_ H]]]. pose proof (H a ltac:(simpl; auto)). pose proof (H b ltac:(simpl; auto)). pose proof (H c ltac:(simpl; auto)). lia.
  - rewrite Es. constructor; [simpl; lia|]. constructor; [simpl; lia|]. constructor.
    { cbn [gate_ok]. rewrite len_qubits. split; [exact He|]. destruct HU as [_ HU]. rewrite De in HU. rewrite (nth_qubits He). exact HU. }
    constructor; [simpl; lia|]. constructor; [simpl; lia|]. constructor; [|constructor]. simpl.
    split; [intros x [<-|[<-|[]]]; lia|]. split; [lia|]. split; [intros [|[|[]]]; discriminate|].
    intros [lo [_ [_ H]]]. pose proof (H 0 ltac:(simpl; auto)). pose proof (H 1 ltac:(simpl; auto)). pose proof (H 2 ltac:(simpl; auto)). lia.
  - intros g Hg. repeat (destruct Hg as [<-|Hg]; [exact I|]). destruct Hg.
  - eexists; exists l2. split; [exact R1|]. split; [exact R2|]. split; [exact V|].
    intros s Hs. rewrite E by exact Hs. rewrite Es. pose proof (valid_length Hs) as Ls.
    rewrite (@restored S L e (mget M) p q) by first [exact He | rewrite HM by lia; reflexivity | rewrite <- Es; apply there_valid; assumption | 
      intros x y z N; (destruct N as [N|N]; [apply (@still_zero _ L dims levels ks1 prog1 b _ A1) | apply (@still_zero _ L dims levels ks1 prog1 c _ A1)]; try assumption; cbn [puts];
        rewrite !level_put by (rewrite ?Moved.put_length, ?Ls; assumption);
        rewrite ?Nat.eqb_refl, ?(proj2 (Nat.eqb_neq b a)), ?(proj2 (Nat.eqb_neq c a)), ?(proj2 (Nat.eqb_neq c b)) by congruence; exact N)].
    reflexivity.
Qed.

(** ** Concrete cases, with integers for amplitudes (h is not scaled) *)
Section Examples.
Let S := Zscalar.
Let go (ks : list (call S)) := simulate (NumpyBackend S) (QList [2; 3; 2; 2]%Z) (Some []) None ks.
Let dims := [2; 3; 2; 2].
(** An h on register 0, and register 1 moves with it. *)
Let ks1 : list (call S) := [CH 0 None; CCX [0; 1] 2]%Z.
Let prog1 : list (gate S) := [GH 0; GCX 0 1 2].

Example ex_start :
  line dims [] /\ asks dims ks1 prog1 /\ NoDup [0; 2; 3] /\ (forall r, In r [0; 2; 3] -> qubit_of dims r) /\
  (forall r, In r [2; 3] -> level (start dims []) r = 0 /\ forall g, In g prog1 -> ~ In r (changes g)) /\
  go ks1 = Ok [(LStr "|0000>", 1%Z); (LStr "|1200>", 1%Z)]%string.
Proof.
  split; [split; [discriminate|]; split; [intros d Hd; simpl in Hd; lia|]; split; [simpl; lia | repeat constructor]|].
  split; [split|].
  - constructor; [exact (@den_h S dims 0 None (or_introl eq_refl))|]. constructor; [exact (@den_cx S dims 0 1 2%Z) | constructor].
  - repeat (constructor; [cbn; lia|]). constructor.
  - split; [repeat constructor; simpl; lia|]. split; [intros r [<-|[<-|[<-|[]]]]; split; simpl; lia|].
    split; [|vm_compute; reflexivity]. intros r [<-|[<-|[]]]; (split; [reflexivity|]); intros g [<-|[<-|[]]]; simpl; lia.
Qed.

(** Registers 3 and 1, in this order, on the line and alone. *)
Example ex_C121 :
  part [3; 1] dims = [2; 3] /\
  map (rename (fun i => nth i [3; 1] 0)) [GH (S := S) 0; GCX 0 1 2] = [GH 3; GCX 3 1 2] /\
  simulate (NumpyBackend S) (QList [2; 3]%Z) (Some [0; 2]%Z) None [CH 0 None; CCX [0; 1] 2]%Z
  = Ok [(LStr "|02>", 1%Z); (LStr "|11>", 1%Z)]%string /\
  simulate (NumpyBackend S) (QList [2; 3]%Z) (Some [0; 0]%Z) None [CH 0 None; CCX [0; 1] 2]%Z
  = Ok [(LStr "|00>", 1%Z); (LStr "|12>", 1%Z)]%string /\
  go (ks1 ++ [CH 3 None; CCX [3; 1] 2]%Z)
  = Ok [(LStr "|0000>", 1%Z); (LStr "|0201>", 1%Z); (LStr "|1101>", 1%Z); (LStr "|1200>", 1%Z)]%string.
Proof. repeat split; vm_compute; reflexivity. Qed.

(** Now register 3 moves with register 1. *)
Example ex_C122 :
  go (ks1 ++ [CH 2 None; CCX [2; 3] 1; CCX [0; 2] 1; CH 0 None; CCX [2; 3] 1; CH 3 None; CCX [0; 3] 1; CH 3 None]%Z)
  = Ok (map (fun t => (LStr t, 2%Z)) ["|0000>"; "|0010>"; "|0201>"; "|0211>"; "|1000>"; "|1010>"; "|1201>"; "|1211>"]%string).
Proof. vm_compute. reflexivity. Qed.

(** The bits 1 and 0 on registers 2 and 3. *)
Example ex_C123 :
  go (ks1 ++ [CH 2 None; CCX [2; 3] 1; CZ 2 None; CCX [2; 3] 1; CH 2 None]%Z)
  = Ok [(LStr "|0010>", (-2)%Z); (LStr "|1210>", (-2)%Z)]%string.
Proof. vm_compute. reflexivity. Qed.

(** The error exchanges the levels of register 2. *)
Example ex_C124 :
  let M := mkmat (S := S) 2 2 (fun i j => if Nat.eqb i j then 0 else 1)%Z in
  gate_ok dims (GU 2 (mget M)) /\
  go (ks1 ++ [CCX [0; 2] 1; CCX [0; 3] 1; CGate M (RInt 2) None; CCX [0; 2] 1; CCX [0; 3] 1; CTof [2; 3] 0 1]%Z)
  = Ok [(LStr "|0010>", 1%Z); (LStr "|1210>", 1%Z)]%string.
Proof.
  split; [|vm_compute; reflexivity]. split; [simpl; lia|]. intros i j Hi Hj. apply in_seq in Hi, Hj. simpl in Hi, Hj.
  destruct i as [|[|i]]; try lia; destruct j as [|[|j]]; try lia; reflexivity.
Qed.
End Examples.

Print Assumptions C121_a_circuit_on_some_registers_acts_as_it_does_alone.
Print Assumptions C122_teleportation.
Print Assumptions C123_superdense_coding.
Print Assumptions C124_repetition_code.
