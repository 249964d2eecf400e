(** * Props_List: h, x and z called with a list of registers (C109). *)
From Coq Require Import List Arith ZArith Lia Bool.
From Verif Require Import Py Scalar Mat Utils Gates Circuit Spec Calls HistSpec InfoSpec ShapeSpec ListRegs Kern Construct Props_Run ListThm ListAfter ExLib.
Import ListNotations.
Local Notation length := List.length.

(** The same method called with one register. *)
Definition plain {S} (m : method) (q : Z) (dm : option Z) : call S :=
  match m with MH => CH q dm | MX p => CX q dm p | MZ => CZ q dm end.

(** All of [l] are registers of the line, of dimension at least [d]. *)
Definition roomy (dims : list nat) (l : list Z) (d : Z) : Prop :=
  forall q, In q l -> exists r, q = Z.of_nat r /\ r < length dims /\ (d <= Z.of_nat (nth r dims O))%Z.

(** Identities on the registers [rs]. *)
Definition idle {S} (dims : list nat) (rs : list nat) : list (op S) :=
  map (fun r => OI (Z.of_nat r) (Z.of_nat (nth r dims O))) rs.

(** ** C109: without a dimension a list of registers is never accepted. *)
Theorem C109_without_dims_a_list_is_refused :
  forall S dims init out ks (c : circuit S) m l dm, history (QList (map Z.of_nat dims)) init out ks c ->
  dm = None \/ dm = Some 0%Z ->
  ((exists q, In q l /\ (Z.of_nat (length dims) <= q)%Z) -> list_call c m l dm = Err ValueError) /\
  ((forall q, In q l -> (q < Z.of_nat (length dims))%Z) -> list_call c m l dm = Err TypeError).
Proof.
  intros S dims init out ks c m l dm H Hd. rewrite (no_dims c m l Hd), (list_len dims H). split.
  - intros [q [Hq Hb]]. replace (existsb _ l) with true; [reflexivity|]. symmetry. apply existsb_exists. exists q. split; [exact Hq|]. apply Z.ltb_lt. lia.
  - intros Hb. replace (existsb _ l) with false; [reflexivity|]. symmetry. apply existsb_none. intros q Hq. specialize (Hb q Hq). apply Z.ltb_ge. lia.
Qed.

(** A register past the line or of a smaller dimension is refused. *)
Theorem C109_bad_registers_are_refused :
  forall S dims init out ks (c : circuit S) m l d q, history (QList (map Z.of_nat dims)) init out ks c ->
  (forall x, In x l -> (0 <= x)%Z) -> In q l ->
  (Z.of_nat (length dims) <= q \/ d <> 0 /\ Z.of_nat (nth (Z.to_nat q) dims O) < d)%Z ->
  list_call c m l (Some d) = Err ValueError.
Proof. intros S dims init out ks c m l d q. apply bad_list. Qed.

(** With a dimension: TypeError if the last layer leaves all the registers
    idle; otherwise, if one of them is busy, the call is accepted and starts a
    new layer with the one gate in the place of the registers from the lowest
    to the highest, and nothing on the others.  After measure_all the call is dropped. *)
Theorem C109_idle_registers_are_a_type_error :
  forall S dims init out ks (c : circuit S) m l d, history (QList (map Z.of_nat dims)) init out ks c ->
  ~ In CMeasureAll ks -> d <> 0%Z -> l <> [] -> roomy dims l d ->
  (forall q, In q l -> idle_at_end c q) -> list_call c m l (Some d) = Err TypeError.
Proof. intros S dims init out ks c m l d H Hm Hd Hl Hr Hi. exact (call_idle dims H m Hd Hl Hr Hm Hi). Qed.

Theorem C109_a_busy_register_starts_a_layer :
  forall S dims init out ks (c : circuit S) m l d q, history (QList (map Z.of_nat dims)) init out ks c ->
  ~ In CMeasureAll ks -> d <> 0%Z -> roomy dims l d -> In q l -> ~ idle_at_end c q ->
  exists c' lo hi, list_call c m l (Some d) = Ok (c', true) /\
    In (Z.of_nat lo) l /\ In (Z.of_nat hi) l /\ (forall x, In x l -> (Z.of_nat lo <= x <= Z.of_nat hi)%Z) /\
    layers_of c' = layers_of c ++
      [idle dims (seq 0 lo) ++ gate_of S m (Z.of_nat lo) d :: idle dims (seq (hi + 1) (length dims - (hi + 1)))].
Proof.
  intros S dims init out ks c m l d q H Hm Hd Hr Hq Hb.
  assert (Hl : l <> []) by (intros ->; contradiction).
  destruct (call_layer dims H m Hd Hl Hr Hm Hq Hb) as [lo [hi [A1 [A2 [A3 [A4 A5]]]]]].
  eexists. exists lo, hi. split; [exact A1|]. split; [exact A2|]. split; [exact A3|]. split; [exact A4 | exact A5].
Qed.

Theorem C109_after_measure_all_nothing_is_added :
  forall S dims init out ks (c : circuit S) m l d, history (QList (map Z.of_nat dims)) init out ks c ->
  In CMeasureAll ks -> d <> 0%Z -> l <> [] -> roomy dims l d -> list_call c m l (Some d) = Ok (c, false).
Proof. intros S dims init out ks c m l d H Hm Hd Hl Hr. exact (call_measured dims H m Hd Hl Hr Hm). Qed.

(** A list with one busy register is the same as the register itself. *)
Theorem C109_one_busy_register_is_the_plain_call :
  forall S dims init out ks (c : circuit S) m r d, history (QList (map Z.of_nat dims)) init out ks c ->
  ~ In CMeasureAll ks -> d <> 0%Z -> r < length dims -> (d <= Z.of_nat (nth r dims O))%Z -> ~ idle_at_end c (Z.of_nat r) ->
  list_call c m [Z.of_nat r] (Some d) = api c (plain m (Z.of_nat r) (Some d)).
Proof.
  intros S dims init out ks c m r d H Hm Hd Hr Hle Hb.
  rewrite (call_one dims H m (l := [Z.of_nat r]) Hd) with (r := r); [destruct m; reflexivity | discriminate | | exact Hm | reflexivity | exact Hb].
  intros q [<-|[]]. eauto.
Qed.

(** Two different registers: if the call is accepted, the program can still be
    measured but run() raises. *)
Theorem C109_several_registers_never_run :
  forall S (L : scalar_laws S) (B : backend S) dims init out ks (c : circuit S) m l d q q', supported B ->
  history (QList (map Z.of_nat dims)) init out ks c -> Forall (tame dims) ks ->
  ~ In CMeasureAll ks -> d <> 0%Z -> roomy dims l d -> In q l -> In q' l -> q <> q' -> ~ idle_at_end c q ->
  exists c' c'', list_call c m l (Some d) = Ok (c', true) /\ api c' CMeasureAll = Ok (c'', true) /\ exists e, run B c'' = Err e.
Proof.
  intros S L B dims init out ks c m l d q q' HB H Ht Hm Hd Hr Hq Hq' Hne Hb.
  assert (Hl : l <> []) by (intros ->; contradiction).
  destruct (call_several H m Hd Hl Hr Hm L Ht Hq Hq' Hne Hb) as [c' [c'' [E1 [E2 [e E3]]]]].
  exists c', c''. split; [exact E1|]. split; [exact E2|]. exists e. rewrite (supported_run S L B) by exact HB. exact E3.
Qed.

(** The same for any sequence of calls with numbers and with lists, before and
    after: once a call with two different registers has been accepted, run()
    raises, whatever is called afterwards. *)
Definition usual {S} (dims : list nat) (q : request S) : Prop :=
  match q with Plain k => tame dims k | Many _ l _ => forall r, In r l -> (0 <= r)%Z end.

Theorem C109_nothing_repairs_a_call_on_several_registers :
  forall S (L : scalar_laws S) (B : backend S) dims init out c0 qs m l dm c1 q q' qs', supported B ->
  mk_circuit S (QList (map Z.of_nat dims)) init out = Ok c0 ->
  Forall (usual dims) qs -> Forall (usual dims) qs' -> (forall r, In r l -> (0 <= r)%Z) ->
  list_call (performed c0 qs) m l dm = Ok (c1, true) -> In q l -> In q' l -> q <> q' ->
  exists e, run B (performed c1 qs') = Err e.
Proof.
  intros S L B dims init out c0 qs m l dm c1 q q' qs' HB E Hqs Hqs' Hl Hc Hq Hq' Hne.
  assert (Hdims : forall x, In x dims -> 2 <= x).
  { intros x Hx. assert (2 <= Z.of_nat x)%Z; [|lia].
    apply (@history_dims2 S (map Z.of_nat dims) init out [] c0); [exists c0; auto | apply in_map; exact Hx]. }
  destruct (@several_never_run S L dims Hdims init out c0 qs m l dm c1 q q' qs' E Hqs Hqs' Hl Hc Hq Hq' Hne) as [e X].
  exists e. rewrite (supported_run S L B) by exact HB. exact X.
Qed.

(** ** Concrete cases *)
Section Examples.
Open Scope Z_scope.
Let S := Zscalar.
Let dims : list nat := [2; 3; 2]%nat.
Let on (ks : list (call S)) : circuit S := after (forced (mk_circuit S (QList (map Z.of_nat dims)) None None)) ks.
Let got (r : res (circuit S * bool)) : res (nat * bool) :=
  match r with Ok (c, b) => Ok (length (layers_of c), b) | Err e => Err e end.
Let ran (r : res (circuit S * bool)) : res unit :=
  match r with
  | Ok (c, b) => match run (NumpyBackend S) (after c [CMeasureAll]) with Ok _ => Ok tt | Err e => Err e end
  | Err e => Err e
  end.

Example ex_C109_history : forall ks, history (QList (map Z.of_nat dims)) None None ks (on ks).
Proof. intros ks. eexists. split; [apply forced_ok; vm_compute; reflexivity | reflexivity]. Qed.

Example ex_C109 :
  got (list_call (on [CX 0 None 1]) (MX 1) [0; 2] None) = Err TypeError /\
  got (list_call (on [CX 0 None 1]) (MX 1) [0; 3] None) = Err ValueError /\
  got (list_call (on [CX 0 None 1]) (MX 1) [0; 1] (Some 3)) = Err ValueError /\
  got (list_call (on [CX 0 None 1]) (MX 1) [1; 2] (Some 2)) = Err TypeError /\
  got (list_call (on [CX 0 None 1]) (MX 1) [0; 2] (Some 2)) = Ok (3%nat, true) /\
  got (list_call (on [CX 0 None 1; CMeasureAll]) (MX 1) [0; 2] (Some 2)) = Ok (3%nat, false) /\
  got (list_call (on [CX 0 None 1]) (MX 1) [0] (Some 2)) = Ok (3%nat, true) /\
  got (list_call (on []) (MX 1) [1] (Some 3)) = Ok (2%nat, true) /\
  ran (list_call (on [CX 0 None 1]) (MX 1) [0] (Some 2)) = Ok tt /\
  ran (list_call (on [CX 0 None 1]) (MX 1) [0; 1] (Some 2)) = Err ValueError /\
  ran (list_call (on [CX 0 None 1]) MZ [1; 0; 2] (Some 2)) = Err ValueError.
Proof. vm_compute. repeat split. Qed.

(** Register 1 is idle, register 0 is not. *)
Example ex_C109_idle : idle_at_end (on [CX 0 None 1]) 1 /\ ~ idle_at_end (on [CX 0 None 1]) 0.
Proof.
  split.
  - unfold idle_at_end. exists (layers_of (on [])). eexists. exists 3. split; [vm_compute; reflexivity|]. right. left. reflexivity.
  - intros [b [x [z [E Hin]]]]. vm_compute in E.
    destruct b as [|b0 [|b1 b]]; try discriminate; [|destruct b; discriminate].
    injection E as _ <-. destruct Hin as [X|[X|[X|[]]]]; discriminate.
Qed.

Example ex_C109_roomy : roomy dims [1; 0; 2] 2 /\ Forall (@tame S dims) [CX 0 None 1].
Proof.
  split; [|repeat constructor].
  intros q [<-|[<-|[<-|[]]]]; [exists 1%nat | exists 0%nat | exists 2%nat]; cbn; repeat split; lia.
Qed.

(** Calls before and after: a call on [0; 1] is accepted after a call on [0],
    x on register 2 then fills the layer and the next x starts another one. *)
Let qs : list (request S) := [Plain (CX 0 None 1); Many (MX 1) [0] (Some 2)].
Let qs' : list (request S) := [Plain (CX 2 None 1); Plain (CX 1 None 1); Many MZ [2; 1] (Some 2); Plain CMeasureAll].
Example ex_C109_sequence :
  Forall (usual dims) qs /\ Forall (usual dims) qs' /\
  exists c1, list_call (performed (on []) qs) (MX 1) [0; 1] (Some 2) = Ok (c1, true) /\
    map (fun q => length (layers_of (performed c1 (firstn q qs')))) [0; 1; 2; 3; 4]%nat = [4; 4; 5; 6; 7]%nat /\
    match run (NumpyBackend S) (performed c1 qs') with Ok _ => False | Err e => e = ValueError end /\
    match run (NumpyBackend S) (performed (on []) (qs ++ [Plain (CX 2 None 1); Plain CMeasureAll])) with Ok _ => True | Err _ => False end.
Proof.
  split; [|split].
  - repeat constructor. intros r [<-|[]]. lia.
  - constructor; [exact I|]. constructor; [exact I|]. constructor; [|constructor; [exact I | constructor]]. intros r [<-|[<-|[]]]; lia.
  - eexists. split; [vm_compute; reflexivity|]. split; [vm_compute; reflexivity|]. split; vm_compute; reflexivity || exact I.
Qed.
End Examples.

Print Assumptions C109_without_dims_a_list_is_refused.
Print Assumptions C109_bad_registers_are_refused.
Print Assumptions C109_idle_registers_are_a_type_error.
Print Assumptions C109_a_busy_register_starts_a_layer.
Print Assumptions C109_after_measure_all_nothing_is_added.
Print Assumptions C109_one_busy_register_is_the_plain_call.
Print Assumptions C109_several_registers_never_run.
Print Assumptions C109_nothing_repairs_a_call_on_several_registers.
