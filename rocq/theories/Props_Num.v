(** * Props_Num: register numbers that are booleans or numpy integers (C125),
    registers in a numpy array (C126). *)
From Coq Require Import List Arith ZArith Lia Bool String.
From Verif Require Import Py Scalar Mat Utils Gates Circuit Spec Calls HistSpec InfoSpec ListRegs NumArgs Kern Props_Run Props_List Refine Run NumThm InfoLib ExLib.
Import ListNotations.
Local Notation length := List.length.

(** The dimension given, if any, is not above that of register [r]. *)
Definition fits (dims : list nat) (r : nat) (dm : option Z) : Prop :=
  forall d, dm = Some d -> (d <= Z.of_nat (nth r dims O))%Z.

(** ** C125: h, x and z on a register of the line are a TypeError and gate() is
    an UnboundLocalError; the circuit stays as it was. *)
Theorem C125_numpy_numbers_are_refused :
  forall S dims init out ks (c : circuit S) m u r dm, history (QList (map Z.of_nat dims)) init out ks c ->
  r < length dims -> fits dims r dm ->
  (~ In CMeasureAll ks -> num_api c (Single m (NumInt (Z.of_nat r)) dm) = Err TypeError) /\
  (In CMeasureAll ks -> num_api c (Single m (NumInt (Z.of_nat r)) dm) = Ok (c, false)) /\
  num_api c (User u (NumInt (Z.of_nat r)) dm) = Err UnboundLocalError.
Proof.
  intros S dims init out ks c m u r dm H Hr Hf. split; [|split].
  - intros Hm. exact (inside_refused H m Hm Hr Hf).
  - intros Hm. exact (measured_num H m Hm Hr Hf).
  - exact (inside_user H u Hr Hf).
Qed.

(** Past the line they are refused as [int]s are, and before the first register
    h, x and z do what they do with [int]s. *)
Theorem C125_numbers_outside_the_line :
  forall S dims init out ks (c : circuit S) m u q dm, history (QList (map Z.of_nat dims)) init out ks c ->
  ((Z.of_nat (length dims) <= q)%Z ->
     num_api c (Single m (NumInt q) dm) = Err ValueError /\ num_api c (User u (NumInt q) dm) = Err ValueError) /\
  ((q < 0)%Z -> num_api c (Single m (NumInt q) dm) = api c (plain m q dm)).
Proof.
  intros S dims init out ks c m u q dm H. split; intros Hq.
  - exact (past_num dims H m u dm Hq).
  - rewrite (negative_num dims H m dm Hq). destruct m; reflexivity.
Qed.

(** The same call with an [int] in place of the number. *)
Definition as_int {S} (k : num_call S) : call S :=
  match k with
  | Single m q dm => plain m (value q) dm
  | User u q dm => CGate u (RInt (value q)) dm
  | TofArray cs t p => CTof cs t p
  | Rest k => k
  end.

(** A script that gets through gives what it gives with [int]s: the type of a
    number never leads to a different answer. *)
Theorem C125_never_a_different_answer :
  forall S (B : backend S) q init out ks l, (forall cs t p, ~ In (TofArray cs t p) ks) ->
  num_simulate B q init out ks = Ok l -> simulate B q init out (map as_int ks) = Ok l.
Proof.
  intros S B q init out ks l Ha H. unfold num_simulate in H. unfold simulate.
  destruct (mk_circuit S q init out) as [c0|e]; [|discriminate]. cbn [bind] in *.
  destruct (num_script false c0 (ks ++ [Rest CMeasureAll])) as [c|e] eqn:E; [|discriminate]. cbn [bind] in H.
  apply num_script_plain in E.
  - rewrite map_app in E. replace (map as_int ks) with (map (@plainly S) ks); [exact (eq_trans (f_equal (fun r => bind r (run B)) E) H)|].
    apply map_ext. intros [[|p|] x dm|u x dm|cs t p|k]; reflexivity.
  - apply Forall_app. split; [|repeat constructor]. apply Forall_forall. intros k Hk. destruct k; try exact I. exact (Ha _ _ _ Hk).
Qed.

(** A script stops at the first such number. *)
Theorem C125_scripts_stop :
  forall S (B : backend S) dims init out c0 ks m r dm ks', mk_circuit S (QList (map Z.of_nat dims)) init out = Ok c0 ->
  ~ In CMeasureAll ks -> r < length dims -> fits dims r dm -> (exists c, script c0 ks = Ok c) ->
  num_simulate B (QList (map Z.of_nat dims)) init out (map Rest ks ++ Single m (NumInt (Z.of_nat r)) dm :: ks') = Err TypeError.
Proof.
  intros S B dims init out c0 ks m r dm ks' E Hm Hr Hf [c E1]. unfold num_simulate. rewrite E. cbn [bind].
  rewrite <- app_assoc, num_script_rest, E1. cbn [bind app num_script].
  assert (H : history (QList (map Z.of_nat dims)) init out ks c) by (exists c0; split; [exact E | symmetry; apply Exact.script_after; exact E1]).
  rewrite (inside_refused H m Hm Hr Hf). reflexivity.
Qed.

(** ** C126: toffoli with the controls in a numpy array.  [mx] is the highest
    control; every control below the target is taken for the register [mx + 1]
    further on. *)
Definition read_as (t mx x : nat) : nat := if x <? t then x + mx + 1 else x.

(** The target lies between the controls, of which 0 and the one just below the
    target are two. *)
Definition between (dims cs : list nat) (t mx : nat) : Prop :=
  In 0 cs /\ In (t - 1) cs /\ 1 <= t /\ ~ In t cs /\ In mx cs /\ (forall x, In x cs -> x <= mx) /\ t < mx /\ t + mx < length dims.

(** The h, x and z calls at the start of [ks] are on registers up to [hi]. *)
Definition up_to {S} (hi : nat) (ks : list (call S)) : Prop :=
  forall before k after r, ks = before ++ k :: after -> (forall k', In k' before -> exists r', may_share k' r') ->
  may_share k (Z.of_nat r) -> r <= hi.

Lemma up_to_quiet : forall S hi (ks : list (call S)), (forall k r, In k ks -> may_share k r -> (0 <= r)%Z) -> up_to hi ks -> quiet (Z.of_nat hi) ks.
Proof.
  intros S hi ks; induction ks as [|k ks IH]; intros Hn H; [exact I|]. split.
  - intros r Hr. pose proof (Hn k r (or_introl eq_refl) Hr) as H0. rewrite <- (Z2Nat.id r H0) in Hr |- *.
    pose proof (H [] k ks _ eq_refl (fun k' h => match h : False with end) Hr). lia.
  - intros Hk. apply IH; [intros k' r Hi; apply Hn; right; exact Hi|]. intros before k' after r E Hb Hr.
    apply (H (k :: before) k' after r); [rewrite E; reflexivity | | exact Hr]. intros k2 [<-|Hi]; [exact Hk | apply Hb; exact Hi].
Qed.

Theorem C126_controls_in_an_array_are_other_registers :
  forall S (L : scalar_laws S) (B : backend S) dims levels out ty me ks1 ks2 prog1 prog2 cs t mx p,
  supported B -> line dims levels -> wants dims out ty me -> asks dims ks1 prog1 -> asks dims ks2 prog2 ->
  between dims cs t mx -> up_to (t + mx) ks2 ->
  num_simulate B (QList (map Z.of_nat dims)) (Some (map Z.of_nat levels)) out
    (map Rest ks1 ++ TofArray (map Z.of_nat cs) (Z.of_nat t) p :: map Rest ks2)
  = Ok (report ty me (answer dims (final dims (prog1 ++ GTof (map (read_as t mx) cs) t p :: prog2) (basis S (start dims levels))))).
Proof.
  intros S L B dims levels out ty me ks1 ks2 prog1 prog2 cs t mx p HB HL Hw [F1 O1] [F2 O2] [A1 [A2 [A3 [A4 [A5 [A6 [A7 A8]]]]]]] Hu.
  assert (Hq : quiet (Z.of_nat (t + mx)) ks2).
  { apply up_to_quiet; [|exact Hu]. intros k r Hk Hr. clear - F2 Hk Hr. induction F2 as [|k' g ks prog D F IH]; [contradiction|].
    destruct Hk as [->|Hk]; [|apply IH; exact Hk]. destruct D; cbn [may_share] in Hr; try contradiction; subst; lia. }
  rewrite (array_simulate B _ _ _ _ _ _ p A1 A5 A6 A3 A2 A7 A8 Hq). etransitivity; [|reflexivity].
  assert (Hr : forall x, In x cs -> t < read_as t mx x <= t + mx).
  { intros x Hx. pose proof (A6 x Hx). unfold read_as. destruct (Nat.ltb_spec x t); [lia|].
    assert (x <> t) by (intros ->; contradiction). lia. }
  apply (C01_run_applies_gates_in_order S L B dims levels out ty me _ (prog1 ++ GTof (map (read_as t mx) cs) t p :: prog2) HB HL Hw). split.
  - apply Forall2_app; [exact F1|]. constructor; [|exact F2]. apply den_tof.
  - apply Forall_app. split; [exact O1|]. constructor; [|exact O2]. cbn [gate_ok]. split; [|split; [lia|split]].
    + intros c Hc. apply in_map_iff in Hc as [x [<- Hx]]. specialize (Hr x Hx). lia.
    + intros Hc. apply in_map_iff in Hc as [x [E Hx]]. specialize (Hr x Hx). lia.
    + intros [lo [I1 [I2 I3]]].
      assert (E1 : t = lo \/ t = lo + 1) by (apply I3; left; reflexivity).
      assert (E2 : read_as t mx 0 = lo \/ read_as t mx 0 = lo + 1) by (apply I3; right; apply in_map; exact A1).
      unfold read_as in E2. destruct (Nat.ltb_spec 0 t); lia.
Qed.

(** With all the controls at their top level, and the register after the highest
    control not: the list fires and the array does nothing. *)
Theorem C126_the_gate_asked_for_is_not_done :
  forall S (L : scalar_laws S) (B : backend S) dims s cs t mx p,
  supported B -> line dims s -> length s = length dims -> between dims cs t mx ->
  (forall x, In x cs -> level s x = nth x dims 0 - 1) -> level s (mx + 1) <> nth (mx + 1) dims 0 - 1 ->
  simulate B (QList (map Z.of_nat dims)) (Some (map Z.of_nat s)) None [CTof (map Z.of_nat cs) (Z.of_nat t) p]
  = Ok [(shown OutPrint (put s t (Z.to_nat ((Z.of_nat (level s t) + p) mod Z.of_nat (nth t dims O)))), s1)] /\
  num_simulate B (QList (map Z.of_nat dims)) (Some (map Z.of_nat s)) None [TofArray (map Z.of_nat cs) (Z.of_nat t) p]
  = Ok [(shown OutPrint s, s1)].
Proof.
  intros S L B dims s cs t mx p HB HL Hs [A1 [A2 [A3 [A4 [A5 [A6 [A7 A8]]]]]]] Ht Hn. split.
  - apply (C04_toffoli_fires_when_all_controls_top S L B dims s cs t p HB HL Hs).
    + intros c Hc. specialize (A6 c Hc). lia.
    + lia.
    + exact A4.
    + intros [lo [I1 [I2 I3]]].
      assert (E1 : t = lo \/ t = lo + 1) by (apply I3; left; reflexivity).
      assert (E2 : mx = lo \/ mx = lo + 1) by (apply I3; right; exact A5).
      assert (E3 : t - 1 = lo \/ t - 1 = lo + 1) by (apply I3; right; exact A2). lia.
    + exact Ht.
  - assert (Hr : forall x, In x cs -> t < read_as t mx x <= t + mx).
    { intros x Hx. pose proof (A6 x Hx). unfold read_as. destruct (Nat.ltb_spec x t); [lia|].
      assert (x <> t) by (intros ->; contradiction). lia. }
    change [TofArray (map Z.of_nat cs) (Z.of_nat t) p] with (map (@Rest S) [] ++ TofArray (map Z.of_nat cs) (Z.of_nat t) p :: map Rest []).
    rewrite (array_simulate B _ _ _ _ [] _ p A1 A5 A6 A3 A2 A7 A8 I). cbn [app].
    apply (C04_toffoli_fires_when_all_controls_top S L B dims s (map (read_as t mx) cs) t p HB HL Hs).
    + intros c Hc. apply in_map_iff in Hc as [x [<- Hx]]. specialize (Hr x Hx). lia.
    + lia.
    + intros Hc. apply in_map_iff in Hc as [x [E Hx]]. specialize (Hr x Hx). lia.
    + intros [lo [I1 [I2 I3]]].
      assert (E1 : t = lo \/ t = lo + 1) by (apply I3; left; reflexivity).
      assert (E2 : read_as t mx 0 = lo \/ read_as t mx 0 = lo + 1) by (apply I3; right; apply in_map; exact A1).
      unfold read_as in E2. destruct (Nat.ltb_spec 0 t); lia.
    + exists (mx + 1). split; [|exact Hn]. apply in_map_iff. exists 0. split; [|exact A1]. unfold read_as. destruct (Nat.ltb_spec 0 t); lia.
Qed.

(** Where the registers so read are past the end, or the numbers counted from
    the end do not fit into the span of the controls, the call is an IndexError. *)
Theorem C126_an_array_out_of_range :
  forall S dims init out ks (c : circuit S) cs t mn mx p, history (QList (map Z.of_nat dims)) init out ks c ->
  In mn cs -> In mx cs -> (forall x, In x cs -> mn <= x <= mx) ->
  length dims <= t + mx \/ mx - mn + 1 < t \/ mx - mn + 1 < mn ->
  num_api c (TofArray (map Z.of_nat cs) (Z.of_nat t) p) = Err IndexError.
Proof.
  intros S dims init out ks c cs t mn mx p H Hmn Hmx Hb Ho. refine (@array_range S dims c cs t mn mx p _ Hmn Hmx Hb Ho). rewrite (InfoLib.history_qregs H). reflexivity.
Qed.

(** An h, x or z right after it, on a register past those the gate covers, is
    a ValueError. *)
Theorem C126_a_gate_past_the_array :
  forall S (L : scalar_laws S) (B : backend S) dims levels out ks1 prog1 cs t mx p m r dm k ks, line dims levels ->
  asks dims ks1 prog1 -> between dims cs t mx -> t + mx < r < length dims -> fits dims r dm ->
  k = Single m (PyInt (Z.of_nat r)) dm \/
  k = Rest (match m with MH => CH (Z.of_nat r) dm | MX x => CX (Z.of_nat r) dm x | MZ => CZ (Z.of_nat r) dm end) ->
  num_simulate B (QList (map Z.of_nat dims)) (Some (map Z.of_nat levels)) out
    (map Rest ks1 ++ TofArray (map Z.of_nat cs) (Z.of_nat t) p :: k :: ks) = Err ValueError.
Proof.
  intros S L B dims levels out ks1 prog1 cs t mx p m r dm k ks [H1 [H2 [H3 H4]]] [F1 O1] [A1 [A2 [A3 [A4 [A5 [A6 [A7 A8]]]]]]] [R1 R2] Hf Hk.
  assert (Hpos : forall d, In d dims -> 0 < d) by (intros d Hd; specialize (H2 d Hd); lia).
  destruct (@mk_circuit_good S dims levels out H2 H3 H4) as [c0 [E0 [Hg0 _]]].
  destruct (script_good L H1 Hpos F1 O1 Hg0) as [c [bss [E1 [Hg _]]]].
  assert (Hh : history (QList (map Z.of_nat dims)) (Some (map Z.of_nat levels)) out ks1 c) by (exists c0; split; [exact E0 | symmetry; apply Exact.script_after; exact E1]).
  assert (Hm : ~ In CMeasureAll ks1).
  { clear - F1. intros Hi. induction F1 as [|k g ks prog D F IH]; [contradiction|]. destruct Hi as [->|Hi]; [inversion D | apply IH; exact Hi]. }
  assert (Hr : forall x, In x cs -> t < read_as t mx x <= t + mx).
  { intros x Hx. pose proof (A6 x Hx). unfold read_as. destruct (Nat.ltb_spec x t); [lia|]. assert (x <> t) by (intros ->; contradiction). lia. }
  assert (D : denotes dims (CTof (map Z.of_nat (map (read_as t mx) cs)) (Z.of_nat t) p : call S) (GTof (map (read_as t mx) cs) t p)) by apply den_tof.
  assert (G : gate_ok dims (GTof (map (read_as t mx) cs) t p : gate S)).
  { cbn [gate_ok]. split; [|split].
    - intros x Hx. apply in_map_iff in Hx as [y [<- Hy]]. specialize (Hr y Hy). lia.
    - lia.
    - split.
      + intros Hc. apply in_map_iff in Hc as [x [E Hx]]. specialize (Hr x Hx). lia.
      + intros [lo [I1 [I2 I3]]].
        assert (X1 : t = lo \/ t = lo + 1) by (apply I3; left; reflexivity).
        assert (X2 : read_as t mx 0 = lo \/ read_as t mx 0 = lo + 1) by (apply I3; right; apply in_map; exact A1).
        unfold read_as in X2. destruct (Nat.ltb_spec 0 t); lia. }
  destruct (script_good L H1 Hpos (Forall2_cons _ _ D (Forall2_nil _)) (Forall_cons _ G (Forall_nil _)) Hg) as [c2 [bss2 [E2 _]]].
  cbn [script] in E2. apply History.bind_ok in E2 as [[c2' b2] [E2 _]].
  assert (Hq : qregs_list (c_qregs c) = map Z.of_nat dims) by (rewrite (InfoLib.history_qregs Hh); reflexivity).
  pose proof (@array_call S dims cs t mx A1 A5 A6 A3 A2 A7 A8 c p Hq) as Hc. change (taken t mx) with (read_as t mx) in Hc. rewrite E2 in Hc.
  destruct (toffoli_array c (map Z.of_nat cs) (Z.of_nat t) p) as [[x b]|e] eqn:Et; [|inversion Hc].
  destruct (@array_then_past S dims _ out ks1 c x cs t mx p b m r dm Hh Hm A1 A5 A6 ltac:(lia) R1 R2 Hf Et) as [Hl Es].
  unfold num_simulate. rewrite E0. cbn [bind]. rewrite <- app_assoc, num_script_rest, E1. cbn [bind app num_script num_api]. rewrite Et. cbn [bind].
  rewrite (proj2 (Nat.eqb_neq _ _) Hl). cbn [with_array].
  assert (Eb : beside_array x k = Err ValueError) by (destruct Hk as [Hk|Hk]; subst k; [exact Es | destruct m; exact Es]).
  rewrite Eb. reflexivity.
Qed.

(** cx with an array of two registers works only if these are the two ends of
    the line; otherwise it is a ValueError. *)
Theorem C126_cx_with_an_array :
  forall S dims init out ks (c : circuit S) a b p, history (QList (map Z.of_nat dims)) init out ks c ->
  a < length dims -> b < length dims ->
  ((forall r, r < length dims -> a <= r <= b \/ b <= r <= a) ->
     cx_array c (Z.of_nat a) (Z.of_nat b) p = api c (CCX [Z.of_nat a; Z.of_nat b] p)) /\
  ((exists r, r < length dims /\ (r < a /\ r < b \/ a < r /\ b < r)) ->
     cx_array c (Z.of_nat a) (Z.of_nat b) p = Err ValueError).
Proof.
  intros S dims init out ks c a b p H Ha Hb. split.
  - intros Hr. pose proof (Hr 0 ltac:(lia)). pose proof (Hr (length dims - 1) ltac:(lia)). apply (@pair_inside S dims init out ks c H a b p Ha Hb); lia.
  - intros [r Hr]. apply (@pair_outside S dims init out ks c H a b p Ha Hb). lia.
Qed.

(** ** Concrete cases *)
Section Examples.
Open Scope Z_scope.
Let S := Zscalar.
Let dims : list nat := [2; 3; 2; 2]%nat.
Let on (ks : list (call S)) : circuit S := after (forced (mk_circuit S (QList (map Z.of_nat dims)) None None)) ks.
Let got (r : res (circuit S * bool)) : res (nat * bool) :=
  match r with Ok (c, b) => Ok (length (layers_of c), b) | Err e => Err e end.
Let ran init (ks : list (num_call S)) := num_simulate (NumpyBackend S) (QList (map Z.of_nat dims)) (Some init) None ks.

Example ex_C125_history : forall ks, history (QList (map Z.of_nat dims)) None None ks (on ks).
Proof. intros ks. eexists. split; [apply forced_ok; vm_compute; reflexivity | reflexivity]. Qed.

Example ex_C125 :
  got (num_api (on []) (Single (MX 1) (NumInt 1) None)) = Err TypeError /\
  got (num_api (on []) (Single (MX 1) (PyInt 1) None)) = Ok (2%nat, true) /\
  got (num_api (on [CMeasureAll]) (Single MZ (NumInt 1) None)) = Ok (2%nat, false) /\
  got (num_api (on []) (User (deye S 3 3) (NumInt 1) None)) = Err UnboundLocalError /\
  got (num_api (on []) (User (deye S 3 3) (PyInt 1) None)) = Ok (2%nat, true) /\
  got (num_api (on []) (Single MH (NumInt 4) None)) = Err ValueError /\
  got (num_api (on []) (Single MH (NumInt (-1)) None)) = Ok (2%nat, true).
Proof. repeat split; vm_compute; reflexivity. Qed.

Example ex_C125_scripts :
  ran [0; 0; 0; 0] [Rest (CX 0 None 1); Single (MX 1) (NumInt 1) None] = Err TypeError /\
  ran [0; 0; 0; 0] [Single (MX 1) (PyInt 0) None; Single (MX 1) (NumInt (-1)) None; Rest (CCX [0; 1] 1)] = Ok [(LStr "|1100>"%string, 1)].
Proof. split; vm_compute; reflexivity. Qed.

Example ex_C126_between : between dims [0; 2]%nat 1 2.
Proof. repeat split; simpl; lia. Qed.

Example ex_C126 :
  ran [1; 0; 1; 0] [TofArray [0; 2] 1 1] = Ok [(LStr "|1010>"%string, 1)] /\
  ran [1; 0; 1; 0] [Rest (CTof [0; 2] 1 1)] = Ok [(LStr "|1110>"%string, 1)] /\
  ran [0; 0; 1; 1] [TofArray [0; 2] 1 1] = Ok [(LStr "|0111>"%string, 1)] /\
  ran [0; 0; 1; 1] [Rest (CTof [0; 2] 1 1)] = Ok [(LStr "|0011>"%string, 1)] /\
  ran [1; 2; 0; 0] [TofArray [0; 1] 2 1] = Err PlainException /\
  ran [1; 2; 0; 0] [TofArray [0; 1] 3 1] = Err IndexError /\
  got (num_api (forced (mk_circuit S (QList [2; 3; 2; 2; 2; 2]) None None)) (TofArray [0; 1] 3 1)) = Err IndexError /\
  got (num_api (forced (mk_circuit S (QList [2; 3; 2; 2; 2; 2]) None None)) (TofArray [3] 1 1)) = Err IndexError.
Proof. repeat split; vm_compute; reflexivity. Qed.

(** Five registers: the gate covers the second to the fourth. *)
Example ex_C126_beside :
  let go ks := num_simulate (NumpyBackend S) (QList [2; 2; 2; 2; 2]) (Some [0; 0; 1; 1; 0]) None (TofArray [0; 2] 1 1 :: ks) in
  go [Rest (CX 0 None 1); Rest (CX 1 None 1); Rest (CX 4 None 1)] = Ok [(LStr "|10111>"%string, 1)] /\
  go [Rest (CX 0 None 1); Rest (CX 4 None 1)] = Err ValueError /\
  go [Single (MX 1) (PyInt 4) None] = Err ValueError /\
  go [Rest (CCX [3; 4] 1); Rest (CX 4 None 1)] = Ok [(LStr "|01110>"%string, 1)] /\
  (forall cs, cs = [0] \/ cs = [0; 0] ->
   match num_script false (on []) [TofArray cs 1 1; Rest (CX 3 None 1)] with Ok c => Ok (length (layers_of c)) | Err e => Err e end
   = if Nat.eqb (length cs) 1 then Ok 2%nat else Err ValueError).
Proof. intros go. do 4 (split; [vm_compute; reflexivity|]). intros cs [H|H]; subst cs; vm_compute; reflexivity. Qed.

Example ex_C126_past : between [2; 2; 2; 2; 2]%nat [0; 2]%nat 1 2 /\ (1 + 2 < 4 < 5)%nat /\
  up_to (S := S) (1 + 2) [CX 0 None 1; CX 1 None 1; CCX [3; 4] 1; CX 4 None 1].
Proof.
  split; [repeat split; simpl; lia|]. split; [lia|]. intros before k after r E Hb Hr.
  destruct before as [|k1 [|k2 [|k3 before]]]; cbn [app] in E.
  - injection E as <- _. cbn [may_share] in Hr. lia.
  - injection E as _ <- _. cbn [may_share] in Hr. lia.
  - injection E as _ _ <- _. contradiction.
  - injection E as _ _ <- _. exfalso. destruct (Hb (CCX [3; 4] 1)) as [r' X]; [simpl; auto | exact X].
Qed.

Example ex_C126_cx :
  got (cx_array (on []) 0 3 1) = Ok (2%nat, true) /\ got (cx_array (on []) 3 0 1) = Ok (2%nat, true) /\
  got (cx_array (on []) 0 1 1) = Err ValueError /\ got (cx_array (on []) 2 1 1) = Err ValueError.
Proof. repeat split; vm_compute; reflexivity. Qed.
End Examples.

Print Assumptions C125_numpy_numbers_are_refused.
Print Assumptions C125_numbers_outside_the_line.
Print Assumptions C125_never_a_different_answer.
Print Assumptions C125_scripts_stop.
Print Assumptions C126_controls_in_an_array_are_other_registers.
Print Assumptions C126_the_gate_asked_for_is_not_done.
Print Assumptions C126_a_gate_past_the_array.
Print Assumptions C126_cx_with_an_array.
Print Assumptions C126_an_array_out_of_range.
