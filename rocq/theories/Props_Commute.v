(** * Props_Commute: gates that may be exchanged (C77).
    Statements only. *)
From Coq Require Import String.
From Verif Require Import Py Scalar Mat Utils Gates Circuit Spec Calls Lib Blocks Reversible PartsSpec Parts CommuteSpec Commute Props_Run.
Local Notation length := List.length.

(** ** C77: a program is a list of calls with the gates they ask for; calls
    whose gates are compatible may be exchanged any number of times. *)
Theorem C77_compatible_gates_may_be_reordered :
  forall S (L : scalar_laws S) (B : backend S) dims levels out ty me (l l' : list (call S * gate S)),
  supported B -> line dims levels -> wants dims out ty me -> asks dims (map fst l) (map snd l) ->
  reorders (fun x y => compatible (snd x) (snd y)) l l' ->
  simulate B (QList (map Z.of_nat dims)) (Some (map Z.of_nat levels)) out (map fst l)
  = simulate B (QList (map Z.of_nat dims)) (Some (map Z.of_nat levels)) out (map fst l').
Proof.
  intros S L B dims levels out ty me l l' HB [H1 [H2 [H3 H4]]] Hw Ha Hr. rewrite !(supported_sim S L B) by exact HB.
  assert (G : asks dims (map fst l') (map snd l') /\ reorders (@compatible S) (map snd l) (map snd l')).
  { clear -Hr Ha. induction Hr as [l|l1 x y l2 l' Hc Hr IH]; [split; [exact Ha | constructor]|].
    destruct IH as [I1 I2].
    - destruct Ha as [A1 A2]. rewrite !map_app in *. cbn [map] in *.
      apply Forall2_app_inv_l in A1 as [p1 [p2 [B1 [B2 E]]]].
      assert (El : length (map snd l1) = length p1) by (rewrite map_length, <- (map_length (@fst (call S) (gate S)) l1); clear -B1; induction B1; simpl; congruence).
      apply app_inj_len in E as [<- <-]; [|exact El].
      pose proof (proj1 (Forall_app _ _ _) A2) as [C1 C2].
      inversion B2 as [|? ? ? ? D1 B3 Q1]; subst. inversion B3 as [|? ? ? ? D2 B4 Q2]; subst.
      pose proof (Forall_inv C2) as Hx. apply Forall_inv_tail in C2. pose proof (Forall_inv C2) as Hy. apply Forall_inv_tail in C2.
      split; [apply Forall2_app; [exact B1 | constructor; [exact D2 | constructor; [exact D1 | exact B4]]]|].
      apply Forall_app. split; [exact C1 | constructor; [exact Hy | constructor; [exact Hx | exact C2]]].
    - split; [exact I1|]. rewrite map_app in *. cbn [map] in *. eapply re_swap; [exact Hc | exact I2]. }
  destruct G as [[A1 A2] G]. destruct Ha as [B1 B2].
  apply (@simulate_same S L dims levels out ty me _ _ (map snd l) (map snd l')); auto.
  exact (reorders_final L G B2).
Qed.

(** ** Non-trivial instances: a z on a control, two cx gates and an x on one
    target, all exchanged; and gates that are not compatible. *)
Section Examples.
Open Scope Z_scope.
Let S := Zscalar.
Let dims := [2; 3; 3]%nat.
Let l : list (call S * gate S) := [(CH 0 None, GH 0); (CZ 0 None, GZ 0); (CCX [0; 2] 1, GCX 0 2 1); (CCX [1; 2] 1, GCX 1 2 1); (CX 2 None 2, GX 2 2)].
Let l' : list (call S * gate S) := [(CH 0 None, GH 0); (CX 2 None 2, GX 2 2); (CCX [1; 2] 1, GCX 1 2 1); (CCX [0; 2] 1, GCX 0 2 1); (CZ 0 None, GZ 0)].

Example ex_C77 :
  line dims [0; 2; 1]%nat /\ asks dims (map fst l) (map snd l) /\ reorders (fun x y => compatible (snd x) (snd y)) l l' /\
  simulate (NumpyBackend S) (QList [2; 3; 3]) (Some [0; 2; 1]) None (map fst l) = Ok [(LStr "|021>", -1); (LStr "|122>", 1)]%string /\
  simulate (NumpyBackend S) (QList [2; 3; 3]) (Some [0; 2; 1]) None (map fst l') = Ok [(LStr "|021>", -1); (LStr "|122>", 1)]%string /\
  ~ compatible (S := S) (GX 0 1) (GCX 0 2 1) /\
  simulate (NumpyBackend S) (QList [2; 3; 3]) None None [CX 0 None 1; CCX [0; 2] 1] <> simulate (NumpyBackend S) (QList [2; 3; 3]) None None [CCX [0; 2] 1; CX 0 None 1].
Proof.
  split; [split; [discriminate|split; [simpl; intros; lia|split; [simpl; lia | repeat constructor]]]|].
  split; [split|].
  - cbn. constructor; [apply (@den_h S dims 0 None); left; reflexivity|].
    constructor; [apply (@den_z S dims 0 None); left; reflexivity|].
    constructor; [apply (@den_cx S dims 0 2)|]. constructor; [apply (@den_cx S dims 1 2)|].
    constructor; [apply (@den_x S dims 2 None); left; reflexivity | constructor].
  - repeat (apply Forall_cons || apply Forall_nil); simpl; lia.
  - split; [|split; [vm_compute; reflexivity|split; [vm_compute; reflexivity|split]]].
    + assert (Z : forall c t p, c <> t -> t <> 0%nat -> compatible (S := S) (GZ 0) (GCX c t p)).
      { intros c t p H H0. left. split; simpl; [tauto|]. intros r [<-|[]] [E|[]]. congruence. }
      assert (D : forall a b : gate S, reversible a -> reversible b -> changes a = changes b -> compatible a b) by (intros; right; auto).
      eapply (@re_swap _ _ [(CH 0 None, GH 0)] (CZ 0 None, GZ 0) (CCX [0; 2] 1, GCX 0 2 1)); [apply Z; lia|].
      eapply (@re_swap _ _ [(CH 0 None, GH 0); (CCX [0; 2] 1, GCX 0 2 1)] (CZ 0 None, GZ 0) (CCX [1; 2] 1, GCX 1 2 1)); [apply Z; lia|].
      eapply (@re_swap _ _ [(CH 0 None, GH 0); (CCX [0; 2] 1, GCX 0 2 1); (CCX [1; 2] 1, GCX 1 2 1)] (CZ 0 None, GZ 0) (CX 2 None 2, GX 2 2) []).
      { left. simpl. split; [tauto|]. intros r [<-|[]] [E|[]]. discriminate. }
      eapply (@re_swap _ _ [(CH 0 None, GH 0); (CCX [0; 2] 1, GCX 0 2 1)] (CCX [1; 2] 1, GCX 1 2 1) (CX 2 None 2, GX 2 2)); [apply D; simpl; auto|].
      eapply (@re_swap _ _ [(CH 0 None, GH 0)] (CCX [0; 2] 1, GCX 0 2 1) (CX 2 None 2, GX 2 2)); [apply D; simpl; auto|].
      eapply (@re_swap _ _ [(CH 0 None, GH 0); (CX 2 None 2, GX 2 2)] (CCX [0; 2] 1, GCX 0 2 1) (CCX [1; 2] 1, GCX 1 2 1)); [apply D; simpl; auto|].
      apply re_same.
    + intros [[H _]|[_ [_ H]]]; [apply (H 0%nat); simpl; auto | discriminate].
    + vm_compute. discriminate.
Qed.
End Examples.

Print Assumptions C77_compatible_gates_may_be_reordered.
