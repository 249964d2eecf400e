(** * Props_Answers: what every call answers (C103). *)
From Verif Require Import Py Scalar Mat Utils Gates Circuit Spec Calls HistSpec AnswerSpec History Answers ExLib.
Set Implicit Arguments.

(** The answer to a call depends on the dimensions of the registers and on
    whether measure_all() has been called, and on nothing else. *)
Theorem C103_every_call_answers :
  forall S dims init out ks (c : circuit S), history (QList (map Z.of_nat dims)) init out ks c -> dims <> [] ->
  forall k,
  (forall e, api c k = Err e <-> reply dims (existsb (@is_measure_all S) ks) k = Err e) /\
  (forall b, (exists c', api c k = Ok (c', b)) <-> reply dims (existsb (@is_measure_all S) ks) k = Ok b).
Proof.
  intros S dims init out ks c H Hd k. rewrite <- (replies H Hd k). unfold flag. split.
  - intros e. destruct (api c k) as [[c' b]|e']; split; try discriminate; intros E; injection E as ->; reflexivity.
  - intros b. destruct (api c k) as [[c' b']|e']; split.
    + intros [c2 E]. injection E as -> ->. reflexivity.
    + intros E. injection E as ->. eauto.
    + intros [c2 E]. discriminate.
    + discriminate.
Qed.

(** measure_all() changes the truth value but not the exceptions. *)
Lemma reply_measured : forall S dims m (k : call S) e, reply dims m k = Err e <-> reply dims false k = Err e.
Proof.
  intros S dims m k e. destruct k as [q d|q d p|q d|a p|cs t p|u [q|l] d|q|]; cbn [reply]; try reflexivity.
  - destruct (check_one dims d q); cbn [bind]; split; congruence.
  - destruct (check_one dims d q); cbn [bind]; split; congruence.
  - destruct (check_one dims d q); cbn [bind]; split; congruence.
  - destruct (length a <? 2); split; congruence.
  - destruct (check_one dims d q); cbn [bind]; split; congruence.
  - destruct (check_list dims d l); cbn [bind]; split; congruence.
Qed.

(** A script that does not catch exceptions stops at the first call that
    raises, and which one that is can be told without the circuit. *)
Theorem C103_scripts_stop_at_the_first_refusal :
  forall S dims init out (c : circuit S), mk_circuit S (QList (map Z.of_nat dims)) init out = Ok c -> dims <> [] ->
  forall ks e, script c ks = Err e <->
  exists ks1 k ks2, ks = ks1 ++ k :: ks2 /\
    (forall k', In k' ks1 -> exists b, reply dims false k' = Ok b) /\ reply dims false k = Err e.
Proof.
  intros S dims init out c E0 Hd ks.
  assert (G : forall ks pre c1, c1 = after c pre -> forall e, script c1 ks = Err e <->
    exists ks1 k ks2, ks = ks1 ++ k :: ks2 /\
      (forall k', In k' ks1 -> exists b, reply dims false k' = Ok b) /\ reply dims false k = Err e).
  { clear ks. induction ks as [|k ks IH]; intros pre c1 Ec e.
    - cbn [script]. split; [discriminate|]. intros (ks1 & k & ks2 & X & _). destruct ks1; discriminate.
    - destruct (@C103_every_call_answers S dims init out pre c1) with (k := k) as [A1 A2]; [exists c; auto | exact Hd|].
      cbn [script]. destruct (api c1 k) as [[c2 b]|e1] eqn:Ek; cbn [bind].
      + assert (Ok1 : exists b, reply dims false k = Ok b).
        { destruct (reply dims false k) as [b'|e'] eqn:R; [eauto|]. exfalso.
          apply (reply_measured dims (existsb (@is_measure_all S) pre)) in R. apply A1 in R. discriminate. }
        rewrite (IH (pre ++ [k]) c2).
        2:{ unfold after in *. rewrite fold_left_app, <- Ec. cbn [fold_left]. unfold step. rewrite Ek. reflexivity. }
        split.
        * intros (ks1 & k1 & ks2 & -> & P & R). exists (k :: ks1), k1, ks2. split; [reflexivity|]. split; [|exact R].
          intros k' [<-|I]; auto.
        * intros (ks1 & k1 & ks2 & X & P & R). destruct ks1 as [|k0 ks1]; injection X as -> X.
          { destruct Ok1 as [b' Ok1]. congruence. }
          exists ks1, k1, ks2. split; [exact X|]. split; [|exact R]. intros k' I. apply P. right; exact I.
      + assert (R : reply dims false k = Err e1) by (apply (reply_measured dims (existsb (@is_measure_all S) pre)), A1; reflexivity).
        split.
        * intros X. injection X as <-. exists [], k, ks. split; [reflexivity|]. split; [intros k' [] | exact R].
        * intros (ks1 & k1 & ks2 & X & P & R1). destruct ks1 as [|k0 ks1]; injection X as -> X; [congruence|].
          destruct (P k0) as [b Hb]; [left; reflexivity | congruence]. }
  apply (G ks [] c eq_refl).
Qed.

(** So a script goes through exactly when no call of it is refused. *)
Theorem C103_scripts_go_through :
  forall S dims init out (c : circuit S), mk_circuit S (QList (map Z.of_nat dims)) init out = Ok c -> dims <> [] ->
  forall ks, (exists c', script c ks = Ok c') <-> forall k, In k ks -> exists b, reply dims false k = Ok b.
Proof.
  intros S dims init out c E0 Hd ks. split.
  - intros [c' E] k I. destruct (reply dims false k) as [b|e] eqn:R; [eauto|]. exfalso.
    assert (X : forall ks, (exists k e, In k ks /\ reply dims false k = Err e) -> exists e, script c ks = Err e).
    { clear - E0 Hd. intros ks Hx.
      assert (Y : exists ks1 k ks2 e, ks = ks1 ++ k :: ks2 /\ (forall k', In k' ks1 -> exists b, reply dims false k' = Ok b) /\ reply dims false k = Err e).
      { destruct Hx as (k & e & I & R). induction ks as [|k0 ks IH]; [contradiction|].
        destruct (reply dims false k0) as [b|e0] eqn:R0.
        - destruct I as [->|I]; [congruence|]. destruct (IH I) as (ks1 & k1 & ks2 & e1 & -> & P & R1).
          exists (k0 :: ks1), k1, ks2, e1. split; [reflexivity|]. split; [|exact R1]. intros k' [<-|I']; eauto.
        - exists [], k0, ks, e0. split; [reflexivity|]. split; [intros k' [] | exact R0]. }
      destruct Y as (ks1 & k & ks2 & e & Y). exists e. eapply C103_scripts_stop_at_the_first_refusal; eauto. }
    destruct (X ks) as [e' Ee]; [eauto | congruence].
  - intros H. destruct (script c ks) as [c'|e] eqn:E; [eauto|]. exfalso.
    eapply C103_scripts_stop_at_the_first_refusal in E; [|exact E0 | exact Hd].
    destruct E as (ks1 & k & ks2 & -> & _ & R). destruct (H k) as [b Hb]; [apply in_or_app; right; left; reflexivity | congruence].
Qed.

(** ** Concrete cases *)
Section Examples.
Let S := Zscalar.
Let new : circuit S := forced (mk_circuit S (QList [3; 2; 4]%Z) None None).
Let u : mat S := mkmat 2 2 (fun i j => if i =? j then s1 else s0).

Example answers_ex :
  map (fun k : call S => (reply [3; 2; 4] false k, reply [3; 2; 4] true k))
    [CH 0 None; CH (-1) (Some 4%Z); CH (-2) (Some 4%Z); CH (-4) None; CH 3 None; CX 1 (Some 1%Z) 0; CX 1 (Some (-5)%Z) 7;
     CZ 0 (Some 4%Z); CCX [9; -9]%Z 0; CCX [0]%Z 0; CTof [] (-3) 0; CTof [1]%Z 3 0; CGate u (RList []) None;
     CGate u (RList [0; -4; 3]%Z) None; CGate u (RList [0; -4; 3]%Z) (Some 1%Z); CMeasure 0; CMeasureAll]%Z =
  [(Ok true, Ok false); (Ok true, Ok false); (Err ValueError, Err ValueError); (Err IndexError, Err IndexError);
   (Err ValueError, Err ValueError); (Ok true, Ok false); (Ok true, Ok false); (Err ValueError, Err ValueError);
   (Ok true, Ok false); (Err IndexError, Err IndexError); (Ok true, Ok true); (Err IndexError, Err IndexError);
   (Err ValueError, Err ValueError); (Err ValueError, Err ValueError); (Err IndexError, Err IndexError);
   (Err NotImplementedError, Err NotImplementedError); (Ok true, Ok true)].
Proof. vm_compute. reflexivity. Qed.

Example built_ex : mk_circuit S (QList (map Z.of_nat [3; 2; 4])) None None = Ok new.
Proof. apply forced_ok. vm_compute. reflexivity. Qed.

(** The third call is refused; the fourth, also wrong, is not reached. *)
Example stops_ex : script new [CH 0 None; CMeasureAll; CX 5 None 1; CMeasure 0]%Z = Err ValueError.
Proof. vm_compute. reflexivity. Qed.
Example goes_through_ex : exists c', script new [CH (-1) None; CCX [5; 6]%Z 1; CMeasureAll; CZ 0 None] = Ok c'.
Proof. eexists. vm_compute. reflexivity. Qed.
End Examples.

Print Assumptions C103_every_call_answers.
Print Assumptions C103_scripts_stop_at_the_first_refusal.
Print Assumptions C103_scripts_go_through.
