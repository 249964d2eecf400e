(** * Labels: what the keys of a result look like. *)
From Coq Require Import String Ascii.
From Verif Require Import Py Scalar Mat Utils Gates Circuit Spec Calls HistSpec Lib History Construct Convert Run BackendEq.
Set Implicit Arguments.
Local Notation length := List.length.

Section Labels.
Variable S : scalar.
Notation op := (op S).
Notation circuit := (circuit S).
Notation NB := (NumpyBackend S).

(** ** The state of a run is a column *)
Definition column (o : op) : Prop := match o with OInit _ _ _ v => mc v = 1 | _ => False end.

Lemma first_column : forall q init out (c : circuit) l0 ls m n, mk_circuit S q init out = Ok c -> inv n c m l0 ls -> Forall column l0.
Proof.
  intros q init out c l0 ls m n H I. unfold mk_circuit in H.
  apply bind_ok in H as [[len dims] [_ H]]. apply bind_ok in H as [f [Hf H]]. injection H as <-.
  pose proof (i_list I) as El. unfold layers in El. cbn [c_flow] in El.
  unfold initialize_states in Hf. apply bind_ok in Hf as [gates [Hg Hf]]. apply bind_ok in Hf as [[f' b] [Hf E]].
  injection E as ->. unfold populate_opflow in Hf. cbn [rev opflow0 f_list] in Hf. apply bind_ok in Hf as [me [_ Hf]].
  injection Hf as <- _. cbn [f_list map m_list mk_moment] in El. injection El as <- _.
  apply mapM_forall2 in Hg. clear - Hg. induction Hg as [|x o l l' Hx Hg IH]; constructor; [|exact IH].
  destruct x as [i e]. apply bind_ok in Hx as [d [_ Hx]]. pose proof (@init_state_cases S d e (Z.of_nat i)) as C.
  rewrite Hx in C. destruct o; try contradiction. destruct C as [_ [_ [_ [_ ->]]]]. reflexivity.
Qed.

Lemma exec_column : forall (l : list op) (M : mat S), Forall column l -> moment_exec NB l = Ok M -> mc M = 1.
Proof.
  intros l M HF H. destruct l as [|g gs]; [discriminate|]. unfold moment_exec in H.
  apply bind_ok in H as [u [Hu H]]. inversion HF as [|x y Hg Hgs]; subst.
  assert (Eu : mc u = 1). { destruct g; try contradiction. injection Hu as <-. exact Hg. }
  clear Hu Hg HF. revert u Eu H. induction Hgs as [|o gs Ho Hgs IH]; intros u Eu H; simpl in H.
  - injection H as <-. exact Eu.
  - destruct o; try contradiction. simpl in H. eapply IH; [|exact H]. cbn. simpl in Ho. rewrite Eu, Ho. reflexivity.
Qed.

Lemma flow_column : forall n (c : circuit) m l0 ls (M : mat S), inv n c m l0 ls -> Forall column l0 ->
  flow_exec NB (c_flow c) = Ok (Some M) -> mc M = 1.
Proof.
  intros n c m l0 ls M I HF H. unfold flow_exec in H. rewrite (i_meas I) in H.
  destruct (forallb (fun b => b) (repeat m n)) eqn:Em; [|discriminate].
  pose proof (i_list I) as El. unfold layers in El.
  destruct (rev (f_list (c_flow c))) as [|last rest] eqn:Er; [discriminate|].
  assert (Ef : f_list (c_flow c) = rev rest ++ [last]) by (rewrite <- (rev_involutive (f_list _)), Er; reflexivity).
  rewrite Ef, map_app in El. cbn [map] in El.
  destruct (rev rest) as [|m0 ms] eqn:Er2.
  - (* nothing left: exec returns None *)
    assert (rest = []) by (rewrite <- (rev_involutive rest), Er2; reflexivity). subst rest. discriminate.
  - cbn [map app] in El. injection El as E0 _.
    assert (Eres : rest = rev ms ++ [m0]) by (rewrite <- (rev_involutive rest), Er2; reflexivity). subst rest.
    rewrite fold_left_app in H. cbn [fold_left] in H. apply bind_ok in H as [a [_ H]]. apply bind_ok in H as [k [Hk H]].
    assert (Hc : mc k = 1) by (eapply exec_column; [|exact Hk]; rewrite E0; exact HF).
    destruct a as [d|].
    + apply bind_ok in H as [p [Hp H]]. injection H as <-. simpl in Hp. unfold ddot in Hp.
      destruct (Nat.eqb _ _); [|discriminate]. injection Hp as <-. exact Hc.
    + injection H as <-. exact Hc.
Qed.

(** ** Labels of a column *)
Lemma output_labels : forall dims (o : output) (M : mat S) l, (forall d, In d dims -> 0 < d) ->
  o_base o = map Z.of_nat dims -> mc M = 1 -> output_call o M = Ok l ->
  exists states, map fst l = map (shown (o_type o)) states /\ Forall (valid dims) states /\ NoDup states.
Proof.
  intros dims o M l Hpos Hb Hc H. unfold output_call in H. rewrite Hc in H.
  set (vs := flat_map _ (seq 0 (mr M))) in H.
  assert (Hvs : NoDup vs).
  { unfold vs. clear. assert (G : forall k n, NoDup (flat_map (fun i => flat_map (fun j => if seqb (mget M i j) s0 then [] else [i]) (seq 0 1)) (seq k n))
        /\ forall x, In x (flat_map (fun i => flat_map (fun j => if seqb (mget M i j) s0 then [] else [i]) (seq 0 1)) (seq k n)) -> k <= x).
    { intros k n; revert k; induction n as [|n IH]; intros k; simpl; [split; [constructor | contradiction]|].
      destruct (IH (Datatypes.S k)) as [H1 H2]. destruct (seqb (mget M k 0) s0); simpl.
      - split; [exact H1|]. intros x Hx. apply H2 in Hx. lia.
      - split; [constructor; [intro Hx; apply H2 in Hx; lia | exact H1]|]. intros x [<-|Hx]; [lia|]. apply H2 in Hx. lia. }
    apply G. }
  apply mapM_inv in H. rewrite Hb in H.
  assert (G : Forall (fun v => v < prodn dims) vs /\ map fst l = map (fun v => shown (o_type o) (unlin dims v)) vs).
  { clear Hvs. induction H as [|v y vs' l' Hv H [IH1 IH2]]; [split; [constructor | reflexivity]|].
    apply bind_ok in Hv as [st [Hn Hv]].
    assert (Hlt : v < prodn dims).
    { destruct (Nat.lt_ge_cases v (prodn dims)) as [X|X]; [exact X|]. rewrite nbase_big in Hn; [discriminate| |].
      - intros b Hin. apply in_map_iff in Hin as [d [<- Hd]]. specialize (Hpos d Hd). lia.
      - right. rewrite zprod_nat. lia. }
    split; [constructor; assumption|]. cbn [map]. rewrite IH2. f_equal.
    injection Hv as <-. cbn [fst]. rewrite <- mk_label_shown. f_equal.
    rewrite <- (@lin_unlin dims v Hlt) in Hn. rewrite (Nbase_to_bin_lin (unlin_valid dims Hlt)) in Hn. congruence. }
  destruct G as [G1 G2]. exists (map (unlin dims) vs). split; [rewrite map_map; exact G2|]. split.
  - rewrite Forall_map. apply (Forall_impl _ (fun v Hv => unlin_valid dims Hv) G1).
  - apply (NoDup_map_inv (lin dims)). rewrite map_map. rewrite map_ext_in with (g := fun v => v); [rewrite map_id; exact Hvs|].
    intros v Hv. apply lin_unlin. rewrite Forall_forall in G1. apply G1, Hv.
Qed.

Theorem run_labels : forall (L : scalar_laws S) (B : backend S) dims init out ty me ks (c : circuit) l,
  B = NB \/ B = SparseBackend S ->
  history (QList (map Z.of_nat dims)) init out ks c -> wants dims out ty me -> run B c = Ok l ->
  exists states, map fst l = map (shown ty) states /\ Forall (valid dims) states /\ NoDup states.
Proof.
  intros L B dims init out ty me ks c l HB H Hw Hr.
  assert (Hr' : run NB c = Ok l) by (destruct HB as [->| ->]; [exact Hr | rewrite (run_backends L); exact Hr]). clear Hr HB.
  assert (Hpos : forall d, In d dims -> 0 < d).
  { intros d Hd. pose proof (history_dims2 H (Z.of_nat d) (in_map _ _ _ Hd)). lia. }
  pose proof (history_layout H) as [_ [_ [_ Eo]]].
  destruct H as [c0 [H0 ->]]. destruct (inv_new _ _ _ H0) as [l0 I0].
  destruct (after_inv ks I0) as [ls I]. pose proof (first_column _ _ _ H0 I0) as HF.
  unfold run in Hr'. apply bind_ok in Hr' as [r [Hf Hr]]. destruct r as [M|]; [|discriminate].
  pose proof (flow_column I HF Hf) as Hc. cbn [b_toarray NumpyBackend] in Hr.
  assert (Eo' : c_out (after c0 ks) = {| o_base := map Z.of_nat dims; o_type := ty; o_method := me |})
    by (rewrite Eo; destruct Hw as [->|[-> [-> ->]]]; reflexivity).
  destruct (@output_labels dims (c_out (after c0 ks)) M l Hpos) as [states Hs]; rewrite ?Eo'; try assumption; try reflexivity.
  - rewrite <- Eo'. exact Hr.
  - exists states. rewrite Eo' in Hs. exact Hs.
Qed.

End Labels.

(** ** Printed labels of small dimensions *)
Definition digit (x : nat) : ascii := ascii_of_nat (48 + x).
Lemma digit_str : forall x, x < 10 -> str_of_Z (Z.of_nat x) = String (digit x) EmptyString.
Proof. intros x H. do 10 (destruct x as [|x]; [reflexivity|]). lia. Qed.
Lemma digit_inj : forall x y, x < 10 -> y < 10 -> digit x = digit y -> x = y.
Proof.
  intros x y Hx Hy H. unfold digit in H. apply (f_equal nat_of_ascii) in H. rewrite !nat_ascii_embedding in H by lia. lia.
Qed.

Fixpoint digits_str (s : list nat) : string := match s with [] => EmptyString | x :: s' => String (digit x) (digits_str s') end.
Lemma digits_shown : forall s, Forall (fun x => x < 10) s -> String.concat "" (map (fun x => str_of_Z (Z.of_nat x)) s) = digits_str s.
Proof.
  assert (G : forall x l, String.concat "" (x :: l) = (x ++ String.concat "" l)%string).
  { intros x [|y l]; [|reflexivity]. cbn. induction x as [|a x IH]; [reflexivity|]. cbn. rewrite <- IH. reflexivity. }
  intros s H; induction H as [|x s Hx Hs IH]; [reflexivity|]. cbn [map]. rewrite G, IH, (digit_str Hx). reflexivity.
Qed.
Lemma digits_str_inj : forall s t, Forall (fun x => x < 10) s -> Forall (fun x => x < 10) t -> digits_str s = digits_str t -> s = t.
Proof.
  intros s t Hs; revert t; induction Hs as [|x s Hx Hs IH]; intros [|y t] Ht E; try discriminate; [reflexivity|].
  inversion Ht; subst. cbn [digits_str] in E. injection E as E1 E2. f_equal; [apply digit_inj; assumption | apply IH; assumption].
Qed.
Lemma append_inj_r : forall a b c : string, (a ++ c = b ++ c)%string -> a = b.
Proof.
  assert (Hlen : forall a b, String.length (a ++ b) = String.length a + String.length b).
  { intros a b; induction a; simpl; [reflexivity | rewrite IHa; reflexivity]. }
  induction a as [|x a IH]; intros [|y b] c E; [reflexivity| | |].
  - apply (f_equal String.length) in E. cbn [append] in E. cbn [String.length] in E. rewrite Hlen in E. lia.
  - apply (f_equal String.length) in E. cbn [append] in E. cbn [String.length] in E. rewrite Hlen in E. lia.
  - cbn [append] in E. injection E as -> E. f_equal. apply (IH _ _ E).
Qed.

Lemma tuple_inj : forall s t, map Z.of_nat s = map Z.of_nat t -> s = t.
Proof.
  induction s as [|x s IH]; intros [|y t] E; try discriminate; [reflexivity|].
  cbn [map] in E. injection E as E1 E2. f_equal; [lia | apply IH; exact E2].
Qed.

Lemma shown_inj : forall ty dims s t, (forall d, In d dims -> d <= 10) -> valid dims s -> valid dims t ->
  shown ty s = shown ty t -> s = t.
Proof.
  intros ty dims s t Hd Hs Ht E. destruct ty; cbn [shown] in E.
  - assert (G : forall s, valid dims s -> Forall (fun x => x < 10) s).
    { clear - Hd. intros s H. induction H as [|x d s ds Hx H IH]; constructor.
      - specialize (Hd d (or_introl eq_refl)). lia.
      - apply IH. intros; apply Hd; right; assumption. }
    rewrite !digits_shown in E by (apply G; assumption). injection E as E. apply append_inj_r in E.
    apply digits_str_inj in E; auto.
  - injection E as E. exact (tuple_inj _ _ E).
Qed.

Lemma shown_NoDup : forall ty dims states, (forall d, In d dims -> d <= 10) -> Forall (valid dims) states -> NoDup states ->
  NoDup (map (shown ty) states).
Proof.
  intros ty dims states Hd HF HN. induction HN as [|s states Hs HN IH]; [constructor|].
  inversion HF; subst. cbn [map]. constructor; [|apply IH; assumption].
  intros Hin. apply in_map_iff in Hin as [t [E Ht]]. apply Hs. rewrite Forall_forall in H2.
  rewrite (@shown_inj ty dims s t); auto.
Qed.
