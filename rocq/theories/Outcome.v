(** * Outcome: how the output options and large dimensions show in the result. *)
From Coq Require Import String.
From Verif Require Import Py Scalar Mat Utils Gates Circuit Spec Calls HistSpec Lib Kern GateMat GateTof Flow Layers Blocks Refine Run Reversible.
Set Implicit Arguments.
Local Notation length := List.length.

Section Outcome.
Variable S : scalar.
Notation circuit := (circuit S).
Notation call := (call S).

(** ** The output option is read by [run] only *)
Definition with_out (o : output) (c : circuit) : circuit :=
  {| c_qregs := c_qregs c; c_init := c_init c; c_len := c_len c; c_dims := c_dims c; c_out := o; c_flow := c_flow c |}.
Definition redir {A} (o : output) (r : res (circuit * A)) : res (circuit * A) :=
  match r with Ok (c, b) => Ok (with_out o c, b) | Err e => Err e end.

Lemma redir_bind : forall A X (o : output) (r : res X) (f f' : X -> res (circuit * A)),
  (forall x, f' x = redir o (f x)) -> bind r f' = redir o (bind r f).
Proof. intros A X o [x|e] f f' H; [apply H | reflexivity]. Qed.

Lemma add_moment_out : forall o c q g, add_moment (with_out o c) q g = redir o (add_moment c q g).
Proof.
  intros o c q g. unfold add_moment. apply redir_bind. intros data. apply redir_bind. intros [f b]. reflexivity.
Qed.

Lemma api_out : forall o c (k : call), api (with_out o c) k = redir o (api c k).
Proof.
  intros o c k. destruct k; cbn [api]; try reflexivity;
    repeat (first [apply add_moment_out | apply redir_bind; intro]).
  - destruct x; try reflexivity. rewrite add_moment_out. destruct add_moment as [[c' b]|]; reflexivity.
  - destruct x. reflexivity.
Qed.

Lemma script_out : forall o (ks : list call) c,
  script (with_out o c) ks = match script c ks with Ok c' => Ok (with_out o c') | Err e => Err e end.
Proof.
  intros o ks; induction ks as [|k ks IH]; intros c; [reflexivity|]. cbn [script]. rewrite api_out.
  destruct (api c k) as [[c' b]|e]; [apply IH | reflexivity].
Qed.

Definition squared (l : list (label * S)) : list (label * S) := map (fun '(s, a) => (s, smul a a)) l.

Lemma output_square : forall base ty (M : mat S),
  output_call {| o_base := base; o_type := ty; o_method := OutProbability |} M
  = (l <- output_call {| o_base := base; o_type := ty; o_method := OutAmplitude |} M ;; Ok (squared l)).
Proof.
  intros base ty M. unfold output_call. generalize (flat_map (fun i => flat_map (fun j => if seqb (mget M i j) s0 then [] else [i]) (seq 0 (mc M))) (seq 0 (mr M))).
  intros l; induction l as [|v l IH]; [reflexivity|]. cbn [mapM o_base o_type o_method].
  destruct (Nbase_to_bin (Z.of_nat v) base) as [st|]; [|reflexivity]. cbn [bind]. cbn [o_base o_type o_method] in IH. rewrite IH.
  match goal with |- context [mapM ?f l] => destruct (mapM f l) end; reflexivity.
Qed.

Theorem simulate_square : forall (B : backend S) q init base ty ks,
  simulate B q init (Some {| o_base := base; o_type := ty; o_method := OutProbability |}) ks
  = (l <- simulate B q init (Some {| o_base := base; o_type := ty; o_method := OutAmplitude |}) ks ;; Ok (squared l)).
Proof.
  intros B q init base ty ks. unfold simulate, mk_circuit.
  destruct (reg_layout q) as [[len dims]|]; [|reflexivity]. cbn [bind].
  destruct (initialize_states S dims _) as [f|]; [|reflexivity]. cbn [bind].
  match goal with |- bind (script ?x _) _ = bind (bind (script ?y _) _) _ =>
    change x with (with_out {| o_base := base; o_type := ty; o_method := OutProbability |} y);
    assert (Ho : c_out y = {| o_base := base; o_type := ty; o_method := OutAmplitude |}) by reflexivity;
    generalize dependent y end.
  intros y Ho. rewrite script_out.
  assert (G : forall (ks : list call) c c', script c ks = Ok c' -> c_out c' = c_out c).
  { clear. intros ks; induction ks as [|k ks IH]; intros c c' H; [injection H as <-; reflexivity|].
    cbn [script] in H. pose proof (api_out (c_out c) c k) as E.
    replace (with_out (c_out c) c) with c in E by (destruct c; reflexivity).
    destruct (api c k) as [[c1 b]|]; [|discriminate]. cbn [bind redir] in *. apply IH in H. injection E as E.
    rewrite H. rewrite E. reflexivity. }
  destruct (script y _) as [c'|] eqn:Es; [|reflexivity]. cbn [bind]. unfold run.
  apply G in Es. cbn [c_flow with_out]. destruct (flow_exec B (c_flow c')) as [[M|]|]; [|reflexivity|reflexivity].
  cbn [bind c_out with_out]. rewrite Es, Ho. apply output_square.
Qed.

(** ** Two states under one printed label *)
Hypothesis L : scalar_laws S.
Add Ring Sring : (sl_ring L).

Lemma apply_local_basis : forall dims (g : gate S) s out, valid dims s -> apply dims g (basis S s) out = amp dims g out s.
Proof.
  intros dims g s out Hs. rewrite apply_kapply. unfold kapply.
  rewrite bsum_ext with (g := fun u => smul (delta S s u) (amp dims g out u)) by (intros u _; unfold delta, basis; ring).
  apply (bsum_delta_l L). exact Hs.
Qed.

Lemma answer_in : forall dims psi s a, valid dims s -> psi s = a -> a <> s0 -> In (s, a) (answer (S := S) dims psi).
Proof.
  intros dims psi s a Hs <- Ha. apply in_map_iff. exists s. split; [reflexivity|]. apply filter_In.
  split; [apply in_all_configs; exact Hs|]. destruct (seqb (psi s) s0) eqn:E; [|reflexivity].
  apply (sl_eqb L) in E. contradiction.
Qed.

Let big := [12; 11].
Let prog : list (gate S) := [GH 0; GCX 0 1 1].

Lemma big_amp : forall s, valid big s -> move_cx big 0 1 (-1) s = [level s 0; 10] ->
  final big prog (basis S [0; 10]) s = sisqrt 12.
Proof.
  intros s Hs E. cbn [prog final]. rewrite apply_kapply, amp_reversible by reflexivity.
  assert (Hm : forall p t, valid big t -> valid big (move_cx big 0 1 p t)).
  { intros p t Ht. apply GateMat.move_cx_valid; [exact Ht | simpl; lia]. }
  rewrite (@apply_classical S L big _ (move_cx big 0 1 (-1))); [| apply Hm | | | exact Hs].
  - rewrite E. rewrite apply_local_basis by (repeat constructor). cbn [amp]. unfold local.
    replace (config_eqb _ _) with true by (symmetry; apply config_eqb_eq; reflexivity).
    cbn [level nth]. unfold had. rewrite Bool.orb_true_r. change (nth 0 big 0) with 12. ring.
  - intros t Ht. apply (@GateMat.move_cx_inv big 0 1 1 t); [exact Ht | simpl; lia | lia].
  - intros t Ht. apply (@GateMat.move_cx_inv big 0 1 (-1) t); [exact Ht | simpl; lia | lia].
Qed.
End Outcome.
