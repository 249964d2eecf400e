(** * FigLib: the matplotlib drawing of arbitrary circuits. *)
From Coq Require Import List Arith ZArith Lia String Bool.
From Verif Require Import Py Scalar Mat Utils Gates Circuit Spec Calls HistSpec CallSpec Lib GateMat Flow Layers History Info InfoSpec InfoLib
  Draw DrawSpec DrawLib DrawFailSpec DrawFail MplLib FigSpec.
Import ListNotations.
Set Implicit Arguments.
Local Notation length := List.length.

Section FigLib.
Variable S : scalar.
Notation op := (op S).
Notation circuit := (circuit S).
Notation moment := (moment S).

(** [f] succeeds or raises as [t] tells. *)
Definition told {A B} (f : A -> res B) (t : A -> option exn) (x : A) : Prop :=
  match t x with None => exists y, f x = Ok y | Some e => f x = Err e end.

Lemma mapM_told : forall A B (f : A -> res B) t l, (forall x, In x l -> told f t x) ->
  match first_some t l with None => exists ys, mapM f l = Ok ys | Some e => mapM f l = Err e end.
Proof.
  intros A B f t l; induction l as [|x l IH]; intros H; [exists []; reflexivity|]. cbn [first_some mapM].
  pose proof (H x (or_introl eq_refl)) as Hx. unfold told in Hx. destruct (t x) as [e|].
  - rewrite Hx. reflexivity.
  - destruct Hx as [y ->]. cbn [bind]. specialize (IH (fun z Hz => H z (or_intror Hz))). destruct (first_some t l).
    + rewrite IH. reflexivity.
    + destruct IH as [ys ->]. eexists. reflexivity.
Qed.

Lemma get_told : forall (l : list Z) i, if names_row (length l) i then exists x, py_get l i = Ok x else py_get l i = Err IndexError.
Proof.
  intros l i. pose proof (py_index_row (length l) i) as E. unfold py_get. destruct (names_row (length l) i).
  - destruct E as [k [Hk ->]]. rewrite (nth_error_nth' l 0%Z) by exact Hk. eexists. reflexivity.
  - rewrite E. reflexivity.
Qed.

Lemma cgate_some : forall nm cs t p d, cs <> [] -> exists m, draw_cgate nm cs t p d = Ok m.
Proof.
  intros nm cs t p d H. unfold draw_cgate. rewrite py_min_lowest, py_max_highest by exact H. eexists. reflexivity.
Qed.

Lemma mark_told : forall o : op, (forall ds u, o <> OArb (RList []) ds u) -> told (@draw_gate S) (@unmarked S) o.
Proof.
  intros o Ho. unfold told. destruct o; try (eexists; reflexivity); cbn [draw_gate unmarked].
  - (* cx *)
    destruct acting_on as [|c [|t [|x a]]]; try reflexivity. cbn [draw_cnot_gate].
    pose proof (get_told qreg c) as Ec. pose proof (get_told qreg t) as Et.
    destruct (names_row (length qreg) c); destruct (names_row (length qreg) t); cbn [andb].
    + destruct Ec as [xc ->]. destruct Et as [xt ->]. cbn [bind]. destruct (_ && _)%Z; [eexists; reflexivity|].
      apply cgate_some. discriminate.
    + rewrite Et. reflexivity.
    + destruct Et as [xt ->]. rewrite Ec. reflexivity.
    + rewrite Et. reflexivity.
  - (* toffoli *)
    unfold draw_toffoli_gate. pose proof (get_told dims target) as Et. destruct (names_row (length dims) target).
    + destruct Et as [x ->]. cbn [bind]. destruct controls as [|c0 cs]; [reflexivity|]. apply cgate_some. discriminate.
    + rewrite Et. reflexivity.
  - (* arbitrary *)
    destruct qreg as [q|[|q1 [|q2 qs]]]; try (eexists; reflexivity).
    exfalso. eapply Ho. reflexivity.
Qed.

Lemma first_some_concat : forall A B (t : A -> option B) (ls : list (list A)),
  first_some (first_some t) ls = first_some t (concat ls).
Proof.
  intros A B t ls; induction ls as [|l ls IH]; [reflexivity|]. cbn [first_some concat]. rewrite first_some_app, IH. reflexivity.
Qed.

Lemma first_some_map : forall A B E (g : A -> B) (t : B -> option E) l, first_some t (map g l) = first_some (fun x => t (g x)) l.
Proof. intros A B E g t l; induction l as [|x l IH]; [reflexivity|]. cbn [map first_some]. rewrite IH. reflexivity. Qed.

Theorem figure_any : forall l init out ks (c : circuit), history (QList l) init out ks c -> 2 <= length (layers_of c) ->
  match first_some (@unmarked S) (concat (layers_of c)) with
  | None => exists f, draw_circuit_mpl c = Ok f
  | Some e => draw_circuit_mpl c = Err e
  end.
Proof.
  intros l init out ks c H Hlen.
  destruct (@history_full S (fun _ => True) _ _ _ _ _ H ltac:(apply Forall_forall; auto)) as [l0 [ls [I _]]]. cbn [nregs] in I.
  pose proof (i_list I) as EL. unfold layers in EL.
  assert (Hops : forall lay o, In lay (layers_of c) -> In o lay -> told (@draw_gate S) (@unmarked S) o).
  { intros lay o Hlay Ho. apply mark_told. intros ds u ->.
    destruct (@history_ops S (fun _ => True) _ _ _ _ _ H ltac:(apply Forall_forall; auto) _ _ Hlay Ho) as [A|[[q A]|[_ Hocc]]];
      try discriminate.
    apply Hocc. unfold occupies. clear. induction (seq _ _) as [|x xs IH]; [reflexivity|]. simpl. exact IH. }
  unfold draw_circuit_mpl. unfold layers_of in *. rewrite map_length in Hlen.
  destruct (f_list (c_flow c)) as [|m0 [|m1 ms]] eqn:Em; [simpl in Hlen; lia.. |].
  replace (py_get (m0 :: m1 :: ms) 1) with (Ok m1).
  2: { unfold py_get. rewrite py_index_in by (simpl length; lia). reflexivity. }
  replace (py_get (m0 :: m1 :: ms) 0) with (Ok m0).
  2: { unfold py_get. rewrite py_index_in by (simpl length; lia). reflexivity. }
  cbn [bind]. set (mm := m0 :: m1 :: ms) in *.
  rewrite mapM_ok with (g := fun '(r, o) => match o : op with OInit d s _ _ => wire_sign r d s | _ => ""%string end).
  - cbn [bind]. rewrite <- first_some_concat, first_some_map.
    pose proof (@mapM_told _ _ (fun m : moment => l <- mapM (@draw_gate S) (m_list m) ;; Ok (concat l))
                  (fun m => first_some (@unmarked S) (m_list m)) mm) as M.
    destruct (first_some _ mm) as [e|].
    + rewrite M; [reflexivity|]. intros m Hm. unfold told.
      pose proof (@mapM_told _ _ (@draw_gate S) (@unmarked S) (m_list m)
                    (fun o Ho => Hops (m_list m) o (in_map _ _ _ Hm) Ho)) as Q.
      destruct (first_some (@unmarked S) (m_list m)); [rewrite Q; reflexivity | destruct Q as [y ->]; eexists; reflexivity].
    + destruct M as [ys ->]; [|eexists; reflexivity]. intros m Hm. unfold told.
      pose proof (@mapM_told _ _ (@draw_gate S) (@unmarked S) (m_list m)
                    (fun o Ho => Hops (m_list m) o (in_map _ _ _ Hm) Ho)) as Q.
      destruct (first_some (@unmarked S) (m_list m)); [rewrite Q; reflexivity | destruct Q as [y ->]; eexists; reflexivity].
  - intros [r o] Hin. apply in_combine_r in Hin. assert (A := i_m0 I). injection EL as E0 _. rewrite <- E0 in A.
    destruct A as [A _]. rewrite forallb_forall in A. specialize (A o Hin). destruct o; try discriminate. reflexivity.
Qed.

(** A gate without a mark that stays in the circuit. *)
Theorem unmarked_spoils : forall l init out ks (c : circuit) k g e rest, history (QList l) init out ks c -> l <> [] ->
  ~ In CMeasureAll ks -> issues c k g -> occupies (length l) g <> [] -> unmarked g = Some e ->
  exists e', draw_circuit_mpl (after c (k :: rest)) = Err e'.
Proof.
  intros l init out ks c k g e rest H Hl Hm Hi Ho He.
  assert (Hn : 0 < nregs (QList l)) by (destruct l; [congruence | simpl; lia]).
  destruct (placed rest H Hn Hm Hi Ho) as [lay [Hlay Hg]].
  assert (D : told (@draw_gate S) (@unmarked S) g).
  { apply mark_told. intros ds u ->. discriminate. }
  unfold told in D. rewrite He in D. eapply figure_fails; eauto.
Qed.
End FigLib.
