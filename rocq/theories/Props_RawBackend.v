(** * Props_RawBackend: circuits on backends that cannot be used (C115). *)
From Coq Require Import List ZArith Lia.
Import ListNotations.
From Verif Require Import Py Scalar Mat Gates Circuit RawBackend Construct NewCircuit.


(** The objects that raise [e] whenever their [matrix] is called. *)
Definition always_raises {S} (R : raw S) (e : exn) : Prop := forall a, r_matrix R a = Err e.

Lemma base_raises : forall S, always_raises (BaseBackend S) TypeError.
Proof. intros S a. reflexivity. Qed.

Lemma cuda_raises : forall S, always_raises (CUDAInstance S) TypeError.
Proof. intros S a. reflexivity. Qed.

Lemma mapM_ext : forall A B (f g : A -> res B) l, (forall a, f a = g a) -> mapM f l = mapM g l.
Proof. intros A B f g l H. induction l as [|a l IH]; cbn [mapM]; [reflexivity|]. rewrite H, IH. reflexivity. Qed.

Lemma init_on_total : forall S (R : raw S), (forall a, exists m, r_matrix R a = Ok m) ->
  forall d e q, init_state_on R d e q = init_state S d e q.
Proof.
  intros S R H d e q. unfold init_state_on. destruct (init_state S d e q) as [o|x]; [|reflexivity].
  cbn [bind]. destruct o; try reflexivity. destruct (H v) as [m ->]. reflexivity.
Qed.

(** ** A backend whose [matrix] returns has no influence on the constructor. *)
Theorem C115_usable_backends_build_the_same_circuit :
  forall S (R : raw S) q init out, (forall a, exists m, r_matrix R a = Ok m) ->
  mk_circuit_on R q init out = mk_circuit S q init out.
Proof.
  intros S R q init out H. unfold mk_circuit_on, mk_circuit. destruct (reg_layout q) as [[len dims]|x]; [|reflexivity].
  cbn [bind]. unfold initialize_states_on, initialize_states.
  rewrite (mapM_ext _ _ _ (fun '(i, e) => d <- py_get dims (Z.of_nat i) ;; init_state S d e (Z.of_nat i))); [reflexivity|].
  intros [i e]. destruct (py_get dims (Z.of_nat i)) as [d|x]; [|reflexivity]. cbn [bind]. apply (init_on_total S R H).
Qed.

Lemma first_init : forall S (R : raw S) dims x st y, 
  (d <- py_get dims 0 ;; init_state_on R d x 0) = Err y -> initialize_states_on R dims (x :: st) = Err y.
Proof.
  intros S R dims x st y H. unfold initialize_states_on. cbn [Datatypes.length seq combine mapM].
  change (Z.of_nat 0) with 0%Z. rewrite H. reflexivity.
Qed.

Lemma pad_first : forall (d : Z) L lv,
  exists st, pad_init (Z.of_nat (length (d :: L))) lv = nth 0 lv 0%Z :: st.
Proof.
  intros d L [|x lv]; unfold pad_init.
  - cbn [Datatypes.length nth]. destruct (Z.ltb_spec (Z.of_nat 0) (Z.of_nat (S (length L)))); [|lia].
    unfold zrepeat. rewrite Nat2Z.inj_succ. cbn [app].
    destruct (Z.to_nat (Z.succ (Z.of_nat (length L)) - Z.of_nat 0)) eqn:E; [lia|]. cbn [repeat]. eauto.
  - destruct (_ <? _)%Z; cbn [app nth]; eauto.
Qed.

(** ** With a backend that cannot be used, there is no circuit of one register
    or more: an acceptable first register gives the exception of the backend,
    whatever the others are. *)
Theorem C115_unusable_backend_raises :
  forall S (R : raw S) e d L lv out, always_raises R e ->
  (2 <= d)%Z -> (- d <= nth 0 lv 0 < d)%Z ->
  mk_circuit_on R (QList (d :: L)) (Some lv) out = Err e.
Proof.
  intros S R e d L lv out HR Hd Hx. unfold mk_circuit_on. cbn [reg_layout bind].
  destruct (pad_first d L lv) as [st ->]. rewrite (first_init S R _ _ _ e); [reflexivity|].
  cbn [bind]. change (py_get (d :: L) 0) with (Ok d). cbn [bind]. unfold init_state_on.
  pose proof (@init_state_cases S d (nth 0 lv 0%Z) 0%Z) as C.
  destruct (init_state S d (nth 0 lv 0%Z) 0) as [o|y]; [|exfalso; destruct C as [[C _]|[_ [C _]]]; lia].
  destruct o; try contradiction. cbn [bind]. rewrite HR. reflexivity.
Qed.

(** An unacceptable first register is found first. *)
Theorem C115_first_register_is_checked_first :
  forall S (R : raw S) d L lv out,
  ((d < 2 \/ d < nth 0 lv 0)%Z -> mk_circuit_on R (QList (d :: L)) (Some lv) out = Err ValueError) /\
  ((2 <= d /\ (nth 0 lv 0 = d \/ nth 0 lv 0 < - d))%Z -> mk_circuit_on R (QList (d :: L)) (Some lv) out = Err IndexError).
Proof.
  intros S R d L lv out.
  assert (G : forall y, init_state S d (nth 0 lv 0%Z) 0 = Err y -> mk_circuit_on R (QList (d :: L)) (Some lv) out = Err y).
  { intros y H. unfold mk_circuit_on. cbn [reg_layout bind].
    destruct (pad_first d L lv) as [st ->]. rewrite (first_init S R _ _ _ y); [reflexivity|].
    change (py_get (d :: L) 0) with (Ok d). cbn [bind]. unfold init_state_on. rewrite H. reflexivity. }
  pose proof (@init_state_cases S d (nth 0 lv 0%Z) 0%Z) as C.
  split; intros H; apply G; destruct (init_state S d (nth 0 lv 0%Z) 0) as [o|y].
  - destruct o; try contradiction; exfalso; lia.
  - destruct C as [[C ->]|[C1 [C2 ->]]]; [reflexivity|]; lia.
  - destruct o; try contradiction; exfalso; lia.
  - destruct C as [[C ->]|[C1 [C2 ->]]]; [lia|reflexivity].
Qed.

(** The same for QuantumCircuit((n, d)). *)
Theorem C115_unusable_backend_raises_on_tuples :
  forall S (R : raw S) e n d lv out, always_raises R e -> (0 < n)%Z ->
  (2 <= d)%Z -> (- d <= nth 0 lv 0 < d)%Z ->
  mk_circuit_on R (QTuple [n; d]) (Some lv) out = Err e.
Proof.
  intros S R e n d lv out HR Hn Hd Hx.
  replace n with (Z.of_nat (Datatypes.S (Z.to_nat n - 1))) by lia.
  pose proof (C115_unusable_backend_raises S R e d (repeat d (Z.to_nat n - 1)) lv out HR Hd Hx) as H.
  unfold mk_circuit_on in *. cbn [reg_layout bind] in *.
  change (py_get [Z.of_nat (Datatypes.S (Z.to_nat n - 1)); d] 0) with (Ok (Z.of_nat (Datatypes.S (Z.to_nat n - 1)))).
  change (py_get [Z.of_nat (Datatypes.S (Z.to_nat n - 1)); d] 1) with (Ok d). cbn [bind].
  unfold zrepeat. rewrite Nat2Z.id. cbn [repeat].
  cbn [Datatypes.length] in H. rewrite repeat_length in H.
  destruct (initialize_states_on _ _ _) as [f|y]; cbn [bind] in *; [discriminate|]. injection H as ->. reflexivity.
Qed.

(** ** Cases *)
Example C115_case_base : mk_circuit_on (BaseBackend Zscalar) (QList [3; 2]%Z) (Some [2]%Z) None = Err TypeError.
Proof. apply C115_unusable_backend_raises; [apply base_raises|lia|cbn; lia]. Qed.

(** The second register would be refused by a usable backend; TypeError comes
    first. *)
Example C115_case_order :
  mk_circuit_on (CUDAInstance Zscalar) (QList [3; 1]%Z) None None = Err TypeError /\
  mk_circuit_on (usable (NumpyBackend Zscalar)) (QList [3; 1]%Z) None None = Err ValueError.
Proof. split; reflexivity. Qed.

Example C115_case_usable :
  mk_circuit_on (usable (SparseBackend Zscalar)) (QList [3; 2]%Z) (Some [2]%Z) None
  = mk_circuit Zscalar (QList [3; 2]%Z) (Some [2]%Z) None /\
  exists c, mk_circuit Zscalar (QList [3; 2]%Z) (Some [2]%Z) None = Ok c.
Proof.
  split.
  - apply C115_usable_backends_build_the_same_circuit. intros a. eexists. reflexivity.
  - eexists. reflexivity.
Qed.

Example C115_case_no_register : exists c, mk_circuit_on (BaseBackend Zscalar) (QList []) None None = Ok c.
Proof. eexists. reflexivity. Qed.

Example C115_case_first : mk_circuit_on (BaseBackend Zscalar) (QList [3; 2]%Z) (Some [3]%Z) None = Err IndexError.
Proof. reflexivity. Qed.

Example C115_case_tuple : mk_circuit_on (BaseBackend Zscalar) (QTuple [4; 3]%Z) (Some [-1]%Z) None = Err TypeError.
Proof. apply C115_unusable_backend_raises_on_tuples; [apply base_raises|lia|lia|cbn; lia]. Qed.

Print Assumptions C115_usable_backends_build_the_same_circuit.
Print Assumptions C115_unusable_backend_raises.
Print Assumptions C115_first_register_is_checked_first.
Print Assumptions C115_unusable_backend_raises_on_tuples.
