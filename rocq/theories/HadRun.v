(** * HadRun: the matrix of h, and two h calls in a row. *)
From Coq Require Import Reals Lra Lia Psatz Permutation.
From Verif Require Import Py Scalar Mat Utils Gates Circuit Spec Calls Complex ComplexSpec RoundSpec HadSpec Lib Kern GateMat
  Layers Refine Run Local Unitary ComplexLib ComplexGates ComplexRun CNorm HadLib HadOrder.
Set Implicit Arguments.
Local Notation length := List.length.

Section HR.
Variable ord : nat -> list nat.
Hypothesis Hord : orders ord.
Let CS := Cscalar ord.
Let LC : scalar_laws CS := Cscalar_laws Hord.

Lemma had_ent : forall d i j, 2 <= d -> i < d -> j < d ->
  had CS d i j = Cmul (sisqrt (s := CS) d) (ent (cyc d (ord d)) (d - 1) i j).
Proof.
  intros d i j Hd Hi Hj. unfold had, ent. cbn [smul CS Cscalar sroots s1]. unfold CS, Cscalar. cbn [smul sroots s1 s0]. f_equal.
  destruct (Nat.eqb i 0 || Nat.eqb j 0); [reflexivity|]. unfold cyc.
  rewrite nth_indep with (d' := root d 0); [apply map_nth|]. rewrite map_length, (ord_length Hord).
  pose proof (Nat.mod_upper_bound (i + (d - 1) - j) (d - 1)). lia.
Qed.

Lemma scale_mul : forall d x y, 0 < d ->
  Cmul (Cmul (sisqrt (s := CS) d) x) (Cmul (sisqrt (s := CS) d) y) = Cmul (/ INR d, 0)%R (Cmul x y).
Proof. intros d x y Hd. rewrite <- (scale_sq ord Hd). apply C_ext; simpl; ring. Qed.
Lemma scale_conj : forall d x, Cconj (Cmul (sisqrt (s := CS) d) x) = Cmul (sisqrt (s := CS) d) (Cconj x).
Proof. intros d x. apply C_ext; simpl; ring. Qed.

Lemma rows_gram : forall d i j, 2 <= d -> i < d -> j < d ->
  ctotal (fun k => Cmul (had CS d i k) (Cconj (had CS d j k))) (seq 0 d) = Cmul (/ INR d, 0)%R (gram (cyc d (ord d)) (d - 1) i j).
Proof.
  intros d i j Hd Hi Hj. unfold gram. replace (S (d - 1)) with d by lia. rewrite <- ctotal_scal. apply ctotal_ext.
  intros k Hk. apply in_seq in Hk. rewrite !had_ent, scale_conj, scale_mul by lia. reflexivity.
Qed.

Lemma gram_diag : forall d i, 2 <= d -> i < d -> gram (cyc d (ord d)) (d - 1) i i = (INR d, 0)%R.
Proof.
  intros d i Hd Hi. unfold gram. replace (S (d - 1)) with d by lia. rewrite (ctotal_ext _ (fun _ => C1)).
  - apply C_ext; [rewrite ctotal_fst | rewrite ctotal_snd]; rewrite rtotal_const, seq_length; simpl; ring.
  - intros k _. unfold ent. destruct (_ || _); [apply C_ext; simpl; ring | apply root_norm].
Qed.

(** The roots other than the last one add up to the opposite of the last one. *)
Lemma other_roots : forall d l e, 2 <= d -> ord d = l ++ [e] -> ctotal (cyc d (ord d)) (seq 0 (d - 1)) = Copp (root d e).
Proof.
  intros d l e Hd El.
  assert (Ll : length l = d - 1) by (pose proof (ord_length Hord d) as E; rewrite El, app_length in E; simpl in E; lia).
  assert (E1 : ctotal (cyc d (ord d)) (seq 0 (d - 1)) = ctotal (root d) l).
  { rewrite <- (map_nth_seq l 0) at 1. rewrite ctotal_map, Ll. apply ctotal_ext. intros k Hk. apply in_seq in Hk. unfold cyc.
    rewrite El, app_nth1 by lia. reflexivity. }
  assert (E2 : ctotal (root d) (ord d) = C0).
  { rewrite (ctotal_perm _ (Hord d)). rewrite <- (roots_sum Hd). induction (seq 0 d) as [|x q IH]; simpl; [reflexivity | rewrite IH; reflexivity]. }
  rewrite El, ctotal_app in E2. rewrite E1. cbn [ctotal] in E2.
  apply C_ext; [apply (f_equal fst) in E2 | apply (f_equal snd) in E2]; simpl in *; lra.
Qed.

Lemma last_root : forall d, 2 <= d -> exists l e, ord d = l ++ [e] /\ e < d.
Proof.
  intros d Hd. pose proof (ord_length Hord d) as E. destruct (ord d) as [|a l] eqn:El; [simpl in E; lia|].
  destruct (@exists_last _ (a :: l) ltac:(discriminate)) as [l' [e E']]. exists l', e. split; [exact E'|].
  apply (proj2 (ord_elems Hord d)). rewrite El, E'. apply in_or_app. right. left. reflexivity.
Qed.

Lemma orthogonal_one_last : forall d, 2 <= d -> gram (cyc d (ord d)) (d - 1) 0 1 = C0 -> one_last ord d.
Proof.
  intros d Hd H. destruct (last_root Hd) as [l [e [El He]]]. rewrite row_sum in H by lia. rewrite (@other_roots d l e Hd El) in H.
  destruct e as [|e]; [exists l; exact El|]. exfalso. apply (@root_neq_1 d (S e)); [lia|].
  apply C_ext; [apply (f_equal fst) in H | apply (f_equal snd) in H]; simpl in *; lra.
Qed.

(** Two rows that are not orthogonal. *)
Lemma two_rows : forall d, 4 <= d -> one_last ord d -> paired d (ord d) ->
  exists i j, i < d /\ j < d /\ i <> j /\ gram (cyc d (ord d)) (d - 1) i j <> C0.
Proof.
  intros d Hd [l El] Hp.
  set (ok := fun i j => Nat.eqb i j || Ceqb (gram (cyc d (ord d)) (d - 1) i j) C0).
  destruct (forallb (fun i => forallb (ok i) (seq 0 d)) (seq 0 d)) eqn:F.
  - exfalso. apply (@not_orthogonal d l Hd); [rewrite <- El; apply Hord | rewrite <- El; exact Hp|].
    intros i j Hi Hj Hn. rewrite forallb_forall in F. specialize (F i ltac:(apply in_seq; lia)).
    rewrite forallb_forall in F. specialize (F j ltac:(apply in_seq; lia)). unfold ok in F.
    apply orb_prop in F as [F|F]; [apply Nat.eqb_eq in F; contradiction|]. apply Ceqb_eq in F. rewrite <- F.
    assert (Ll : length l = d - 1) by (pose proof (ord_length Hord d) as E; rewrite El, app_length in E; simpl in E; lia).
    unfold gram. apply ctotal_ext. intros k _.
    assert (Ex : forall a b, ent (cyc d l) (d - 1) a b = ent (cyc d (ord d)) (d - 1) a b).
    { intros a b. unfold ent. destruct (_ || _); [reflexivity|]. unfold cyc. rewrite El, app_nth1; [reflexivity|].
      rewrite Ll. apply Nat.mod_upper_bound. lia. }
    rewrite !Ex. reflexivity.
  - assert (G : forall (f : nat -> bool) q, forallb f q = false -> exists x, In x q /\ f x = false).
    { intros f q; induction q as [|x q IH]; simpl; [discriminate|]. intros H. destruct (f x) eqn:Fx; [|exists x; auto].
      destruct (IH H) as [y [Hy Fy]]. exists y; auto. }
    apply G in F as [i [Hi F]]. apply G in F as [j [Hj F]]. apply in_seq in Hi, Hj. exists i, j. unfold ok in F.
    apply Bool.orb_false_iff in F as [F1 F2]. apply Nat.eqb_neq in F1. repeat split; try lia.
    intros E. apply Ceqb_eq in E. rewrite E in F2. discriminate.
Qed.

(** From some level, the squared moduli after two applications exceed 1. *)
Definition again (d i x : nat) : C := ctotal (fun j => Cmul (had CS d i j) (had CS d j x)) (seq 0 d).

Lemma again_gains : forall d, 4 <= d -> one_last ord d -> paired d (ord d) ->
  exists x, x < d /\ (1 < rtotal (fun i => prob (again d i x)) (seq 0 d))%R.
Proof.
  intros d Hd H1 Hp. destruct (two_rows Hd H1 Hp) as [a [b [Ha [Hb [Hab Hne]]]]].
  set (c := cyc d (ord d)) in *. set (m := d - 1) in *. assert (Em : S m = d) by (unfold m; lia).
  assert (Hs : ctotal c (seq 0 m) = Copp C1).
  { destruct H1 as [l El]. unfold c, m. rewrite (@other_roots d l 0 ltac:(lia) El), root_0. reflexivity. }
  assert (Dp : (0 < INR d)%R) by (apply lt_0_INR; lia).
  assert (Hag : forall i x, i < d -> x < d -> prob (again d i x) = (/ INR d * / INR d * prob (twice c m i x))%R).
  { intros i x Hi Hx. assert (E : again d i x = Cmul (/ INR d, 0)%R (twice c m i x)).
    - unfold again, twice. rewrite Em, <- ctotal_scal. apply ctotal_ext. intros j Hj. apply in_seq in Hj.
      rewrite !had_ent, scale_mul by lia. reflexivity.
    - rewrite E. unfold prob, Cre, Cim. simpl. ring. }
  pose proof (@twice_total c m ltac:(unfold m; lia) Hs) as T. rewrite Em in T.
  set (D := INR d) in *.
  assert (B : (D * (D * D) < rtotal (fun j => rtotal (fun l => prob (gram c m j l)) (seq 0 d)) (seq 0 d))%R).
  { assert (P : forall z, (0 <= prob z)%R) by (intros z; unfold prob, Cre, Cim; nra).
    assert (Pn : forall z, z <> C0 -> (0 < prob z)%R).
    { intros z Hz. destruct (Rle_lt_or_eq_dec _ _ (P z)) as [H|H]; [exact H|]. exfalso. apply Hz.
      unfold prob, Cre, Cim in H. apply C_ext; simpl; nra. }
    assert (Lo : forall j, In j (seq 0 d) -> (D * D + (if Nat.eqb j a then prob (gram c m a b) else 0)
                 <= rtotal (fun l => prob (gram c m j l)) (seq 0 d))%R).
    { intros j Hj. apply in_seq in Hj.
      assert (Dg : prob (gram c m j j) = (D * D)%R) by (unfold c, m; rewrite gram_diag by lia; unfold prob, Cre, Cim; cbn [fst snd]; fold D; ring).
      destruct (Nat.eqb_spec j a) as [->|Hn].
      - apply Rle_trans with (rtotal (fun l => prob (gram c m a l)) [a; b]).
        + cbn [rtotal]. rewrite Dg. lra.
        + apply rtotal_sub; [exact Nat.eq_dec | repeat constructor; simpl; intuition | | intros; apply P].
          intros y [<-|[<-|[]]]; apply in_seq; lia.
      - rewrite Rplus_0_r, <- Dg. apply (rtotal_in (fun l => prob (gram c m j l))); [intros; apply P | apply in_seq; lia]. }
    apply rtotal_le in Lo. rewrite rtotal_plus, rtotal_const, seq_length in Lo. fold D in Lo.
    assert (Q : (prob (gram c m a b) <= rtotal (fun x => if Nat.eqb x a then prob (gram c m a b) else 0) (seq 0 d))%R).
    { pose proof (rtotal_in (fun x => if Nat.eqb x a then prob (gram c m a b) else 0%R) (seq 0 d) a) as Q.
      cbv beta in Q. rewrite Nat.eqb_refl in Q. apply Q; [|apply in_seq; lia]. intros y _. destruct (Nat.eqb y a); [apply P | lra]. }
    pose proof (Pn _ Hne). lra. }
  rewrite <- T in B.
  destruct (@rtotal_more _ (fun x => rtotal (fun i => prob (twice c m i x)) (seq 0 d)) (seq 0 d) (D * D)%R) as [x [Hx Hx']].
  { rewrite seq_length. exact B. }
  apply in_seq in Hx. exists x. split; [lia|].
  rewrite (rtotal_ext _ (fun i => / D * / D * prob (twice c m i x))%R).
  - rewrite rtotal_scal. apply Rmult_lt_reg_l with (D * D)%R; [nra|].
    replace (D * D * (/ D * / D * rtotal (fun x0 => prob (twice c m x0 x)) (seq 0 d)))%R
      with (rtotal (fun x0 => prob (twice c m x0 x)) (seq 0 d)) by (field; lra). lra.
  - intros i Hi. apply in_seq in Hi. apply Hag; lia.
Qed.

(** ** Runs *)
Lemma norm_spread : forall dims s r (q : nat -> CS), valid dims s -> r < length dims ->
  norm CS dims (spread CS s r q) = bsum (fun j => smul (q j) (sconj (q j))) (seq 0 (nth r dims 0)).
Proof.
  intros dims s r q Hs Hr. pose proof (valid_length Hs) as Ls. unfold norm.
  transitivity (bsum (fun t => smul (s := CS) (local CS r (fun _ _ => s1) s t) (smul (q (level t r)) (sconj (q (level t r))))) (all_configs dims)).
  - apply bsum_ext. intros t _. unfold spread, local.
    destruct (config_eqb (put s r (level t r)) t) eqn:E.
    + apply config_eqb_eq in E. rewrite (proj2 (config_eqb_eq (put t r (level s r)) s)).
      * apply C_ext; simpl; ring.
      * rewrite <- E at 1. rewrite put_put, put_level. reflexivity.
    + destruct (config_eqb (put t r (level s r)) s) eqn:E'; [|apply C_ext; simpl; ring]. exfalso.
      apply config_eqb_eq in E'. rewrite <- E', put_put, put_level, config_eqb_refl in E. discriminate.
  - rewrite (local_apply LC) by assumption. apply bsum_ext. intros j _. rewrite level_put, Nat.eqb_refl by lia.
    apply C_ext; simpl; ring.
Qed.

Lemma two_h_norm : forall dims s r, valid dims s -> r < length dims ->
  Cre (norm CS dims (final dims (repeat (GH r) 2) (basis CS s)))
  = rtotal (fun i => prob (again (nth r dims 0) i (level s r))) (seq 0 (nth r dims 0)).
Proof.
  intros dims s r Hs Hr.
  rewrite (@norm_ext CS dims _ (spread CS s r (fun i => again (nth r dims 0) i (level s r)))).
  - rewrite norm_spread by assumption. unfold CS at 1. rewrite bsum_ctotal. unfold Cre. rewrite ctotal_fst. apply rtotal_ext. intros i _.
    unfold prob, Cre, Cim. simpl. ring.
  - intros t Ht. cbn [repeat final]. rewrite apply_kapply. unfold kapply. cbn [amp].
    transitivity (bsum (fun inp => smul (s := CS) (local CS r (had CS (nth r dims 0)) t inp)
       (spread CS s r (fun i => had CS (nth r dims 0) i (level s r)) inp)) (all_configs dims)).
    + apply bsum_ext. intros u _. rewrite (apply_h_spreads LC) by exact Hs. reflexivity.
    + rewrite (local_spread LC) by assumption. apply spread_ext with (n := nth r dims 0); [|apply valid_level; assumption].
      intros i _. apply bsum_ctotal.
Qed.
End HR.
