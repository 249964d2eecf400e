(** * Local: single-register gates applied to a state, the H gate on level 0,
    and the order of the outcomes. *)
From Coq Require Import Permutation Sorted FinFun.
From Verif Require Import Py Scalar Mat Utils Gates Circuit Spec Calls Lib Kern GateMat Layers Refine.
Set Implicit Arguments.

(** ** Outcomes that differ in one register *)
Lemma sorted_eq : forall l m : list nat, StronglySorted lt l -> StronglySorted lt m -> (forall x, In x l <-> In x m) -> l = m.
Proof.
  induction l as [|x l IH]; intros m Hl Hm H.
  - destruct m as [|y m]; [reflexivity|]. exfalso. apply (H y). left; reflexivity.
  - destruct m as [|y m]; [exfalso; apply (H x); left; reflexivity|].
    apply StronglySorted_inv in Hl as [Hl1 Hl2]. apply StronglySorted_inv in Hm as [Hm1 Hm2].
    rewrite Forall_forall in Hl2, Hm2.
    assert (x = y).
    { destruct (proj1 (H x) (or_introl eq_refl)) as [E|E]; [congruence|].
      destruct (proj2 (H y) (or_introl eq_refl)) as [E'|E']; [congruence|].
      apply Hm2 in E. apply Hl2 in E'. lia. }
    subst y. f_equal. apply IH; try assumption. intros z. split; intros Hz.
    + destruct (proj1 (H z) (or_intror Hz)) as [<-|]; [apply Hl2 in Hz; lia | assumption].
    + destruct (proj2 (H z) (or_intror Hz)) as [<-|]; [apply Hm2 in Hz; lia | assumption].
Qed.

Lemma seq_sorted : forall k n, StronglySorted lt (seq k n).
Proof.
  intros k n; revert k; induction n as [|n IH]; intros k; simpl; constructor; [apply IH|].
  apply Forall_forall. intros x Hx. apply in_seq in Hx. lia.
Qed.

Lemma sorted_filter : forall (A : Type) (f : A -> nat) (P : A -> bool) l, StronglySorted lt (map f l) ->
  StronglySorted lt (map f (filter P l)).
Proof.
  intros A f P l; induction l as [|x l IH]; intros H; simpl; [constructor|]. simpl in H.
  apply StronglySorted_inv in H as [H1 H2]. destruct (P x); [|auto]. simpl. constructor; [auto|].
  rewrite Forall_forall in *. intros y Hy. apply H2. apply in_map_iff in Hy as [z [<- Hz]].
  apply filter_In in Hz. apply in_map. tauto.
Qed.

Lemma filter_configs_sorted : forall dims P l, StronglySorted lt (map (lin dims) l) -> Forall (valid dims) l ->
  (forall s, valid dims s -> P s = true <-> In s l) -> filter P (all_configs dims) = l.
Proof.
  intros dims P l Hs Hv H.
  assert (E : map (lin dims) (filter P (all_configs dims)) = map (lin dims) l).
  { rewrite Forall_forall in Hv. apply sorted_eq; [|exact Hs|].
    - apply sorted_filter. rewrite lin_all_configs. apply seq_sorted.
    - intros x. rewrite !in_map_iff. split; intros [s [<- Hin]]; exists s; (split; [reflexivity|]).
      + apply filter_In in Hin as [Hin HP]. apply H; [apply in_all_configs; exact Hin | exact HP].
      + apply filter_In. split; [apply in_all_configs; auto | apply H; auto]. }
  assert (Hv' : Forall (valid dims) (filter P (all_configs dims))).
  { apply Forall_forall. intros s Hin. apply filter_In in Hin. apply in_all_configs. tauto. }
  revert E Hv'. generalize (filter P (all_configs dims)) as m. clear Hs H. induction Hv as [|s l Hs Hv IH]; intros m E Hm.
  - destruct m; [reflexivity | discriminate].
  - destruct m as [|t m]; [discriminate|]. simpl in E. injection E as E1 E2. inversion Hm; subst. f_equal; [|apply IH; assumption].
    apply (lin_inj (dims := dims)); assumption.
Qed.

Lemma lin_put_lt : forall dims s r v w, valid dims s -> r < length dims -> v < w -> lin dims (put s r v) < lin dims (put s r w).
Proof.
  intros dims s r v w H; revert r; induction H as [|x d s ds Hx Hs IH]; intros [|r] Hr Hvw; simpl in *; try lia.
  - pose proof (lin_lt Hs). nia.
  - specialize (IH r ltac:(lia) Hvw). lia.
Qed.

Lemma row_sorted : forall dims s r n, valid dims s -> r < length dims ->
  StronglySorted lt (map (lin dims) (map (put s r) (seq 0 n))).
Proof.
  intros dims s r n Hs Hr. rewrite map_map. pose proof (seq_sorted 0 n) as H.
  induction H as [|x l H IH Hx]; simpl; constructor; [exact IH|]. rewrite Forall_forall in *.
  intros y Hy. apply in_map_iff in Hy as [z [<- Hz]]. apply lin_put_lt; auto.
Qed.

Section Local.
Variable S : scalar.
Hypothesis L : scalar_laws S.
Add Ring Sring : (sl_ring L).
Infix "*s" := (@smul S) (at level 40, left associativity).
Infix "+s" := (@sadd S) (at level 50, left associativity).

(** A sum whose nonzero terms are indexed by [m]. *)
Lemma bsum_image : forall A B (f : A -> S) (h : B -> A) m l, NoDup l -> NoDup (map h m) ->
  (forall x, In x m -> In (h x) l) -> (forall y, In y l -> ~ In y (map h m) -> f y = s0) ->
  bsum f l = bsum (fun x => f (h x)) m.
Proof.
  intros A B f h m; induction m as [|x m IH]; intros l Hl Hm Hin H0; simpl.
  - apply (bsum_zero L). intros y Hy. apply H0; [exact Hy | intros []].
  - destruct (in_split _ _ (Hin x (or_introl eq_refl))) as [l1 [l2 ->]].
    apply NoDup_remove in Hl as [Hl1 Hl2]. simpl in Hm. apply NoDup_cons_iff in Hm as [Hm1 Hm2].
    rewrite (bsum_app L). simpl. rewrite <- (IH (l1 ++ l2)); [rewrite (bsum_app L); ring | exact Hl1 | exact Hm2 | |].
    + intros y Hy. specialize (Hin y (or_intror Hy)). rewrite in_app_iff in *. simpl in Hin.
      destruct Hin as [|[E|]]; auto. exfalso. apply Hm1. rewrite E. apply in_map. exact Hy.
    + intros y Hy Hn. apply H0; [rewrite in_app_iff in *; simpl; tauto|]. intros [E|E]; [|contradiction].
      subst y. contradiction.
Qed.

Lemma put_inj : forall (s : config) r v w, r < length s -> put s r v = put s r w -> v = w.
Proof.
  intros s r v w Hr E. apply (f_equal (fun c => level c r)) in E. rewrite !level_put, Nat.eqb_refl in E by exact Hr. exact E.
Qed.

(** A register-local gate mixes the states that differ in that register only. *)
Lemma local_apply : forall dims r (u : nat -> nat -> S) psi s, valid dims s -> r < length dims ->
  bsum (fun inp => local S r u s inp *s psi inp) (all_configs dims)
  = bsum (fun j => u (level s r) j *s psi (put s r j)) (seq 0 (nth r dims 0)).
Proof.
  intros dims r u psi s Hs Hr. pose proof (valid_length Hs) as Hl.
  rewrite (@bsum_image _ _ (fun inp => local S r u s inp *s psi inp) (put s r) (seq 0 (nth r dims 0))).
  - apply bsum_ext. intros j Hj. unfold local. rewrite level_put, Nat.eqb_refl by lia.
    rewrite put_put, put_level, config_eqb_refl. reflexivity.
  - apply all_configs_NoDup.
  - apply FinFun.Injective_map_NoDup; [|apply seq_NoDup]. intros v w E. eapply put_inj; [|exact E]. lia.
  - intros j Hj. apply in_seq in Hj. apply in_all_configs. apply valid_put; [exact Hs | lia].
  - intros t Ht Hn. apply in_all_configs in Ht. unfold local.
    destruct (config_eqb (put t r (level s r)) s) eqn:E; [|ring]. exfalso. apply Hn.
    apply config_eqb_eq in E. apply in_map_iff. exists (level t r). split.
    + rewrite <- E, put_put. apply put_level.
    + apply in_seq. pose proof (valid_level Ht Hr). lia.
Qed.

(** ** The H gate *)
Definition ones (d : nat) : S := bsum (fun _ => s1) (seq 0 d).

(** What the H gate needs of the numeric routines: the scale factor is
    1/sqrt(d), and the roots other than the last sum up to -1. *)
Record fourier (d : nat) : Prop := {
  f_scale : sisqrt d *s sisqrt d *s ones d = s1;
  f_sum : bsum (fun i => nth i (sroots d) s0) (seq 0 (d - 1)) = sopp (s1 : S) }.

Lemma had_row : forall d i, 2 <= d -> 0 < i < d ->
  bsum (fun j => nth ((i + (d - 1) - j) mod (d - 1)) (sroots d) (s0 : S)) (seq 1 (d - 1))
  = bsum (fun i => nth i (sroots d) s0) (seq 0 (d - 1)).
Proof.
  intros d i Hd Hi. symmetry.
  set (h := fun j => (i + (d - 1) - j) mod (d - 1)).
  assert (Hinj : NoDup (map h (seq 1 (d - 1)))).
  { assert (G : forall l, NoDup l -> (forall x, In x l -> 1 <= x < d) -> NoDup (map h l)).
    { intros l Hl; induction Hl as [|x l Hx Hl IH]; intros Hr; simpl; constructor.
      - intros Hin. apply in_map_iff in Hin as [y [E Hy]]. apply Hx.
        assert (Bx := Hr x (or_introl eq_refl)). assert (By := Hr y (or_intror Hy)). unfold h in E.
        replace x with y; [exact Hy|].
        pose proof (Nat.div_mod (i + (d - 1) - x) (d - 1) ltac:(lia)) as E1.
        pose proof (Nat.div_mod (i + (d - 1) - y) (d - 1) ltac:(lia)) as E2. rewrite E in E2.
        set (a := (i + (d - 1) - x) / (d - 1)) in *. set (b := (i + (d - 1) - y) / (d - 1)) in *.
        assert (a = b \/ a < b \/ b < a) as [->|[Hab|Hab]] by lia; [lia| |].
        + assert ((d - 1) * a + (d - 1) <= (d - 1) * b) by nia. lia.
        + assert ((d - 1) * b + (d - 1) <= (d - 1) * a) by nia. lia.
      - apply IH. intros; apply Hr; right; assumption. }
    apply G; [apply seq_NoDup|]. intros x Hx. apply in_seq in Hx. lia. }
  assert (Hin : forall x, In x (seq 1 (d - 1)) -> In (h x) (seq 0 (d - 1))).
  { intros x Hx. apply in_seq. pose proof (Nat.mod_upper_bound (i + (d - 1) - x) (d - 1) ltac:(lia)). unfold h. lia. }
  apply (@bsum_image _ _ (fun k => nth k (sroots d) s0) h (seq 1 (d - 1)) (seq 0 (d - 1))); [apply seq_NoDup | exact Hinj | exact Hin |].
  intros y Hy Hn. exfalso. apply Hn.
  assert (Hincl : incl (map h (seq 1 (d - 1))) (seq 0 (d - 1))).
  { intros z Hz. apply in_map_iff in Hz as [x [<- Hx]]. auto. }
  apply (@NoDup_length_incl nat (map h (seq 1 (d - 1))) (seq 0 (d - 1)) Hinj); [rewrite map_length, !seq_length; lia | exact Hincl | exact Hy].
Qed.

Lemma had_twice : forall d i, 2 <= d -> fourier d -> i < d ->
  bsum (fun j => had S d i j *s sisqrt d) (seq 0 d) = if Nat.eqb i 0 then s1 else s0.
Proof.
  intros d i Hd F Hi. destruct (Nat.eqb_spec i 0) as [->|Hne].
  - rewrite bsum_ext with (g := fun j => (sisqrt d *s sisqrt d) *s s1).
    + rewrite (bsum_mul_l L). apply (f_scale F).
    + intros j _. unfold had. simpl. ring.
  - replace (seq 0 d) with (0 :: seq 1 (d - 1)) by (destruct d; [lia|]; simpl; rewrite Nat.sub_0_r; reflexivity).
    simpl bsum. unfold had at 1. rewrite Nat.eqb_refl, Bool.orb_true_r.
    rewrite bsum_ext with (g := fun j => (sisqrt d *s sisqrt d) *s nth ((i + (d - 1) - j) mod (d - 1)) (sroots d) s0).
    + rewrite (bsum_mul_l L), had_row, (f_sum F) by lia. ring.
    + intros j Hj. apply in_seq in Hj. unfold had.
      rewrite (proj2 (Nat.eqb_neq i 0)), (proj2 (Nat.eqb_neq j 0)) by lia. simpl. ring.
Qed.

Lemma apply_basis_any : forall dims (g : gate S) s out, valid dims s -> apply dims g (basis S s) out = amp dims g out s.
Proof.
  intros dims g s out Hs. rewrite apply_kapply. unfold kapply.
  rewrite bsum_ext with (g := fun u => delta S s u *s amp dims g out u) by (intros u _; unfold delta, basis; ring).
  apply (bsum_delta_l L). exact Hs.
Qed.

(** A state in which one register is spread over its levels. *)
Definition spread (s : config) (r : nat) (q : nat -> S) : config -> S :=
  fun out => if config_eqb (put s r (level out r)) out then q (level out r) else s0.

Lemma apply_h_spreads : forall dims r s out, valid dims s ->
  apply dims (GH r) (basis S s) out = spread s r (fun i => had S (nth r dims 0) i (level s r)) out.
Proof. intros dims r s out Hs. rewrite apply_basis_any by exact Hs. reflexivity. Qed.

Lemma local_spread : forall dims r (u : nat -> nat -> S) s q out, valid dims s -> valid dims out -> r < length dims ->
  bsum (fun inp => local S r u out inp *s spread s r q inp) (all_configs dims)
  = spread s r (fun i => bsum (fun j => u i j *s q j) (seq 0 (nth r dims 0))) out.
Proof.
  intros dims r u s q out Hs Ho Hr. rewrite local_apply by assumption.
  pose proof (valid_length Hs) as Ls. pose proof (valid_length Ho) as Lo. unfold spread at 2.
  destruct (config_eqb (put s r (level out r)) out) eqn:E.
  - apply bsum_ext. intros j _. f_equal. unfold spread. rewrite level_put, Nat.eqb_refl by lia.
    apply config_eqb_eq in E. rewrite (proj2 (config_eqb_eq _ _)); [reflexivity|]. rewrite <- E at 1. rewrite put_put. reflexivity.
  - apply (bsum_zero L). intros j _. unfold spread. rewrite level_put, Nat.eqb_refl by lia.
    rewrite (proj2 (config_eqb_neq _ _)); [ring|]. intros E'. apply config_eqb_neq in E. apply E.
    rewrite <- (put_level out r) at 2. rewrite <- (put_put out r j), <- E', put_put. reflexivity.
Qed.

Lemma spread_ext : forall s r q q' n out, (forall i, i < n -> q i = q' i) -> level out r < n -> spread s r q out = spread s r q' out.
Proof. intros s r q q' n out H Hn. unfold spread. destruct (config_eqb _ _); [apply H; exact Hn | reflexivity]. Qed.

Lemma spread_basis : forall dims s r out, valid dims s -> spread s r (fun i => if Nat.eqb i (level s r) then s1 else s0) out = basis S s out.
Proof.
  intros dims s r out Hs. unfold spread, basis. destruct (config_eqb (put s r (level out r)) out) eqn:E.
  - apply config_eqb_eq in E. destruct (Nat.eqb_spec (level out r) (level s r)) as [E0|E0].
    + rewrite (proj2 (config_eqb_eq _ _)); [reflexivity|]. rewrite <- E, E0. symmetry. apply put_level.
    + rewrite (proj2 (config_eqb_neq _ _)); [reflexivity|]. intros ->. contradiction.
  - rewrite (proj2 (config_eqb_neq _ _)); [reflexivity|]. intros ->. apply config_eqb_neq in E. apply E, put_level.
Qed.

Lemma apply_h_back : forall dims r s out, valid dims s -> valid dims out -> r < length dims -> 2 <= nth r dims 0 ->
  fourier (nth r dims 0) -> level s r = 0 ->
  apply dims (GH r) (spread s r (fun _ => sisqrt (nth r dims 0))) out = basis S s out.
Proof.
  intros dims r s out Hs Ho Hr Hd F H0. rewrite apply_kapply. unfold kapply. cbn [amp]. rewrite local_spread by assumption.
  rewrite <- (@spread_basis dims s r out Hs), H0.
  apply spread_ext with (n := nth r dims 0); [|apply valid_level; assumption]. intros i Hi. apply had_twice; assumption.
Qed.

Lemma answer_spread : forall dims r s q, valid dims s -> r < length dims -> (forall j, j < nth r dims 0 -> q j <> s0) ->
  answer dims (spread s r q) = map (fun j => (put s r j, q j)) (seq 0 (nth r dims 0)).
Proof.
  intros dims r s q Hs Hr Hq. unfold answer.
  rewrite (@filter_configs_sorted dims _ (map (put s r) (seq 0 (nth r dims 0)))).
  - rewrite map_map. apply map_ext_in. intros j Hj. f_equal. unfold spread.
    rewrite level_put, Nat.eqb_refl by (rewrite (valid_length Hs); exact Hr). rewrite config_eqb_refl. reflexivity.
  - apply row_sorted; assumption.
  - apply Forall_forall. intros t Ht. apply in_map_iff in Ht as [j [<- Hj]]. apply in_seq in Hj. apply valid_put; [exact Hs | lia].
  - intros t Ht. unfold spread. destruct (config_eqb (put s r (level t r)) t) eqn:E.
    + apply config_eqb_eq in E. destruct (seqb (q (level t r)) s0) eqn:Eq; [apply (sl_eqb L) in Eq; exfalso; exact (Hq _ (valid_level Ht Hr) Eq)|]. split; [|reflexivity].
      intros _. apply in_map_iff. exists (level t r). split; [exact E|]. apply in_seq. pose proof (valid_level Ht Hr). lia.
    + rewrite (seqb_refl L). split; [discriminate|]. intros Hin. exfalso. apply in_map_iff in Hin as [j [<- _]].
      apply config_eqb_neq in E. apply E. rewrite level_put, Nat.eqb_refl by (rewrite (valid_length Hs); exact Hr). reflexivity.
Qed.
End Local.
