(** * CsrThm: the rows of stored entries compute what they should. *)
From Coq Require Import List Arith Lia Bool Reals Lra.
From Verif Require Import Py Scalar Mat Lib BackendSpec Csr CsrLib BitSpec Bits Complex RoundSpec ComplexLib CNorm RoundBound.
Import ListNotations.
Set Implicit Arguments.

Section Sums.
Variable S : scalar.
Notation srow := (srow S).

Definition put_sum (b : list srow) (j : nat) (acc : S) (e : nat * S) : S :=
  match stored (nth (fst e) b []) j with Some w => sadd acc (smul (snd e) w) | None => acc end.
Lemma deflt_fold : forall b j x o, deflt (fold_left (put_in b j) x o) = fold_left (put_sum b j) x (deflt o).
Proof.
  intros b j x; induction x as [|e x IH]; intros o; [reflexivity|]. cbn [fold_left]. rewrite IH. f_equal.
  unfold put_in, put_sum. destruct (stored _ j); reflexivity.
Qed.
End Sums.

(** ** Exact numbers *)
Section Exact.
Variable S : scalar.
Hypothesis L : scalar_laws S.
Add Ring SRing : (sl_ring L).
Notation srow := (srow S).
Notation CB := (CsrBackend S).

Lemma bsum_big : forall A (f : A -> S) l, bsum f l = big s0 sadd f l.
Proof. reflexivity. Qed.

Lemma fold_exact : forall b j (x : srow) acc,
  fold_left (put_sum b j) x acc = sadd acc (big s0 sadd (fun e => smul (snd e) (deflt (stored (nth (fst e) b []) j))) x).
Proof.
  intros b j x; induction x as [|e x IH]; intros acc; cbn [fold_left big fold_right]; [ring|]. rewrite IH.
  fold (big (@s0 S) sadd (fun e => smul (snd e) (deflt (stored (nth (fst e) b []) j))) x).
  unfold put_sum. destruct (stored _ j); cbn [deflt]; ring.
Qed.

Lemma csr_shows : forall a : csr S, csr_ok a -> forall r c f, rr a = r -> rc a = c ->
  (forall i j, i < r -> j < c -> deflt (at_ a i j) = f i j) -> shows CB (@csr_ok S) a r c f.
Proof.
  intros a Ha r c f <- <- H. split; [exact Ha|]. cbn [b_toarray CsrBackend]. split; [reflexivity|]. split; [reflexivity|].
  intros i j Hi Hj. rewrite toarray_at by assumption. apply H; assumption.
Qed.
Lemma shows_csr : forall (a : csr S) r c f, shows CB (@csr_ok S) a r c f ->
  csr_ok a /\ rr a = r /\ rc a = c /\ forall i j, i < r -> j < c -> deflt (at_ a i j) = f i j.
Proof.
  intros a r c f [Ha [Hr [Hc H]]]. cbn [b_toarray CsrBackend csr_toarray mkmat mr mc] in Hr, Hc, H. split; [exact Ha|]. split; [exact Hr|]. split; [exact Hc|].
  intros i j Hi Hj. rewrite <- H by assumption. symmetry. apply toarray_at; congruence.
Qed.

Lemma dot_exact : forall (x : srow) b n j, row_ok n x ->
  deflt (fold_left (put_in b j) x None) = bsum (fun k => smul (deflt (stored x k)) (deflt (stored (nth k b []) j))) (seq 0 n).
Proof.
  intros x b n j [H1 H2]. rewrite deflt_fold, fold_exact. cbn [deflt]. rewrite bsum_big.
  rewrite <- (@big_stored S s0 sadd) with (l := seq 0 n) (g := fun k v => smul v (deflt (stored (nth k b []) j)));
    [| intros; ring | intros; ring | intros; ring | apply seq_NoDup | exact H1 | intros q v H; apply in_seq; apply H2 in H; lia].
  match goal with |- sadd s0 ?t = _ => transitivity t; [ring|] end. apply big_ext. intros k _. destruct (stored x k); cbn [deflt]; [reflexivity | ring].
Qed.

Theorem csr_computes : computes CB (@csr_ok S).
Proof.
  constructor.
  - intros m. apply csr_shows; [apply ok_of_mat | reflexivity | reflexivity|]. intros i j Hi Hj. cbn [b_matrix CsrBackend]. rewrite at_of_mat by assumption.
    destruct (seqb (mget m i j) s0) eqn:E; cbn [deflt]; [|reflexivity]. symmetry. apply (sl_eqb L). exact E.
  - intros n m. apply csr_shows; [apply ok_eye | reflexivity | reflexivity|]. intros i j Hi Hj. cbn [b_eye CsrBackend]. rewrite at_eye by assumption.
    destruct (i =? j); reflexivity.
  - intros a r c f H. apply shows_csr in H as [Ha [<- [<- H]]]. apply csr_shows; [apply ok_trans, Ha | reflexivity | reflexivity|].
    intros i j Hi Hj. cbn [b_trans CsrBackend]. rewrite at_trans by assumption. apply H; assumption.
  - intros a b r c f r' c' g H G. apply shows_csr in H as [Ha [<- [<- H]]]. apply shows_csr in G as [Hb [<- [<- G]]].
    apply csr_shows; [apply ok_kron; assumption | reflexivity | reflexivity|]. intros i j Hi Hj. cbn [b_kron CsrBackend].
    rewrite at_kron by assumption. rewrite <- H, <- G; try (apply Nat.mod_upper_bound; nia); try (apply Nat.div_lt_upper_bound; nia).
    destruct (at_ a _ _), (at_ b _ _); cbn [deflt]; ring.
  - intros a b r c f c' g H G. apply shows_csr in H as [Ha [<- [<- H]]]. apply shows_csr in G as [Hb [Eb [<- G]]].
    cbn [b_dot CsrBackend]. unfold csr_dot. rewrite Eb, Nat.eqb_refl. eexists. split; [reflexivity|].
    apply csr_shows; [apply ok_dot; assumption | reflexivity | reflexivity|]. intros i j Hi Hj.
    rewrite at_dot by (auto; rewrite (proj1 Ha); exact Hi). rewrite (@dot_exact _ _ (rc a)) by (apply ok_row, Ha).
    apply bsum_ext. intros k Hk. apply in_seq in Hk. rewrite <- H, <- G by lia. reflexivity.
  - intros a b r c f r' c' g H G Hne. apply shows_csr in H as [Ha [<- [<- H]]]. apply shows_csr in G as [Hb [<- [<- G]]].
    cbn [b_dot CsrBackend]. unfold csr_dot. rewrite (proj2 (Nat.eqb_neq _ _) Hne). reflexivity.
Qed.
End Exact.

(** ** Rounded numbers *)
Section Round.
Open Scope R_scope.
Variable F : scalar.
Variable val : F -> C.
Variable ord : nat -> list nat.
Variable u : R.
Variable e : nat.
Hypothesis RD : rounded F val ord u e.
Notation CB := (CsrBackend F).
Notation srow := (srow F).

Definition vat (a : csr F) (i j : nat) : C := val (deflt (at_ a i j)).

(** One more number on a sum. *)
Lemma add_step : forall (s x : F) t g m M, (1 <= m)%nat -> Cabs t <= M ->
  Cdist (val s) t <= err u m * M -> Cdist (val x) g <= u * Cabs g ->
  Cdist (val (sadd s x)) (Cadd t g) <= err u (m + 1) * (M + Cabs g) /\ Cabs (Cadd t g) <= M + Cabs g.
Proof.
  intros s x t g m M Hm Ht Hs Hx. pose proof (rd_u RD) as Hu. pose proof (Cabs_pos g) as Hg. pose proof (Cabs_pos t) as Ht0.
  pose proof (Cabs_add t g) as Hsum. split; [|lra].
  pose proof (rd_add RD s x) as Ha.
  assert (D1 : Cdist (Cadd (val s) (val x)) (Cadd t g) <= err u m * M + u * Cabs g).
  { assert (D0 : Cdist (Cadd (val s) (val x)) (Cadd t g) <= Cdist (val s) t + Cdist (val x) g).
    { unfold Cdist. replace (Cadd (Cadd (val s) (val x)) (Copp (Cadd t g)))
        with (Cadd (Cadd (val s) (Copp t)) (Cadd (val x) (Copp g))) by (apply C_ext; simpl; ring). apply Cabs_add. }
    lra. }
  assert (A1 : Cabs (Cadd (val s) (val x)) <= M + Cabs g + (err u m * M + u * Cabs g)).
  { eapply Rle_trans; [apply (Cabs_le _ (Cadd t g))|]. lra. }
  pose proof (Cdist_tri (val (sadd s x)) (Cadd (val s) (val x)) (Cadd t g)) as TR.
  assert (E2 : err u (m + 1) = (1 + u) * (1 + err u m) - 1).
  { unfold err. rewrite pow_add. simpl. ring. }
  assert (E1 : u <= err u m) by (rewrite <- (err_1 u) at 1; apply err_mono; [exact Hu | lia]).
  assert (u * Cabs (Cadd (val s) (val x)) <= u * (M + Cabs g + (err u m * M + u * Cabs g)))
    by (apply Rmult_le_compat_l; assumption).
  rewrite E2. set (k := err u m) in *.
  assert (0 <= (k - u) * (Cabs g * (1 + u))) by (repeat apply Rmult_le_pos; lra).
  nra.
Qed.

Definition gterm (b : list srow) (j : nat) (x : nat * F) : C :=
  Cmul (val (snd x)) (val (deflt (stored (nth (fst x) b []) j))).

Lemma fold_rounded : forall b j (x : srow) s t m M, (1 <= m)%nat -> Cabs t <= M -> Cdist (val s) t <= err u m * M ->
  Cdist (val (fold_left (put_sum b j) x s)) (Cadd t (big C0 Cadd (gterm b j) x))
  <= err u (m + length x) * (M + big 0 Rplus (fun x => Cabs (gterm b j x)) x).
Proof.
  intros b j x; induction x as [|y x IH]; intros s t m M Hm Ht Hs; cbn [fold_left big fold_right length].
  - rewrite Nat.add_0_r, Rplus_0_r. replace (Cadd t C0) with t by (apply C_ext; simpl; ring). exact Hs.
  - fold (big C0 Cadd (gterm b j) x). fold (big 0 Rplus (fun x => Cabs (gterm b j x)) x).
    replace (Cadd t (Cadd (gterm b j y) (big C0 Cadd (gterm b j) x))) with (Cadd (Cadd t (gterm b j y)) (big C0 Cadd (gterm b j) x))
      by (apply C_ext; simpl; ring).
    rewrite <- Rplus_assoc. replace (m + S (length x))%nat with (m + 1 + length x)%nat by lia.
    assert (G : Cdist (val (put_sum b j s y)) (Cadd t (gterm b j y)) <= err u (m + 1) * (M + Cabs (gterm b j y)) /\
                Cabs (Cadd t (gterm b j y)) <= M + Cabs (gterm b j y)).
    { unfold put_sum, gterm. destruct (stored (nth (fst y) b []) j) as [w|]; cbn [deflt].
      - apply add_step; auto. apply (rd_mul RD).
      - rewrite (rd_0 RD). replace (Cmul (val (snd y)) C0) with C0 by (apply C_ext; simpl; ring).
        rewrite Cabs_C0, Rplus_0_r. replace (Cadd t C0) with t by (apply C_ext; simpl; ring). split; [|exact Ht].
        eapply Rle_trans; [exact Hs|]. apply Rmult_le_compat_r; [pose proof (Cabs_pos t); lra|]. apply err_mono; [apply (rd_u RD) | lia]. }
    destruct G as [G1 G2]. apply IH; [lia | exact G2 | exact G1].
Qed.

Lemma ctotal_big : forall A (f : A -> C) l, ctotal f l = big C0 Cadd f l.
Proof. intros A f l; induction l as [|x l IH]; simpl; [reflexivity|]. rewrite IH. reflexivity. Qed.
Lemma rtotal_big : forall A (f : A -> R) l, rtotal f l = big 0 Rplus f l.
Proof. intros A f l; induction l as [|x l IH]; simpl; [reflexivity|]. rewrite IH. reflexivity. Qed.

Lemma dot_rounded : forall (x : srow) b n j, row_ok n x ->
  let f k := Cmul (val (deflt (stored x k))) (val (deflt (stored (nth k b []) j))) in
  Cdist (val (deflt (fold_left (put_in b j) x None))) (ctotal f (seq 0 n)) <= err u (n + 1) * rtotal (fun k => Cabs (f k)) (seq 0 n).
Proof.
  intros x b n j [H1 H2] f. rewrite deflt_fold. cbn [deflt]. pose proof (rd_u RD) as Hu.
  assert (Hin : forall q v, In (q, v) x -> In q (seq 0 n)) by (intros q v H; apply in_seq; apply H2 in H; lia).
  assert (EC : ctotal f (seq 0 n) = big C0 Cadd (gterm b j) x).
  { rewrite ctotal_big. unfold gterm.
    rewrite <- (@big_stored C C0 Cadd) with (l := seq 0 n) (g := fun k v => Cmul (val v) (val (deflt (stored (nth k b []) j))));
      [| intros; apply C_ext; simpl; ring | intros; apply C_ext; simpl; ring | intros; apply C_ext; simpl; ring | apply seq_NoDup | exact H1 | exact Hin].
    apply big_ext. intros k _. unfold f. destruct (stored x k); cbn [deflt]; [reflexivity|]. rewrite (rd_0 RD). apply C_ext; simpl; ring. }
  assert (ER : rtotal (fun k => Cabs (f k)) (seq 0 n) = big 0 Rplus (fun y => Cabs (gterm b j y)) x).
  { rewrite rtotal_big. unfold gterm.
    rewrite <- (@big_stored R 0 Rplus) with (l := seq 0 n) (g := fun k v => Cabs (Cmul (val v) (val (deflt (stored (nth k b []) j)))));
      [| intros; ring | intros; ring | intros; ring | apply seq_NoDup | exact H1 | exact Hin].
    apply big_ext. intros k _. unfold f. destruct (stored x k); cbn [deflt]; [reflexivity|]. rewrite (rd_0 RD), Cabs_mul, Cabs_C0. ring. }
  assert (Hlen : (length x <= n)%nat).
  { rewrite <- (map_length fst x), <- (seq_length n 0). apply NoDup_incl_length; [exact H1|].
    intros q Hq. apply in_map_iff in Hq as [[p v] [<- Hq]]. apply (Hin p v Hq). }
  rewrite EC, ER.
  pose proof (@fold_rounded b j x s0 C0 1 0 (le_n 1)) as G. rewrite (rd_0 RD), Cabs_C0, Cdist_refl in G.
  specialize (G (Rle_refl 0)). rewrite Rmult_0_r in G. specialize (G (Rle_refl 0)).
  replace (Cadd C0 (big C0 Cadd (gterm b j) x)) with (big C0 Cadd (gterm b j) x) in G by (apply C_ext; simpl; ring).
  rewrite Rplus_0_l in G. eapply Rle_trans; [exact G|]. apply Rmult_le_compat_r.
  - rewrite <- ER. apply rtotal_pos. intros k _. apply Cabs_pos.
  - apply err_mono; [exact Hu | lia].
Qed.

Lemma sized_csr : forall (a : csr F) r c, sized CB (@csr_ok F) a r c <-> csr_ok a /\ rr a = r /\ rc a = c.
Proof. intros a r c. reflexivity. Qed.
Lemma entry_csr : forall (a : csr F) i j, (i < rr a)%nat -> (j < rc a)%nat -> entry val CB a i j = vat a i j.
Proof. intros a i j Hi Hj. unfold entry, vat. f_equal. apply toarray_at; assumption. Qed.

Theorem csr_rounded : computes_rounded val u CB (@csr_ok F).
Proof.
  pose proof (rd_u RD) as Hu.
  constructor.
  - intros m. split; [apply sized_csr; split; [apply ok_of_mat | split; reflexivity]|].
    intros i j Hi Hj. cbn [b_matrix CsrBackend]. rewrite entry_csr by assumption. unfold vat. rewrite at_of_mat by assumption.
    destruct (seqb (mget m i j) s0) eqn:E; cbn [deflt]; [|reflexivity]. rewrite (rd_0 RD). symmetry. apply (rd_eqb RD). exact E.
  - intros n m. split; [apply sized_csr; split; [apply ok_eye | split; reflexivity]|].
    intros i j Hi Hj. cbn [b_eye CsrBackend]. rewrite entry_csr by assumption. unfold vat. rewrite at_eye by assumption.
    destruct (i =? j)%nat; cbn [deflt]; [apply (rd_1 RD) | apply (rd_0 RD)].
  - intros a r c H. apply (proj1 (sized_csr _ _ _)) in H as [Ha [<- <-]]. split; [apply sized_csr; split; [apply ok_trans, Ha | split; reflexivity]|].
    intros i j Hi Hj. cbn [b_trans CsrBackend]. rewrite !entry_csr by assumption. unfold vat. rewrite at_trans by assumption. reflexivity.
  - intros a b r c r' c' H G. apply (proj1 (sized_csr _ _ _)) in H as [Ha [<- <-]]. apply (proj1 (sized_csr _ _ _)) in G as [Hb [<- <-]].
    split; [apply sized_csr; split; [apply ok_kron; assumption | split; reflexivity]|].
    intros i j Hi Hj ex. subst ex. cbn [b_kron CsrBackend]. rewrite entry_csr by assumption.
    assert (rr b <> 0 /\ rc b <> 0)%nat as [P1 P2] by (split; intros P; [rewrite P in Hi | rewrite P in Hj]; lia).
    assert (i / rr b < rr a /\ j / rc b < rc a)%nat as [Q1 Q2] by (split; apply Nat.div_lt_upper_bound; lia).
    assert (i mod rr b < rr b /\ j mod rc b < rc b)%nat as [Q3 Q4] by (split; apply Nat.mod_upper_bound; assumption).
    rewrite !entry_csr by assumption.
    unfold vat. rewrite at_kron by assumption.
    destruct (at_ a _ _) as [v|]; [destruct (at_ b _ _) as [w|]|]; cbn [deflt]; [apply (rd_mul RD)| |]; rewrite (rd_0 RD).
    + replace (Cmul (val v) C0) with C0 by (apply C_ext; simpl; ring). rewrite Cdist_refl, Cabs_C0. lra.
    + match goal with |- context [Cmul C0 ?t] => replace (Cmul C0 t) with C0 by (apply C_ext; simpl; ring) end. rewrite Cdist_refl, Cabs_C0. lra.
  - intros a b r n c H G. apply (proj1 (sized_csr _ _ _)) in H as [Ha [<- <-]]. apply (proj1 (sized_csr _ _ _)) in G as [Hb [Eb <-]].
    cbn [b_dot CsrBackend]. unfold csr_dot. rewrite Eb, Nat.eqb_refl. eexists. split; [reflexivity|].
    split; [apply sized_csr; split; [apply ok_dot; assumption | split; reflexivity]|].
    intros i j Hi Hj. rewrite entry_csr by assumption. unfold vat. rewrite at_dot by (auto; rewrite (proj1 Ha); exact Hi).
    pose proof (@dot_rounded (nth i (rl a) []) (rl b) (rc a) j (ok_row i Ha)) as D. cbv zeta in D.
    rewrite (ctotal_ext (fun k => Cmul (entry val CB a i k) (entry val CB b k j))
               (fun k => Cmul (val (deflt (stored (nth i (rl a) []) k))) (val (deflt (stored (nth k (rl b) []) j))))).
    + rewrite (rtotal_ext (fun k => Cabs (entry val CB a i k) * Cabs (entry val CB b k j))
                 (fun k => Cabs (Cmul (val (deflt (stored (nth i (rl a) []) k))) (val (deflt (stored (nth k (rl b) []) j)))))).
      * exact D.
      * intros k Hk. apply in_seq in Hk. rewrite Cabs_mul, !entry_csr by lia. reflexivity.
    + intros k Hk. apply in_seq in Hk. rewrite !entry_csr by lia. reflexivity.
Qed.
End Round.

(** ** Bits *)
Section Bit.
Variable S : scalar.
Hypothesis BL : bit_laws S.
Notation CB := (CsrBackend S).

(** Column [j] stores one number, a 1 in row [f j]. *)
Record fcsr (r c : nat) (f : nat -> nat) (a : csr S) : Prop := {
  fr_ok : csr_ok a;
  fr_r : rr a = r;
  fr_c : rc a = c;
  fr_f : forall j, j < c -> f j < r;
  fr_at : forall i j, i < r -> j < c -> at_ a i j = if f j =? i then Some s1 else None }.

Lemma fold_miss : forall (b : list (srow S)) j (x : srow S) o, (forall e, In e x -> stored (nth (fst e) b []) j = None) -> fold_left (put_in b j) x o = o.
Proof.
  intros b j x; induction x as [|e x IH]; intros o H; [reflexivity|]. cbn [fold_left].
  replace (put_in b j o e) with o by (unfold put_in; rewrite (H e (or_introl eq_refl)); reflexivity).
  apply IH. intros y Hy. apply H. right. exact Hy.
Qed.

Lemma fold_hit : forall (b : list (srow S)) j (x : srow S) k, NoDup (map fst x) -> stored x k = Some s1 ->
  (forall i, In i (map fst x) -> stored (nth i b []) j = if i =? k then Some s1 else None) ->
  fold_left (put_in b j) x None = Some s1.
Proof.
  intros b j x k; induction x as [|[q v] x IH]; intros Hn Hk H; [discriminate|]. inversion Hn; subst. cbn [fold_left stored] in *.
  replace (put_in b j None (q, v)) with (if q =? k then Some (sadd (@s0 S) (smul v s1)) else None)
    by (unfold put_in; cbn [fst snd]; rewrite (H q (or_introl eq_refl)); destruct (q =? k); reflexivity).
  destruct (Nat.eqb_spec q k) as [->|Hne].
  - injection Hk as ->. rewrite (bl_mul11 BL), (bl_add01 BL). apply fold_miss.
    intros [p w] Hp. cbn [fst]. assert (Hq : In p (map fst x)) by (apply in_map_iff; exists (p, w); auto).
    rewrite (H p (or_intror Hq)). replace (p =? k) with false; [reflexivity|]. symmetry. apply Nat.eqb_neq. intros ->. contradiction.
  - apply IH; auto. intros i Hi. apply H. right. exact Hi.
Qed.

Lemma of_fmat : forall r c f M, fmat r c f M -> fcsr r c f (csr_of_mat M).
Proof.
  intros r c f M [H1 H2 H3 H4]. constructor; auto; [apply ok_of_mat|]. intros i j Hi Hj. rewrite at_of_mat by lia.
  rewrite H4 by assumption. destruct (f j =? i); cbn [bit]; [rewrite (bl_eqb10 BL) | rewrite (bl_eqb00 BL)]; reflexivity.
Qed.

Theorem csr_follows : follows CB fcsr.
Proof.
  constructor.
  - intros r c f g a E [H1 H2 H3 H4 H5]. constructor; auto.
    + intros j Hj. rewrite <- E by exact Hj. auto.
    + intros i j Hi Hj. rewrite <- E by exact Hj. auto.
  - intros r c f a H. exact (fr_f H).
  - intros r c f M H. apply of_fmat, H.
  - intros r c f M Hr Hc [H1 H2 H3 H4]. cbn [b_trans b_matrix CsrBackend]. constructor; auto; [apply ok_trans, ok_of_mat|].
    intros i j Hi Hj. rewrite at_trans by (cbn [csr_of_mat rc]; auto using ok_of_mat; lia). rewrite at_of_mat by lia.
    specialize (H4 i j Hi Hj). unfold dtrans in H4. rewrite mget_mkmat in H4 by lia. rewrite H4.
    destruct (f j =? i); cbn [bit]; [rewrite (bl_eqb10 BL) | rewrite (bl_eqb00 BL)]; reflexivity.
  - intros n. constructor; auto; [apply ok_eye|]. intros i j Hi Hj. cbn [b_eye CsrBackend]. rewrite at_eye by assumption.
    rewrite Nat.eqb_sym. reflexivity.
  - intros r c f a r' c' f' a' [H1 <- <- H4 H5] [G1 <- <- G4 G5]. cbn [b_kron CsrBackend]. constructor; auto.
    + apply ok_kron; assumption.
    + intros j Hj. apply (kron_bound _ _ H4 G4 Hj).
    + intros i j Hi Hj. rewrite at_kron by assumption. destruct (kron_bound _ _ H4 G4 Hj) as [K1 [K2 K3]].
      assert (0 < rr a' /\ 0 < rc a') as [P1 P2] by nia.
      rewrite H5, G5; try (apply Nat.mod_upper_bound; lia); try (apply Nat.div_lt_upper_bound; nia).
      rewrite divmod_eqb by exact K2. destruct (f (j / rc a') =? i / rr a'), (f' (j mod rc a') =? i mod rr a'); cbn [andb]; try reflexivity.
      rewrite (bl_mul11 BL). reflexivity.
  - intros r m c f g a a' [H1 <- <- H4 H5] [G1 Em <- G4 G5]. cbn [b_dot CsrBackend]. unfold csr_dot. rewrite Em, Nat.eqb_refl.
    eexists. split; [reflexivity|]. constructor; auto; [apply ok_dot; assumption|].
    intros i j Hi Hj. rewrite at_dot by (auto; rewrite (proj1 H1); exact Hi). destruct (ok_row i H1) as [R1 R2].
    assert (B : forall k, In k (map fst (nth i (rl a) [])) -> stored (nth k (rl a') []) j = if k =? g j then Some s1 else None).
    { intros k Hk. apply in_map_iff in Hk as [[p v] [<- Hk]]. apply R2 in Hk. cbn [fst]. rewrite Nat.eqb_sym. apply G5; assumption. }
    destruct (Nat.eqb_spec (f (g j)) i) as [E|E].
    + apply (@fold_hit _ _ _ (g j)); [exact R1 | | exact B]. pose proof (H5 i (g j) Hi (G4 j Hj)) as A. rewrite E, Nat.eqb_refl in A. exact A.
    + apply fold_miss. intros [k v] Hk. cbn [fst]. rewrite B by (apply in_map_iff; exists (k, v); auto).
      destruct (Nat.eqb_spec k (g j)) as [->|]; [|reflexivity]. exfalso. apply in_stored in Hk; [|exact R1].
      pose proof (H5 i (g j) Hi (G4 j Hj)) as A. rewrite (proj2 (Nat.eqb_neq _ _) E) in A. unfold at_ in A. congruence.
  - intros r c f a [H1 <- <- H4 H5]. cbn [b_toarray CsrBackend]. constructor; auto.
    intros i j Hi Hj. rewrite toarray_at, H5 by assumption. destruct (f j =? i); reflexivity.
Qed.
End Bit.
