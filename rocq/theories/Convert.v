(** * Convert: indices and digit lists (utils/numpy.py). *)
From Verif Require Import Py Utils Spec Lib Run.
Set Implicit Arguments.

(** The mixed-radix value of a digit list, over the integers. *)
Fixpoint zprod (l : list Z) : Z := match l with [] => 1 | b :: bs => b * zprod bs end%Z.
Fixpoint value (base s : list Z) : Z :=
  match base, s with
  | _ :: bs, x :: s' => (x * zprod bs + value bs s')%Z
  | _, _ => 0%Z
  end.

Lemma zprod_nat : forall l, zprod (map Z.of_nat l) = Z.of_nat (prodn l).
Proof. intros l; induction l; simpl; [reflexivity|]. rewrite IHl, prodn_cons. lia. Qed.

Lemma value_lin : forall base s, value (map Z.of_nat base) (map Z.of_nat s) = Z.of_nat (lin base s).
Proof.
  intros base; induction base as [|b base IH]; intros [|x s]; simpl; try reflexivity.
  rewrite IH, zprod_nat. lia.
Qed.

Lemma zprod_app : forall l m, zprod (l ++ m) = (zprod l * zprod m)%Z.
Proof. intros l m; induction l as [|x l IH]; cbn [app zprod]; [symmetry; apply Z.mul_1_l|]. rewrite IH. ring. Qed.

(** ** Digits of an index *)
Lemma nbase_digits_ok : forall rbase v, (forall b, In b rbase -> 0 < b)%Z -> (0 <= v < zprod rbase)%Z ->
  exists ds, nbase_digits v rbase = Ok ds /\ length ds = length rbase /\
    Forall2 (fun x b => 0 <= x < b)%Z ds rbase /\ value (rev rbase) (rev ds) = v.
Proof.
  intros rbase; induction rbase as [|b rbase IH]; intros v Hb Hv; cbn [nbase_digits].
  - simpl in Hv. replace v with 0%Z by lia. rewrite Z.eqb_refl. exists []. repeat split; auto.
  - assert (Hpos : (0 < b)%Z) by (apply Hb; left; reflexivity).
    destruct (Z.eqb_spec v 0) as [->|Hv0].
    + exists (repeat 0%Z (length (b :: rbase))). split; [reflexivity|]. split; [apply repeat_length|]. split.
      * clear - Hb. induction (b :: rbase) as [|x l IHl]; simpl; constructor.
        -- specialize (Hb x (or_introl eq_refl)). lia.
        -- apply IHl. intros; apply Hb; right; assumption.
      * clear. assert (G : forall l n, value l (repeat 0%Z n) = 0%Z).
        { intros l; induction l as [|x l IHl]; intros [|n]; simpl; auto. }
        rewrite rev_repeat'. apply G.
    + simpl in Hv. destruct (IH (v / b)%Z) as [ds [E [El [HF Hval]]]].
      * intros x Hx; apply Hb; right; exact Hx.
      * split; [apply Z.div_pos; lia|]. apply Z.div_lt_upper_bound; lia.
      * rewrite E. cbn [bind]. exists (v mod b :: ds)%Z. split; [reflexivity|]. split; [simpl; lia|]. split.
        -- constructor; [apply Z.mod_pos_bound; exact Hpos | exact HF].
        -- simpl rev. 
           assert (G : forall l1 l2 x y, length l1 = length l2 -> value (l1 ++ [x]) (l2 ++ [y]) = (value l1 l2 * x + y)%Z).
           { clear. intros l1; induction l1 as [|a l1 IHl]; intros [|c l2] x y Hl; simpl in *; try discriminate; [lia|].
             rewrite IHl by lia. rewrite zprod_app. simpl. ring. }
           rewrite G by (rewrite !rev_length; lia). rewrite Hval. pose proof (Z.div_mod v b). lia.
Qed.

Lemma nbase_digits_big : forall rbase v, (forall b, In b rbase -> 0 < b)%Z -> (v < 0 \/ zprod rbase <= v)%Z ->
  nbase_digits v rbase = Err IndexError.
Proof.
  intros rbase; induction rbase as [|b rbase IH]; intros v Hb Hv; cbn [nbase_digits].
  - simpl in Hv. destruct (Z.eqb_spec v 0); [lia | reflexivity].
  - assert (Hpos : (0 < b)%Z) by (apply Hb; left; reflexivity).
    assert (Hp : (0 < zprod rbase)%Z).
    { assert (H : forall x, In x rbase -> (0 < x)%Z) by (intros; apply Hb; right; assumption). clear - H.
      induction rbase as [|x l IHl]; simpl; [lia|].
      specialize (IHl (fun y Hy => H y (or_intror Hy))). specialize (H x (or_introl eq_refl)). nia. }
    simpl in Hv. destruct (Z.eqb_spec v 0); [subst; exfalso; nia|]. rewrite IH; [reflexivity | | ].
    + intros x Hx; apply Hb; right; exact Hx.
    + destruct Hv as [Hv|Hv]; [left; apply Z.div_lt_upper_bound; lia|]. right. apply Z.div_le_lower_bound; lia.
Qed.

Lemma zprod_rev : forall l, zprod (rev l) = zprod l.
Proof. intros l; induction l as [|x l IH]; simpl; [reflexivity|]. rewrite zprod_app, IH. simpl. ring. Qed.

Theorem nbase_ok : forall base v, (forall b, In b base -> 0 < b)%Z -> (0 <= v < zprod base)%Z ->
  exists ds, Nbase_to_bin v base = Ok ds /\ Forall2 (fun x b => 0 <= x < b)%Z ds base /\ value base ds = v.
Proof.
  intros base v Hb Hv. destruct (@nbase_digits_ok (rev base) v) as [ds [E [El [HF Hval]]]].
  - intros b Hin. apply Hb. apply in_rev. exact Hin.
  - rewrite zprod_rev. exact Hv.
  - unfold Nbase_to_bin. rewrite E. cbn [bind]. exists (rev ds). split; [reflexivity|].
    rewrite rev_involutive in Hval. split; [|exact Hval].
    clear - HF. rewrite <- (rev_involutive base). 
    assert (G : forall A B (P : A -> B -> Prop) l l', Forall2 P l l' -> Forall2 P (rev l) (rev l')).
    { intros A B P l l' H; induction H; simpl; [constructor|]. apply Forall2_app; [assumption|]. constructor; [assumption | constructor]. }
    apply G. exact HF.
Qed.

Theorem nbase_big : forall base v, (forall b, In b base -> 0 < b)%Z -> (v < 0 \/ zprod base <= v)%Z ->
  Nbase_to_bin v base = Err IndexError.
Proof.
  intros base v Hb Hv. unfold Nbase_to_bin. rewrite nbase_digits_big; [reflexivity| |].
  - intros b Hin. apply Hb. apply in_rev. exact Hin.
  - rewrite zprod_rev. exact Hv.
Qed.

(** The digits of the value of a digit list. *)
Theorem nbase_value : forall base s, Forall2 (fun x b => 0 <= x < b)%Z s base -> Nbase_to_bin (value base s) base = Ok s.
Proof.
  intros base s H.
  assert (E : exists nb ns, base = map Z.of_nat nb /\ s = map Z.of_nat ns /\ valid nb ns).
  { induction H as [|x b s base Hx H [nb [ns [-> [-> Hv]]]]]; [exists [], []; repeat split; constructor|].
    exists (Z.to_nat b :: nb), (Z.to_nat x :: ns). simpl. rewrite !Z2Nat.id by lia. repeat split.
    constructor; [lia | exact Hv]. }
  destruct E as [nb [ns [-> [-> Hv]]]]. rewrite value_lin. apply Nbase_to_bin_lin; exact Hv.
Qed.

(** ** Index of a digit list, with int64 arithmetic *)
Definition M64 : Z := (2 ^ 64)%Z.

Lemma wrap_cong : forall z, (wrap64 z mod M64 = z mod M64)%Z.
Proof.
  intros z. unfold wrap64. fold M64. rewrite Zminus_mod, Zmod_mod, <- Zminus_mod. f_equal. lia.
Qed.
Lemma wrap_range : forall z, (- 2 ^ 63 <= wrap64 z < 2 ^ 63)%Z.
Proof.
  intros z. unfold wrap64. pose proof (Z.mod_pos_bound (z + 2 ^ 63) (2 ^ 64) ltac:(lia)). 
  change (2 ^ 64)%Z with (2 ^ 63 + 2 ^ 63)%Z in *. lia.
Qed.
Lemma wrap_small : forall z, (- 2 ^ 63 <= z < 2 ^ 63)%Z -> wrap64 z = z.
Proof.
  intros z Hz. unfold wrap64. rewrite Z.mod_small; [lia|]. change (2 ^ 64)%Z with (2 ^ 63 + 2 ^ 63)%Z. lia.
Qed.
Lemma wrap_of_cong : forall x y, (x mod M64 = y mod M64)%Z -> wrap64 x = wrap64 y.
Proof.
  intros x y H. unfold wrap64. fold M64. f_equal. rewrite Zplus_mod, H, <- Zplus_mod. reflexivity.
Qed.

(** The exact scales: product of the dimensions to the right. *)
Fixpoint scales (base : list Z) : list Z := match base with [] => [] | _ :: bs => zprod bs :: scales bs end.

Definition congs (l m : list Z) : Prop := Forall2 (fun x y => x mod M64 = y mod M64)%Z l m.

Lemma cumprod_congs : forall l acc acc', (acc mod M64 = acc' mod M64)%Z ->
  congs (cumprod_from acc l) (map (fun k => acc' * zprod (firstn (S k) l))%Z (seq 0 (length l))).
Proof.
  intros l; induction l as [|x l IH]; intros acc acc' H; [constructor|].
  cbn [cumprod_from length seq map]. constructor.
  - rewrite wrap_cong. cbn [firstn zprod]. rewrite Z.mul_1_r, Z.mul_mod, H, <- Z.mul_mod by (unfold M64; lia). reflexivity.
  - rewrite <- seq_shift, map_map.
    specialize (IH (wrap64 (acc * x)) (acc' * x)%Z).
    assert (E : (wrap64 (acc * x) mod M64 = (acc' * x) mod M64)%Z).
    { rewrite wrap_cong, Z.mul_mod, H, <- Z.mul_mod by (unfold M64; lia). reflexivity. }
    specialize (IH E). unfold congs in *. erewrite map_ext; [exact IH|]. intros k. cbn [firstn zprod]. 
    rewrite Z.mul_assoc. reflexivity.
Qed.

Lemma congs_removelast : forall l m, congs l m -> congs (removelast l) (removelast m).
Proof.
  intros l m H; induction H as [|x y l m Hxy H IH]; [constructor|].
  simpl. inversion H; subst; [constructor|]. constructor; [exact Hxy|]. exact IH.
Qed.
Lemma congs_rev : forall l m, congs l m -> congs (rev l) (rev m).
Proof.
  intros l m H; induction H; simpl; [constructor|]. apply Forall2_app; [exact IHForall2|]. constructor; [assumption | constructor].
Qed.

Lemma removelast_map : forall A B (f : A -> B) l, removelast (map f l) = map f (removelast l).
Proof. intros A B f l; induction l as [|x l IH]; [reflexivity|]. simpl. destruct l; [reflexivity|]. simpl in *. rewrite IH. reflexivity. Qed.

Lemma removelast_seq : forall n k, removelast (seq k (S n)) = seq k n.
Proof. intros n; induction n as [|n IH]; intros k; [reflexivity|]. change (seq k (S (S n))) with (k :: seq (S k) (S n)). 
  cbn [removelast]. change (seq (S k) (S n)) with (S k :: seq (S (S k)) n) at 1. rewrite IH. reflexivity. Qed.

Lemma scales_spec : forall base, base <> [] ->
  rev (scales base) = 1%Z :: map (fun k => zprod (firstn (S k) (rev base)))%Z (seq 0 (length base - 1)).
Proof.
  intros base; induction base as [|b base IH]; intros Hne; [congruence|].
  destruct base as [|b' base]; [reflexivity|].
  change (scales (b :: b' :: base)) with (zprod (b' :: base) :: scales (b' :: base)).
  cbn [rev]. fold (rev (scales (b' :: base))). change (rev (scales (b' :: base)) ++ [zprod (b' :: base)] = 
    1%Z :: map (fun k => zprod (firstn (S k) (rev (b' :: base) ++ [b]))) (seq 0 (length (b :: b' :: base) - 1))).
  rewrite IH by discriminate. cbn [length]. rewrite Nat.sub_succ, Nat.sub_0_r.
  rewrite Nat.sub_succ, Nat.sub_0_r. rewrite seq_S, map_app. cbn [app]. f_equal. f_equal.
  - apply map_ext_in. intros k Hk. apply in_seq in Hk. f_equal.
    rewrite firstn_app. replace (S k - length (rev (b' :: base))) with 0; [rewrite app_nil_r; reflexivity|].
    rewrite rev_length. simpl. lia.
  - cbn [map]. f_equal. rewrite Nat.add_0_l. rewrite <- (zprod_rev (b' :: base)). f_equal.
    rewrite firstn_app. rewrite firstn_all2 by (rewrite rev_length; simpl; lia).
    replace (S (length base) - length (rev (b' :: base))) with 0; [rewrite app_nil_r; reflexivity|].
    rewrite rev_length. simpl. lia.
Qed.

Lemma dot64_value : forall base scale s, congs scale (scales base) -> length s = length base ->
  (dot64 scale s mod M64 = value base s mod M64)%Z.
Proof.
  intros base; induction base as [|b base IH]; intros scale s H Hl.
  - inversion H; subst. destruct s; reflexivity.
  - simpl in H. inversion H as [|x y sc m Hxy H' E1 E2]; subst. destruct s as [|d s]; [discriminate|].
    cbn [dot64 value]. rewrite wrap_cong, Zplus_mod, wrap_cong, IH by (auto; simpl in Hl; lia).
    rewrite <- Zplus_mod. rewrite Zplus_mod, Z.mul_mod, Hxy, <- Z.mul_mod by (unfold M64; lia).
    rewrite <- Zplus_mod. f_equal. ring.
Qed.

Lemma dot64_range : forall scale s, (- 2 ^ 63 <= dot64 scale s < 2 ^ 63)%Z.
Proof. intros [|x scale] [|y s]; cbn [dot64]; try lia. apply wrap_range. Qed.

(** What [bin_to_Nbase] computes, overflow included. *)
Theorem bin_to_Nbase_exact : forall base s, length s = length base ->
  bin_to_Nbase s base = Ok (wrap64 (value base s)).
Proof.
  intros base s Hl. unfold bin_to_Nbase. rewrite Hl, Nat.eqb_refl. f_equal.
  rewrite <- (wrap_small (dot64_range _ s)). apply wrap_of_cong. 
  destruct base as [|b base]; [destruct s; [reflexivity | discriminate]|].
  set (B := b :: base) in *. assert (HB : B <> []) by discriminate. apply dot64_value; [|exact Hl].
  rewrite <- (rev_involutive (scales B)). apply congs_rev. rewrite (scales_spec HB).
  constructor; [reflexivity|].
  pose proof (congs_removelast (@cumprod_congs (rev B) 1 1 eq_refl)) as H.
  rewrite removelast_map, rev_length in H. 
  replace (length B) with (S (length B - 1)) in H by (unfold B; simpl; lia).
  rewrite removelast_seq in H. unfold congs in *. erewrite map_ext; [exact H|]. intros k. cbv beta; lia.
Qed.

Lemma value_bound : forall base s, Forall2 (fun x b => 0 <= x < b)%Z s base -> (0 <= value base s < zprod base)%Z.
Proof. intros base s H; induction H; cbn [value zprod]; [lia|]. nia. Qed.

Theorem bin_nbase : forall base s, Forall2 (fun x b => 0 <= x < b)%Z s base -> (zprod base <= 2 ^ 63)%Z ->
  exists v, bin_to_Nbase s base = Ok v /\ (0 <= v < zprod base)%Z /\ Nbase_to_bin v base = Ok s.
Proof.
  intros base s H Hp. assert (Hl : length s = length base) by (clear - H; induction H; simpl; auto).
  pose proof (value_bound H). exists (value base s).
  rewrite bin_to_Nbase_exact by exact Hl. rewrite wrap_small by lia. split; [reflexivity|]. split; [lia|].
  apply nbase_value; exact H.
Qed.

Theorem nbase_bin : forall base v, (forall b, In b base -> 0 < b)%Z -> (zprod base <= 2 ^ 63)%Z -> (0 <= v < zprod base)%Z ->
  exists s, Nbase_to_bin v base = Ok s /\ Forall2 (fun x b => 0 <= x < b)%Z s base /\ bin_to_Nbase s base = Ok v.
Proof.
  intros base v Hb Hp Hv. destruct (nbase_ok base Hb Hv) as [s [E [HF Hval]]]. exists s. split; [exact E|]. split; [exact HF|].
  rewrite bin_to_Nbase_exact by (clear - HF; induction HF; simpl; auto). rewrite Hval, wrap_small by lia. reflexivity.
Qed.
