(** * Embed: a program on some registers of a line acts as it does on a line
    of these registers alone. *)
From Verif Require Import Py Scalar Mat Utils Gates Circuit Spec Lib Flow Layers Blocks Refine Run Reversible Parts Moved Local RenameSpec EmbedSpec.
Set Implicit Arguments.

Section Embed.
Variable S : scalar.
Variable L : scalar_laws S.
Add Ring Sring : (sl_ring L).
Notation gate := (gate S).
Notation "x *s y" := (smul x y) (at level 40).

Lemma there_length : forall rs s, length (there rs s) = length rs.
Proof. intros; apply map_length. Qed.
Lemma level_there : forall rs s i, i < length rs -> level (there rs s) i = level s (nth i rs 0).
Proof. intros rs s i H. unfold level at 1, there. rewrite nth_indep with (d' := level s 0) by (rewrite map_length; exact H). apply map_nth. Qed.

Lemma puts_length : forall rs s t, length (puts s rs t) = length s.
Proof. induction rs as [|r rs IH]; intros s [|v t]; simpl; rewrite ?put_length; auto. Qed.
Lemma level_puts_out : forall rs s t q, (forall r, In r rs -> r < length s) -> ~ In q rs -> level (puts s rs t) q = level s q.
Proof.
  induction rs as [|r rs IH]; intros s [|v t] q Hr Hq; simpl; try reflexivity.
  rewrite level_put by (rewrite puts_length; apply Hr; left; reflexivity).
  destruct (Nat.eqb_spec q r) as [->|]; [exfalso; apply Hq; left; reflexivity|].
  apply IH; [intros; apply Hr; right; assumption | intros X; apply Hq; right; exact X].
Qed.
Lemma level_puts_in : forall rs s t i, NoDup rs -> (forall r, In r rs -> r < length s) -> length t = length rs -> i < length rs ->
  level (puts s rs t) (nth i rs 0) = level t i.
Proof.
  induction rs as [|r rs IH]; intros s [|v t] i Hn Hr Hl Hi; simpl in *; try lia.
  apply NoDup_cons_iff in Hn as [Hn Hn']. rewrite level_put by (rewrite puts_length; apply Hr; left; reflexivity).
  destruct i as [|i]; [rewrite Nat.eqb_refl; reflexivity|].
  destruct (Nat.eqb_spec (nth i rs 0) r) as [E|_].
  - exfalso. apply Hn. rewrite <- E. apply nth_In. lia.
  - unfold level at 2. cbn [nth]. apply IH; try assumption; try lia. intros; apply Hr; right; assumption.
Qed.

Section Line.
Variables dims rs : list nat.
Hypothesis Hn : NoDup rs.
Hypothesis Hr : forall r, In r rs -> r < length dims.
Let f := fun i => nth i rs 0.
Let sub := part rs dims.

Lemma sub_length : length sub = length rs. Proof. apply map_length. Qed.
Lemma nth_sub : forall i, i < length rs -> nth i sub 0 = nth (f i) dims 0.
Proof. intros i H. exact (@level_there rs dims i H). Qed.
Lemma f_lt : forall i, i < length rs -> f i < length dims.
Proof. intros i H. apply Hr, nth_In, H. Qed.
Lemma f_inj : forall i j, i < length rs -> j < length rs -> f i = f j -> i = j.
Proof. intros i j Hi Hj E. exact (proj1 (NoDup_nth rs 0) Hn i j Hi Hj E). Qed.

Lemma there_valid : forall s, valid dims s -> valid sub (there rs s).
Proof.
  intros s Hs. apply valid_levels; [rewrite there_length, sub_length; reflexivity|].
  rewrite sub_length. intros i Hi. rewrite level_there by exact Hi. rewrite nth_sub by exact Hi. apply valid_level; [exact Hs | apply f_lt, Hi].
Qed.

Section One.
Variable s : config.
Hypothesis Hs : valid dims s.
Let Ls := valid_length Hs.

Lemma Hr' : forall r, In r rs -> r < length s. Proof. intros r H. rewrite Ls. apply Hr, H. Qed.
Lemma level_puts : forall t i, length t = length rs -> i < length rs -> level (puts s rs t) (f i) = level t i.
Proof. intros t i H Hi. apply level_puts_in; try assumption. exact Hr'. Qed.
Lemma level_puts_else : forall t q, ~ In q rs -> level (puts s rs t) q = level s q.
Proof. intros t q H. apply level_puts_out; [exact Hr' | exact H]. Qed.

Lemma where_in : forall q, In q rs -> exists i, i < length rs /\ f i = q.
Proof. intros q H. destruct (In_nth _ _ 0 H) as [i [Hi E]]. exists i; split; assumption. Qed.

(** Two configurations that agree elsewhere and on the named registers. *)
Lemma puts_eq : forall t u, length t = length rs -> length u = length dims ->
  (forall q, ~ In q rs -> level u q = level s q) -> (forall i, i < length rs -> level u (f i) = level t i) -> u = puts s rs t.
Proof.
  intros t u Ht Hu Ho Hi. apply level_ext; [rewrite puts_length, Ls, Hu; reflexivity|]. intros q _.
  destruct (in_dec Nat.eq_dec q rs) as [Hq|Hq].
  - destruct (where_in _ Hq) as [i [Hi' <-]]. rewrite level_puts by assumption. apply Hi, Hi'.
  - rewrite level_puts_else by exact Hq. apply Ho, Hq.
Qed.
Lemma puts_there : puts s rs (there rs s) = s.
Proof. symmetry. apply puts_eq; [apply there_length | exact Ls | reflexivity |]. intros i Hi. rewrite level_there by exact Hi. reflexivity. Qed.
Lemma there_puts : forall t, length t = length rs -> there rs (puts s rs t) = t.
Proof.
  intros t Ht. apply level_ext; rewrite there_length; [congruence|]. intros i Hi. rewrite level_there by exact Hi. apply level_puts; assumption.
Qed.
Lemma puts_is : forall t, length t = length rs -> config_eqb (puts s rs t) s = config_eqb t (there rs s).
Proof.
  intros t Ht. destruct (config_eqb t (there rs s)) eqn:E.
  - apply config_eqb_eq in E. subst t. rewrite puts_there. apply config_eqb_refl.
  - apply config_eqb_neq in E. apply config_eqb_neq. intros X. apply E. rewrite <- X. symmetry. apply there_puts, Ht.
Qed.
Lemma puts_valid : forall t, valid sub t -> valid dims (puts s rs t).
Proof.
  intros t Ht. pose proof (valid_length Ht) as Lt. rewrite sub_length in Lt. apply valid_levels; [rewrite puts_length; exact Ls|].
  intros q Hq. destruct (in_dec Nat.eq_dec q rs) as [Hi|Hi].
  - destruct (where_in _ Hi) as [i [Hi' <-]]. rewrite level_puts by assumption. rewrite <- nth_sub by exact Hi'.
    apply valid_level; [exact Ht | rewrite sub_length; exact Hi'].
  - rewrite level_puts_else by exact Hi. apply valid_level; assumption.
Qed.
Lemma put_puts : forall t i v, length t = length rs -> i < length rs -> put (puts s rs t) (f i) v = puts s rs (put t i v).
Proof.
  intros t i v Ht Hi. apply puts_eq; [rewrite put_length; exact Ht | rewrite put_length, puts_length; exact Ls | |].
  - intros q Hq. rewrite level_put by (rewrite puts_length, Ls; apply f_lt, Hi).
    destruct (Nat.eqb_spec q (f i)) as [->|_]; [exfalso; apply Hq, nth_In, Hi|]. apply level_puts_else, Hq.
  - intros j Hj. rewrite level_put by (rewrite puts_length, Ls; apply f_lt, Hi). rewrite level_put by lia.
    rewrite level_puts by assumption.
    destruct (Nat.eqb_spec (f j) (f i)) as [E|E], (Nat.eqb_spec j i) as [E'|E']; try reflexivity.
    + exfalso. apply E', f_inj; assumption.
    + exfalso. apply E. rewrite E'. reflexivity.
Qed.
Lemma top_puts : forall t c, length t = length rs -> c < length rs -> top dims (puts s rs t) (f c) = top sub t c.
Proof. intros t c Ht Hc. unfold top. rewrite level_puts by assumption. rewrite nth_sub by exact Hc. reflexivity. Qed.
Lemma move_x_puts : forall t r p, length t = length rs -> r < length rs -> move_x dims (f r) p (puts s rs t) = puts s rs (move_x sub r p t).
Proof.
  intros t r p Ht Hr0. unfold move_x. rewrite level_puts by assumption. rewrite nth_sub by exact Hr0. apply put_puts; assumption.
Qed.

Lemma amp_embed : forall (g : gate) t, gate_ok sub g -> together f g -> valid sub t ->
  amp dims (rename f g) s (puts s rs t) = amp sub g (there rs s) t.
Proof.
  intros g t Hg Hto Ht. pose proof (valid_length Ht) as Lt. rewrite sub_length in Lt.
  assert (Mx : forall r p, length (move_x sub r p t) = length rs) by (intros; unfold move_x; rewrite put_length; exact Lt).
  assert (Lo : forall r u, r < length rs -> local S (f r) u s (puts s rs t) = local S r u (there rs s) t).
  { intros r u Hr0. unfold local. rewrite put_puts by assumption. rewrite puts_is by (rewrite put_length; exact Lt).
    rewrite level_puts by assumption. rewrite level_there by exact Hr0. reflexivity. }
  destruct g as [r p|r|r|c t' p|cs t' p|r u|r k u]; cbn [rename amp]; simpl in Hg; rewrite ?sub_length in Hg.
  - unfold classical. rewrite move_x_puts by (try apply Hg; exact Lt). rewrite puts_is by apply Mx. reflexivity.
  - rewrite <- nth_sub by exact Hg. apply Lo, Hg.
  - rewrite <- nth_sub by exact Hg. apply Lo, Hg.
  - unfold classical, move_cx. rewrite top_puts by (try apply Hg; exact Lt). destruct (top sub t c).
    + rewrite move_x_puts by (try apply Hg; exact Lt). rewrite puts_is by apply Mx. reflexivity.
    + rewrite puts_is by exact Lt. reflexivity.
  - destruct Hg as [Hc [Ht' _]]. unfold classical, move_tof.
    replace (forallb (top dims (puts s rs t)) (map f cs)) with (forallb (top sub t) cs).
    + destruct (forallb _ cs).
      * rewrite move_x_puts by assumption. rewrite puts_is by apply Mx. reflexivity.
      * rewrite puts_is by exact Lt. reflexivity.
    + clear Hto. induction cs as [|c cs IH]; simpl; [reflexivity|].
      rewrite (@top_puts t c) by (try (apply Hc; left; reflexivity); exact Lt). rewrite IH; [reflexivity|]. intros x Hx; apply Hc; right; exact Hx.
  - apply Lo, Hg.
  - destruct Hg as [Hk [Hrk _]]. simpl in Hto.
    assert (Lth : length (there rs s) = length rs) by apply there_length.
    assert (Fk : forall i, i < k -> f r + i < length dims) by (intros i Hi; rewrite <- Hto by exact Hi; apply f_lt; lia).
    assert (E1 : forall (x y : config) n, length x = length y ->
       (config_eqb (firstn n x) (firstn n y) && config_eqb (skipn (n + k) x) (skipn (n + k) y) = true <->
        forall q, q < n \/ n + k <= q -> level x q = level y q)).
    { intros x y n Hxy. rewrite andb_true_iff, !config_eqb_eq, firstn_levels, skipn_levels by exact Hxy. split.
      - intros [A B] q [Hq|Hq]; [apply A, Hq | apply B, Hq].
      - intros H. split; intros q Hq; apply H; [left|right]; exact Hq. }
    assert (E2 : config_eqb (firstn (f r) (puts s rs t)) (firstn (f r) s) && config_eqb (skipn (f r + k) (puts s rs t)) (skipn (f r + k) s)
               = config_eqb (firstn r t) (firstn r (there rs s)) && config_eqb (skipn (r + k) t) (skipn (r + k) (there rs s))).
    { apply eq_true_iff_eq. rewrite E1 by apply puts_length. rewrite E1 by congruence. split; intros H q Hq.
      - destruct (Nat.lt_ge_cases q (length rs)) as [Hlt|Hge].
        + rewrite level_there by exact Hlt. rewrite <- level_puts by assumption. apply H.
          destruct (Nat.lt_ge_cases (f q) (f r)); [left; assumption|]. right.
          destruct (Nat.lt_ge_cases (f q) (f r + k)); [|assumption]. exfalso.
          assert (f q = f (r + (f q - f r))) as X by (rewrite Hto; lia). apply f_inj in X; lia.
        + unfold level. rewrite !nth_overflow by (unfold config in *; lia). reflexivity.
      - destruct (in_dec Nat.eq_dec q rs) as [Hi|Hi]; [|apply level_puts_else, Hi].
        destruct (where_in _ Hi) as [i [Hi' <-]]. rewrite level_puts by assumption. rewrite H.
        + rewrite level_there by exact Hi'. reflexivity.
        + destruct (Nat.lt_ge_cases i r); [left; assumption|]. right. destruct (Nat.lt_ge_cases i (r + k)); [|assumption]. exfalso.
          assert (X : f i = f r + (i - r)) by (rewrite <- Hto by lia; f_equal; lia). lia. }
    rewrite E2. match goal with |- (if ?b then _ else _) = _ => destruct b; [|reflexivity] end.
    assert (W : forall (x y : config), length x = length dims -> length y = length rs ->
      (forall i, i < k -> level x (f r + i) = level y (r + i)) -> firstn k (skipn (f r) x) = firstn k (skipn r y)).
    { intros x y Hx Hy H. assert (Fk1 := Fk (k - 1) ltac:(lia)). apply (nth_ext _ _ 0 0); rewrite !firstn_length, !skipn_length.
      - lia.
      - intros i Hi. assert (Hik : i < k) by lia. specialize (H i Hik). fold (level (firstn k (skipn (f r) x)) i). fold (level (firstn k (skipn r y)) i).
        rewrite !level_firstn, !level_skipn by exact Hik. exact H. }
    f_equal; apply W; try exact Lt; try exact Lth; try exact Ls; try (rewrite puts_length; exact Ls).
    + intros i Hi. rewrite level_there by lia. fold (f (r + i)). rewrite Hto by exact Hi. reflexivity.
    + intros i Hi. rewrite <- Hto by exact Hi. apply level_puts; [exact Lt | lia].
Qed.

Lemma touches_in : forall (g : gate) q, gate_ok sub g -> together f g -> In q (touches (rename f g)) -> In q rs.
Proof.
  intros g q Hg Hto H. assert (F : forall i, i < length rs -> In (f i) rs) by (intros; apply nth_In; assumption).
  destruct g as [r p|r|r|c t' p|cs t' p|r u|r k u]; simpl in Hg, H; rewrite ?sub_length in Hg;
    try (destruct H as [<-|[]]; apply F; tauto).
  - destruct H as [<-|[<-|[]]]; apply F; tauto.
  - destruct Hg as [Hc [Ht _]]. apply in_app_iff in H as [H|[<-|[]]]; [|apply F, Ht].
    apply in_map_iff in H as [c [<- Hc']]. apply F. apply Hc in Hc'. exact Hc'.
  - apply in_seq in H. simpl in Hto. replace q with (f (r + (q - f r))) by (rewrite Hto; lia). apply F. lia.
Qed.
End One.

Lemma apply_embed : forall (g : gate) psi s, gate_ok sub g -> gate_ok dims (rename f g) -> together f g -> valid dims s ->
  apply dims (rename f g) psi s = apply sub g (fun t => psi (puts s rs t)) (there rs s).
Proof.
  intros g psi s Hg Hg' Hto Hs. rewrite !apply_kapply. unfold kapply.
  rewrite (@bsum_image S L _ _ (fun u => amp dims (rename f g) s u *s psi u) (puts s rs) (all_configs sub)).
  - apply bsum_ext. intros t Ht. apply in_all_configs in Ht. rewrite amp_embed by assumption. reflexivity.
  - apply all_configs_NoDup.
  - pose proof (all_configs_NoDup sub) as Hd. assert (Hv : forall t, In t (all_configs sub) -> length t = length rs).
    { intros t Ht. apply in_all_configs in Ht. rewrite (valid_length Ht). apply sub_length. }
    induction (all_configs sub) as [|t l IH]; [constructor|]. apply NoDup_cons_iff in Hd as [Hd1 Hd2]. simpl. constructor.
    + intros X. apply in_map_iff in X as [t' [E Ht']]. apply Hd1. apply (f_equal (there rs)) in E.
      rewrite !(there_puts Hs) in E by (apply Hv; simpl; auto). subst; exact Ht'.
    + apply IH; [exact Hd2|]. intros t' Ht'. apply Hv. right; exact Ht'.
  - intros t Ht. apply in_all_configs. apply in_all_configs in Ht. apply puts_valid; assumption.
  - intros u Hu Hn'. apply in_all_configs in Hu. rewrite (ao_out (@gate_acts S dims _ Hg') Hs Hu); [ring|]. intros A. apply Hn'.
    apply in_map_iff. exists (there rs u). split; [|apply in_all_configs, there_valid, Hu].
    symmetry. apply (puts_eq Hs); [apply there_length | apply (valid_length Hu) | |].
    + intros q Hq. symmetry. apply A. destruct (mem _ q) eqn:E; [|reflexivity]. exfalso. apply Hq. apply mem_spec in E.
      eapply touches_in; eauto.
    + intros i Hi. rewrite level_there by exact Hi. reflexivity.
Qed.

Theorem final_embed : forall (prog : list gate) psi s, Forall (gate_ok sub) prog -> Forall (gate_ok dims) (map (rename f) prog) ->
  (forall g, In g prog -> together f g) -> valid dims s ->
  final dims (map (rename f) prog) psi s = final sub prog (fun t => psi (puts s rs t)) (there rs s).
Proof.
  induction prog as [|g prog IH]; intros psi s H1 H2 H3 Hs.
  - cbn [map final]. rewrite puts_there by exact Hs. reflexivity.
  - cbn [map final] in *. inversion H1; inversion H2; subst. rewrite IH; [|assumption|assumption| |assumption].
    + apply final_ext; [|apply there_valid, Hs]. intros t Ht.
      rewrite apply_embed; [| assumption | assumption | apply H3; left; reflexivity | apply puts_valid; assumption].
      rewrite (there_puts Hs) by (rewrite (valid_length Ht); apply sub_length).
      apply final_ext with (prog := [g]); [|exact Ht].
      intros t' Ht'. f_equal. pose proof (valid_length Ht') as Lt'. rewrite sub_length in Lt'. pose proof (puts_valid Hs Ht) as Hp.
      apply (puts_eq Hs); [exact Lt' | rewrite puts_length, puts_length; apply (valid_length Hs) | |].
      * intros q Hq. rewrite (level_puts_else Hp) by exact Hq. apply level_puts_else; assumption.
      * intros i Hi. apply (level_puts Hp); assumption.
    + intros g' Hg'. apply H3. right; exact Hg'.
Qed.
End Line.
End Embed.
