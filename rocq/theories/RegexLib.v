(** * RegexLib: lemmas about the regular expressions. *)
From Coq Require Import String Ascii.
From Verif Require Import Py Scalar Mat Utils Gates Circuit Spec Qasm QasmSpec.
Set Implicit Arguments.
Local Notation length := List.length.

(** ** Ways *)
Lemma ways_plus_app : forall p s g u t, In (g, u, t) (ways_plus p s) -> s = u ++ t /\ u <> [].
Proof.
  intros p s; induction s as [|c s IH]; intros g u t H; [contradiction|]. simpl in H.
  destruct (p c); [|contradiction]. apply in_app_iff in H as [H|[H|[]]].
  - apply in_map_iff in H as [[[g' u'] t'] [E H]]. injection E as <- <- <-. apply IH in H as [-> _].
    split; [reflexivity | discriminate].
  - injection H as <- <- <-. split; [reflexivity | discriminate].
Qed.

Lemma ways_app : forall r s g u t, In (g, u, t) (ways r s) -> s = u ++ t /\ u <> [].
Proof.
  intros r; induction r as [p|p|a IHa b IHb|a IHa b IHb|a IHa]; intros s g u t H; simpl in H.
  - destruct s as [|c s]; [contradiction|]. destruct (p c); [|contradiction]. destruct H as [H|[]].
    injection H as <- <- <-. split; [reflexivity | discriminate].
  - eapply ways_plus_app; eauto.
  - apply in_flat_map in H as [[[g1 u1] t1] [H1 H2]]. apply in_map_iff in H2 as [[[g2 u2] t2] [E H2]].
    injection E as <- <- <-. apply IHa in H1 as [-> N]. apply IHb in H2 as [-> _]. split; [rewrite app_assoc; reflexivity|].
    destruct u1; [congruence | discriminate].
  - apply in_app_iff in H as [H|H]; eauto.
  - apply in_map_iff in H as [[[g1 u1] t1] [E H1]]. injection E as <- <- <-. eauto.
Qed.

Lemma here_app : forall r s g u t, re_here r s = Some (g, u, t) -> s = u ++ t /\ u <> [].
Proof.
  intros r s g u t H. unfold re_here in H. apply (ways_app r s g u t). destruct (ways r s) as [|w l]; [discriminate|].
  cbn [hd_error] in H. injection H as ->. left. reflexivity.
Qed.

(** A pattern whose classes do not contain [x]. *)
Fixpoint avoids (x : ascii) (r : re) : bool :=
  match r with
  | RChar p | RPlus p => negb (p x)
  | RSeq a b | RAlt a b => avoids x a && avoids x b
  | RGroup a => avoids x a
  end.

Definition grow (s : text) (w : way) : way := let '(g, u, t) := w in (g, u, t ++ s).

Lemma ways_line : forall x r, avoids x r = true -> forall a b,
  ways r (a ++ x :: b) = map (grow (x :: b)) (ways r a).
Proof.
  intros x r; induction r as [p|p|r1 IH1 r2 IH2|r1 IH1 r2 IH2|r1 IH1]; intros H a b; simpl in H.
  - apply negb_true_iff in H. destruct a as [|c a]; simpl; [rewrite H; reflexivity|]. destruct (p c); reflexivity.
  - apply negb_true_iff in H. simpl. induction a as [|c a IH]; simpl; [rewrite H; reflexivity|].
    destruct (p c); [|reflexivity]. rewrite IH, map_app, !map_map. f_equal. apply map_ext. intros [[g u] t]. reflexivity.
  - apply andb_true_iff in H as [H1 H2]. simpl. rewrite (IH1 H1). rewrite !flat_map_concat_map, concat_map, !map_map.
    f_equal. apply map_ext. intros [[g u] t]. cbn [grow]. rewrite (IH2 H2), !map_map. apply map_ext. intros [[g2 u2] t2]. reflexivity.
  - apply andb_true_iff in H as [H1 H2]. simpl. rewrite (IH1 H1), (IH2 H2), map_app. reflexivity.
  - simpl. rewrite (IH1 H), !map_map. apply map_ext. intros [[g u] t]. reflexivity.
Qed.

Lemma here_line : forall x r a b, avoids x r = true -> re_here r (a ++ x :: b) = option_map (grow (x :: b)) (re_here r a).
Proof. intros x r a b H. unfold re_here. rewrite (ways_line x r H). destruct (ways r a); reflexivity. Qed.

Lemma here_nil : forall r, re_here r [] = None.
Proof.
  intros r. destruct (re_here r []) as [[[g u] t]|] eqn:E; [|reflexivity]. apply here_app in E as [E N].
  symmetry in E. apply app_eq_nil in E as [-> _]. congruence.
Qed.

(** ** Building matches *)
Lemma here_char : forall p c t, re_here (RChar p) (c :: t) = if p c then Some ([], [c], t) else None.
Proof. intros p c t. unfold re_here. simpl. destruct (p c); reflexivity. Qed.

Lemma here_seq : forall a b s g1 u1 t g2 u2 t2, re_here a s = Some (g1, u1, t) -> re_here b t = Some (g2, u2, t2) ->
  re_here (RSeq a b) s = Some (g1 ++ g2, u1 ++ u2, t2).
Proof.
  intros a b s g1 u1 t g2 u2 t2 H1 H2. unfold re_here in *. simpl. destruct (ways a s) as [|w l]; [discriminate|].
  cbn [hd_error] in H1. injection H1 as ->. simpl. destruct (ways b t) as [|w2 l2]; [discriminate|]. cbn [hd_error] in H2. injection H2 as ->. reflexivity.
Qed.

Lemma here_seq_none : forall a b s, re_here a s = None -> re_here (RSeq a b) s = None.
Proof. intros a b s H. unfold re_here in *. simpl. destruct (ways a s); [reflexivity | discriminate]. Qed.

Lemma here_char_seq : forall p r c t, re_here (RSeq (RChar p) r) (c :: t)
  = if p c then option_map (fun '(g, u, x) => (g, c :: u, x)) (re_here r t) else None.
Proof.
  intros p r c t. unfold re_here. simpl. destruct (p c); [|reflexivity]. simpl. rewrite app_nil_r.
  destruct (ways r t) as [|[[g u] x] l]; reflexivity.
Qed.

Lemma here_group : forall r s, re_here (RGroup r) s = option_map (fun '(g, u, x) => (u :: g, u, x)) (re_here r s).
Proof. intros r s. unfold re_here. simpl. destruct (ways r s) as [|[[g u] x] l]; reflexivity. Qed.

Lemma here_alt : forall a b s, re_here (RAlt a b) s = match re_here a s with Some w => Some w | None => re_here b s end.
Proof. intros a b s. unfold re_here. simpl. destruct (ways a s); reflexivity. Qed.

Definition stops (p : ascii -> bool) (t : text) : Prop := match t with c :: _ => p c = false | [] => True end.

Lemma here_plus : forall p u t, u <> [] -> Forall (fun c => p c = true) u -> stops p t ->
  re_here (RPlus p) (u ++ t) = Some ([], u, t).
Proof.
  intros p u t N H St. unfold re_here. simpl. induction H as [|c u Hc H IH]; [congruence|]. simpl. rewrite Hc.
  destruct u as [|c2 u].
  - simpl. replace (ways_plus p t) with (@nil way); [reflexivity|]. destruct t as [|d t]; [reflexivity|].
    simpl in *. rewrite St. reflexivity.
  - assert (X : c2 :: u <> []) by discriminate. specialize (IH X).
    destruct (ways_plus p ((c2 :: u) ++ t)) as [|[[g v] x] l]; [discriminate|].
    cbn [hd_error] in IH. injection IH as -> -> ->. reflexivity.
Qed.

Lemma here_plus_none : forall p s, stops p s -> re_here (RPlus p) s = None.
Proof. intros p [|c s] H; [reflexivity|]. unfold re_here. simpl in *. rewrite H. reflexivity. Qed.

Lemma here_word : forall w r s, re_here (word w r) (w ++ s) = option_map (fun '(g, u, x) => (g, w ++ u, x)) (re_here r s).
Proof.
  intros w r s; induction w as [|a w IH]; simpl.
  - destruct (re_here r s) as [[[g u] x]|]; reflexivity.
  - rewrite here_char_seq. unfold is_char. rewrite Ascii.eqb_refl. change (w ++ s) with (List.app w s). rewrite IH.
    destruct (re_here r s) as [[[g u] x]|]; reflexivity.
Qed.

Lemma starts_app : forall w s, starts w s = true <-> begins w s.
Proof.
  intros w; induction w as [|a w IH]; intros s; simpl.
  - split; [exists s; reflexivity | reflexivity].
  - destruct s as [|c s].
    + split; [discriminate | intros [b H]; discriminate].
    + rewrite andb_true_iff, Ascii.eqb_eq, IH. split.
      * intros [-> [b ->]]. exists b. reflexivity.
      * intros [b H]. injection H as -> ->. split; [reflexivity | exists b; reflexivity].
Qed.

Lemma starts_no : forall w s, ~ begins w s -> starts w s = false.
Proof. intros w s H. destruct (starts w s) eqn:E; [|reflexivity]. apply starts_app in E. contradiction. Qed.

Lemma here_word_none : forall w r s, starts w s = false -> re_here (word w r) s = None.
Proof.
  intros w r; induction w as [|a w IH]; intros s H; simpl in *; [discriminate|].
  destruct s as [|c s]; [apply here_nil|]. rewrite here_char_seq. unfold is_char.
  destruct (Ascii.eqb a c) eqn:E; [|reflexivity]. simpl in H. rewrite IH by exact H. reflexivity.
Qed.

(** ** Substitution *)
Lemma sub_skipn : forall r f k s, sub_from r f k s = sub_from r f 0 (skipn k s).
Proof. intros r f k; induction k as [|k IH]; intros s; [reflexivity|]. destruct s as [|c s]; [reflexivity|]. simpl. apply IH. Qed.

Lemma skipn_app_exact : forall A (a b : list A), skipn (length a) (a ++ b) = b.
Proof. intros A a b; induction a as [|x a IH]; [reflexivity | exact IH]. Qed.

Lemma sub_hit : forall r f s g u t, re_here r s = Some (g, u, t) -> re_sub r f s = f g ++ re_sub r f t.
Proof.
  intros r f s g u t H. destruct (here_app _ _ H) as [E N]. unfold re_sub. destruct u as [|c u]; [congruence|]. subst s.
  cbn [sub_from app]. change (c :: u ++ t) with ((c :: u) ++ t). rewrite H. f_equal. rewrite sub_skipn. f_equal.
  cbn [length]. replace (Datatypes.S (length u) - 1) with (length u) by lia. apply skipn_app_exact.
Qed.

Lemma sub_miss : forall r f c t, re_here r (c :: t) = None -> re_sub r f (c :: t) = c :: re_sub r f t.
Proof. intros r f c t H. unfold re_sub. cbn [sub_from]. rewrite H. reflexivity. Qed.

Lemma sub_line_from : forall x r f, avoids x r = true -> forall a b k, k <= length a ->
  sub_from r f k (a ++ x :: b) = sub_from r f k a ++ x :: re_sub r f b.
Proof.
  intros x r f Hx a; induction a as [|c a IH]; intros b k Hk.
  - simpl in Hk. assert (k = 0) by lia. subst k. cbn [app sub_from].
    replace (re_here r (x :: b)) with (@None way); [reflexivity|]. change (x :: b) with ([] ++ x :: b).
    rewrite (@here_line x r [] b Hx), here_nil. reflexivity.
  - destruct k as [|k]; cbn [app sub_from].
    + change (c :: a ++ x :: b) with ((c :: a) ++ x :: b). rewrite (@here_line x r (c :: a) b Hx).
      destruct (re_here r (c :: a)) as [[[g u] t]|] eqn:E; cbn [option_map grow].
      * apply here_app in E as [E N]. rewrite IH, app_assoc; [reflexivity|]. apply (f_equal (@length ascii)) in E.
        rewrite app_length in E. simpl in E. lia.
      * rewrite IH by lia. reflexivity.
    + apply IH. simpl in Hk. lia.
Qed.

Lemma sub_line : forall x r f a b, avoids x r = true -> re_sub r f (a ++ x :: b) = re_sub r f a ++ x :: re_sub r f b.
Proof. intros x r f a b H. unfold re_sub. apply sub_line_from; [exact H | lia]. Qed.

(** Where nothing matches, nothing changes. *)
Lemma sub_same : forall r f a, (forall x y, a = x ++ y -> re_here r y = None) -> re_sub r f a = a.
Proof.
  intros r f a; induction a as [|c a IH]; intros H; [reflexivity|]. rewrite sub_miss by (apply (H [] (c :: a)); reflexivity).
  rewrite IH; [reflexivity|]. intros x y ->. apply (H (c :: x) y). reflexivity.
Qed.

(** ** Search *)
Lemma find_skipn : forall r k s, find_from r k s = find_from r 0 (skipn k s).
Proof. intros r k; induction k as [|k IH]; intros s; [reflexivity|]. destruct s as [|c s]; [reflexivity|]. simpl. apply IH. Qed.

Lemma find_hit : forall r s g u t, re_here r s = Some (g, u, t) -> re_findall r s = u :: re_findall r t.
Proof.
  intros r s g u t H. destruct (here_app _ _ H) as [E N]. unfold re_findall. destruct u as [|c u]; [congruence|]. subst s.
  cbn [find_from app]. change (c :: u ++ t) with ((c :: u) ++ t). rewrite H. f_equal. rewrite find_skipn. f_equal.
  cbn [length]. replace (Datatypes.S (length u) - 1) with (length u) by lia. apply skipn_app_exact.
Qed.

Lemma find_miss : forall r c t, re_here r (c :: t) = None -> re_findall r (c :: t) = re_findall r t.
Proof. intros r c t H. unfold re_findall. cbn [find_from]. rewrite H. reflexivity. Qed.

Lemma find_line_from : forall x r, avoids x r = true -> forall a b k, k <= length a ->
  find_from r k (a ++ x :: b) = find_from r k a ++ re_findall r b.
Proof.
  intros x r Hx a; induction a as [|c a IH]; intros b k Hk.
  - simpl in Hk. assert (k = 0) by lia. subst k. cbn [app find_from].
    replace (re_here r (x :: b)) with (@None way); [reflexivity|]. change (x :: b) with ([] ++ x :: b).
    rewrite (@here_line x r [] b Hx), here_nil. reflexivity.
  - destruct k as [|k]; cbn [app find_from].
    + change (c :: a ++ x :: b) with ((c :: a) ++ x :: b). rewrite (@here_line x r (c :: a) b Hx).
      destruct (re_here r (c :: a)) as [[[g u] t]|] eqn:E; cbn [option_map grow].
      * apply here_app in E as [E N]. rewrite IH; [reflexivity|]. apply (f_equal (@length ascii)) in E.
        rewrite app_length in E. simpl in E. lia.
      * apply IH. lia.
    + apply IH. simpl in Hk. lia.
Qed.

Lemma find_line : forall x r a b, avoids x r = true -> re_findall r (a ++ x :: b) = re_findall r a ++ re_findall r b.
Proof. intros x r a b H. unfold re_findall. apply find_line_from; [exact H | lia]. Qed.

Lemma find_nothing : forall r a, (forall x y, a = x ++ y -> re_here r y = None) -> re_findall r a = [].
Proof.
  intros r a; induction a as [|c a IH]; intros H; [reflexivity|]. rewrite find_miss by (apply (H [] (c :: a)); reflexivity).
  apply IH. intros x y ->. apply (H (c :: x) y). reflexivity.
Qed.

(** ** Splitting *)
Lemma split_skipn : forall r k cur s, split_from r k cur s = split_from r 0 cur (skipn k s).
Proof. intros r k; induction k as [|k IH]; intros cur s; [reflexivity|]. destruct s as [|c s]; [reflexivity|]. simpl. apply IH. Qed.

Lemma split_hit : forall r cur s g u t, re_here r s = Some (g, u, t) ->
  split_from r 0 cur s = rev cur :: g ++ re_split r t.
Proof.
  intros r cur s g u t H. destruct (here_app _ _ H) as [E N]. destruct u as [|c u]; [congruence|]. subst s.
  cbn [split_from app]. change (c :: u ++ t) with ((c :: u) ++ t). rewrite H. f_equal. f_equal. rewrite split_skipn.
  unfold re_split. f_equal. cbn [length]. replace (Datatypes.S (length u) - 1) with (length u) by lia. apply skipn_app_exact.
Qed.

Lemma split_miss : forall r cur c t, re_here r (c :: t) = None -> split_from r 0 cur (c :: t) = split_from r 0 (c :: cur) t.
Proof. intros r cur c t H. cbn [split_from]. rewrite H. reflexivity. Qed.

Lemma split_pass : forall r a t cur, (forall x y, a = x ++ y -> y <> [] -> re_here r (y ++ t) = None) ->
  split_from r 0 cur (a ++ t) = split_from r 0 (rev a ++ cur) t.
Proof.
  intros r a; induction a as [|c a IH]; intros t cur H; [reflexivity|].
  cbn [app]. rewrite split_miss by (apply (H [] (c :: a)); [reflexivity | discriminate]).
  rewrite IH; [cbn [rev]; rewrite <- app_assoc; reflexivity|]. intros x y -> Hy. apply (H (c :: x) y); [reflexivity | exact Hy].
Qed.
