(** * LicenseLib: lemmas about the license header script. *)
From Coq Require Import String Ascii DecimalString DecimalZ.
From Verif Require Import Py License LicenseSpec Labels.
Set Implicit Arguments.
Local Open Scope string_scope.
Local Notation length := List.length.

Lemma kept_iff : forall l, kept l = true <-> preamble l.
Proof.
  intros l. unfold kept, lines_to_keep, preamble. cbn [existsb]. rewrite orb_false_r, orb_true_iff, !String.eqb_eq. reflexivity.
Qed.

Lemma header_cons : forall y, license_header_lines y = hd "" (license_header_lines y) :: tl (license_header_lines y).
Proof. reflexivity. Qed.
Lemma header_first : forall y, kept (hd "" (license_header_lines y)) = false.
Proof. intros y. reflexivity. Qed.

Lemma differs_false : forall hs ls, differs hs ls = false <->
  (exists rest, ls = (hs ++ rest)%list) \/ (exists missing, hs = (ls ++ missing)%list).
Proof.
  induction hs as [|h hs IH]; intros [|l ls]; simpl.
  - split; [left; exists []; reflexivity | reflexivity].
  - split; [left; exists (l :: ls); reflexivity | reflexivity].
  - split; [right; exists (h :: hs); reflexivity | reflexivity].
  - destruct (String.eqb_spec l h) as [->|Hne].
    + rewrite IH. split; intros [[r E]|[m E]].
      * left. exists r. rewrite E. reflexivity.
      * right. exists m. rewrite E. reflexivity.
      * left. exists r. injection E as E. exact E.
      * right. exists m. injection E as E. exact E.
    + split; [discriminate|]. intros [[r E]|[m E]]; injection E as E _; congruence.
Qed.

Lemma content_ok : forall y ls, content_needs_fix (license_header_lines y) ls = false <->
  has_header (license_header_lines y) ls \/ cut_header (license_header_lines y) ls.
Proof.
  intros y ls. set (H := license_header_lines y). assert (HC : H = hd "" H :: tl H) by apply header_cons.
  assert (HF : kept (hd "" H) = false) by apply header_first. clearbody H.
  induction ls as [|l ls IH]; cbn [content_needs_fix].
  - split; [discriminate|]. intros [[pre [rest [_ E]]]|[pre [part [m [_ [Hne [_ E]]]]]]].
    + rewrite HC in E. destruct pre; discriminate.
    + destruct pre; [|discriminate]. destruct part; [contradiction | discriminate].
  - destruct (String.eqb_spec l (hd "" H)) as [->|Hl].
    + rewrite differs_false. split.
      * intros [[rest E]|[m E]].
        -- left. exists [], rest. split; [constructor|]. rewrite HC at 2. simpl. rewrite <- E. reflexivity.
        -- right. exists [], (hd "" H :: ls), m. repeat split; try constructor; try discriminate.
           rewrite HC at 1. simpl. rewrite E. reflexivity.
      * intros [[pre [rest [Hp E]]]|[pre [part [m [Hp [Hne [E1 E2]]]]]]].
        -- left. exists rest. destruct pre as [|p pre].
           ++ rewrite HC in E at 2. simpl in E. injection E as E. exact E.
           ++ injection E as <- _. inversion Hp as [|? ? Hp1 _]; subst. apply kept_iff in Hp1. congruence.
        -- right. exists m. destruct pre as [|p pre].
           ++ simpl in E2. subst part. rewrite E1. reflexivity.
           ++ injection E2 as <- _. inversion Hp as [|? ? Hp1 _]; subst. apply kept_iff in Hp1. congruence.
    + destruct (kept l) eqn:Hk.
      * rewrite IH. apply kept_iff in Hk. split.
        -- intros [[pre [rest [Hp E]]]|[pre [part [m [Hp [Hne [E1 E2]]]]]]].
           ++ left. exists (l :: pre), rest. split; [constructor; assumption | rewrite E; reflexivity].
           ++ right. exists (l :: pre), part, m. repeat split; try assumption; [constructor; assumption | rewrite E2; reflexivity].
        -- intros [[pre [rest [Hp E]]]|[pre [part [m [Hp [Hne [E1 E2]]]]]]].
           ++ left. destruct pre as [|p pre]; [rewrite HC in E; injection E as E _; contradiction|].
              injection E as <- E. inversion Hp; subst. exists pre, rest. split; [assumption | reflexivity].
           ++ right. destruct pre as [|p pre].
              ** destruct part as [|q part]; [contradiction|]. injection E2 as <- E2. rewrite E1 in Hl. simpl in Hl. congruence.
              ** injection E2 as <- E2. inversion Hp; subst. exists pre, part, m. repeat split; assumption || reflexivity.
      * split; [discriminate|]. assert (Hk' : ~ preamble l) by (rewrite <- kept_iff; congruence).
        intros [[pre [rest [Hp E]]]|[pre [part [m [Hp [Hne [E1 E2]]]]]]].
        -- destruct pre as [|p pre]; [rewrite HC in E; injection E as E _; contradiction|].
           injection E as <- _. inversion Hp; subst. contradiction.
        -- destruct pre as [|p pre].
           ++ destruct part as [|q part]; [contradiction|]. injection E2 as <- E2. rewrite E1 in Hl. simpl in Hl. congruence.
           ++ injection E2 as <- _. inversion Hp; subst. contradiction.
Qed.

(** ** Paths *)
Lemma app_nil_s : forall s : string, s ++ "" = s.
Proof. induction s as [|c s IH]; simpl; congruence. Qed.
Lemma app_assoc_s : forall a b c : string, (a ++ b) ++ c = a ++ b ++ c.
Proof. induction a as [|x a IH]; intros; simpl; congruence. Qed.

Lemma ends_with_iff : forall x s, ends_with x s = true <-> exists stem, s = stem ++ x.
Proof.
  intros x. induction s as [|c s IH].
  - cbn [ends_with]. rewrite orb_false_r, String.eqb_eq. split.
    + intros ->. exists "". reflexivity.
    + intros [[|c st] E]; [exact (eq_sym E) | discriminate].
  - cbn [ends_with]. rewrite orb_true_iff, String.eqb_eq, IH. split.
    + intros [-> | [st ->]]; [exists ""; reflexivity | exists (String c st); reflexivity].
    + intros [[|a st] E]; [left; exact (eq_sym E) | right; injection E as -> E; exists st; exact E].
Qed.

Lemma prefix_cons : forall a x b s, String.prefix (String a x) (String b s) = Ascii.eqb a b && String.prefix x s.
Proof.
  intros a x b s. unfold String.prefix; fold String.prefix. destruct (ascii_dec a b) as [->|H].
  - rewrite Ascii.eqb_refl. reflexivity.
  - rewrite (proj2 (Ascii.eqb_neq a b) H). reflexivity.
Qed.

Lemma prefix_iff : forall x s, String.prefix x s = true <-> exists r, s = x ++ r.
Proof.
  induction x as [|a x IH]; intros s.
  - split; [intros _; exists s; reflexivity | destruct s; reflexivity].
  - destruct s as [|b s]; [split; [discriminate | intros [r E]; discriminate]|].
    rewrite prefix_cons, andb_true_iff, Ascii.eqb_eq, IH. split.
    + intros [-> [r ->]]. exists r. reflexivity.
    + intros [r E]. injection E as -> E. split; [reflexivity | exists r; exact E].
Qed.

Lemma split_ne : forall s, split_slash s <> [].
Proof. intros [|c s]; simpl; [discriminate|]. destruct (Ascii.eqb c "/"); [discriminate|]. destruct (split_slash s); discriminate. Qed.

Fixpoint slash_free (s : string) : bool :=
  match s with EmptyString => true | String c s' => negb (Ascii.eqb c "/") && slash_free s' end.

Lemma first_prefix : forall x s, slash_free x = true -> String.prefix x (hd "" (split_slash s)) = String.prefix x s.
Proof.
  induction x as [|a x IH]; intros s Hx.
  - destruct (hd "" (split_slash s)), s; reflexivity.
  - cbn [slash_free] in Hx. apply andb_true_iff in Hx as [Ha Hx]. destruct (Ascii.eqb_spec a "/") as [|Ha']; [discriminate|].
    destruct s as [|c s]; [reflexivity|]. cbn [split_slash]. destruct (Ascii.eqb_spec c "/") as [->|Hc].
    + cbn [hd]. rewrite prefix_cons, (proj2 (Ascii.eqb_neq a "/") Ha'). reflexivity.
    + specialize (IH s Hx). destruct (split_slash s) as [|w ws] eqn:E; [destruct (split_ne s E)|]. cbn [hd] in *.
      rewrite !prefix_cons, IH. reflexivity.
Qed.

Lemma has_slash : forall s, tl (split_slash s) <> [] <-> exists a b, s = a ++ "/" ++ b.
Proof.
  induction s as [|c s IH]; cbn [split_slash].
  - split; [intros H; destruct (H eq_refl) | intros [[|? ?] [b E]]; discriminate].
  - destruct (Ascii.eqb_spec c "/") as [->|Hc].
    + cbn [tl]. split; [intros _; exists "", s; reflexivity | intros _; apply split_ne].
    + destruct (split_slash s) as [|w ws] eqn:E; [destruct (split_ne s E)|]. cbn [tl] in *. rewrite IH. split.
      * intros [a [b ->]]. exists (String c a), b. reflexivity.
      * intros [[|x a] [b E']]; [injection E' as E' _; congruence | injection E' as _ E'; exists a, b; exact E'].
Qed.

(** A named directory after the first component, and the first component. *)
Definition later (x s : string) : bool := existsb (String.prefix x) (removelast (tl (split_slash s))).
Definition first (x s : string) : bool := match tl (split_slash s) with [] => false | _ => String.prefix x s end.

Lemma any_component : forall x s, slash_free x = true ->
  existsb (String.prefix x) (removelast (split_slash s)) = first x s || later x s.
Proof.
  intros x s Hx. unfold first, later. rewrite <- (first_prefix x s Hx). destruct (split_slash s) as [|w [|w' ws]]; reflexivity.
Qed.

Lemma first_iff : forall x s, slash_free x = true ->
  first x s = true <-> exists after after', s = x ++ after ++ "/" ++ after'.
Proof.
  intros x s Hx. assert (K : first x s = true <-> (tl (split_slash s) <> [] /\ String.prefix x s = true)).
  { unfold first. destruct (tl (split_slash s)); split; [discriminate | intros [H _]; congruence | intros H; split; [discriminate | exact H] | intros [_ H]; exact H]. }
  rewrite K, has_slash, prefix_iff. split.
  - intros [[a [b E]] [r ->]]. clear K. revert a E. induction x as [|c x IH]; intros a E.
    + exists a, b. exact E.
    + cbn [slash_free] in Hx. apply andb_true_iff in Hx as [Hc Hx]. destruct (Ascii.eqb_spec c "/") as [|Hc']; [discriminate|].
      destruct a as [|y a]; [injection E as E _; congruence|]. injection E as _ E.
      destruct (IH Hx a E) as [af [af' E']]. exists af, af'. simpl in *. rewrite E'. reflexivity.
  - intros [af [af' ->]]. split; [exists (x ++ af), af'; rewrite app_assoc_s; reflexivity | exists (af ++ "/" ++ af'); reflexivity].
Qed.

Lemma later_iff : forall x s, slash_free x = true ->
  later x s = true <-> exists b after after', s = b ++ "/" ++ x ++ after ++ "/" ++ after'.
Proof.
  intros x s Hx. induction s as [|c s IH].
  - split; [discriminate | intros [[|? ?] [? [? E]]]; discriminate].
  - unfold later in *. cbn [split_slash]. destruct (Ascii.eqb_spec c "/") as [->|Hc].
    + cbn [tl]. rewrite (any_component x s Hx), orb_true_iff, (first_iff x s Hx). unfold later. rewrite IH. split.
      * intros [[af [af' ->]]|[b [af [af' ->]]]]; [exists "", af, af'; reflexivity | exists (String "/" b), af, af'; reflexivity].
      * intros [[|y b] [af [af' E]]]; [left; injection E as E; exists af, af'; exact E|].
        right. injection E as _ E. exists b, af, af'. exact E.
    + destruct (split_slash s) as [|w ws] eqn:E; [destruct (split_ne s E)|]. cbn [tl] in *. rewrite IH. split.
      * intros [b [af [af' ->]]]. exists (String c b), af, af'. reflexivity.
      * intros [[|y b] [af [af' E']]]; [injection E' as E' _; congruence|]. injection E' as _ E'. exists b, af, af'. exact E'.
Qed.

Lemma hidden_iff : forall p,
  existsb (fun w => String.prefix "__" w || String.prefix "." w) (removelast (split_slash p)) = true <-> in_hidden_directory p.
Proof.
  intros p. assert (E : forall l, existsb (fun w => String.prefix "__" w || String.prefix "." w) l
    = existsb (String.prefix "__") l || existsb (String.prefix ".") l).
  { induction l as [|w l IH]; [reflexivity|]. cbn [existsb]. rewrite IH.
    destruct (String.prefix "__" w), (String.prefix "." w), (existsb (String.prefix "__") l), (existsb (String.prefix ".") l); reflexivity. }
  assert (K : forall x, slash_free x = true -> existsb (String.prefix x) (removelast (split_slash p)) = true <->
    exists before after after', p = before ++ x ++ after ++ "/" ++ after' /\ (before = "" \/ exists b, before = b ++ "/")).
  { intros x Hx. rewrite (any_component x p Hx), orb_true_iff, (first_iff x p Hx), (later_iff x p Hx). split.
    - intros [[af [af' ->]]|[b [af [af' ->]]]].
      + exists "", af, af'. split; [reflexivity | left; reflexivity].
      + exists (b ++ "/"), af, af'. split; [rewrite app_assoc_s; reflexivity | right; exists b; reflexivity].
    - intros [before [af [af' [-> [-> | [b ->]]]]]]; [left; exists af, af'; reflexivity|].
      right. exists b, af, af'. rewrite app_assoc_s. reflexivity. }
  rewrite E, orb_true_iff, (K "__" eq_refl), (K "." eq_refl). unfold in_hidden_directory. split.
  - intros [[b [af [af' [-> H]]]]|[b [af [af' [-> H]]]]]; [exists b, "__", af, af' | exists b, ".", af, af']; repeat split; auto.
  - intros [b [st [af [af' [-> [H [->| ->]]]]]]]; [right | left]; exists b, af, af'; auto.
Qed.

Lemma python_iff : forall p, ends_with ".py" p || ends_with ".pyi" p || ends_with (".py" ++ nl) p || ends_with (".pyi" ++ nl) p = true
  <-> python_name p.
Proof.
  intros p. rewrite !orb_true_iff, !ends_with_iff. unfold python_name. split.
  - intros [[[[st ->]|[st ->]]|[st ->]]|[st ->]]; eexists st, _; (split; [reflexivity|]); simpl; auto 6.
  - intros [st [ext [-> [<-|[<-|[<-|[<-|[]]]]]]]]; [left; left; left | left; left; right | left; right | right]; exists st; reflexivity.
Qed.

Lemma source_path_iff : forall p, is_source_path p = true <-> python_name p /\ ~ in_hidden_directory p.
Proof.
  intros p. unfold is_source_path. rewrite andb_true_iff, python_iff, negb_true_iff, <- hidden_iff.
  destruct (existsb _ _); split; intros [H1 H2]; split; auto; congruence.
Qed.

(** ** Adding the header *)
Lemma insertion_pre : forall ls, Forall preamble (firstn (insertion_point ls) ls).
Proof.
  induction ls as [|l [|l' ls] IH]; [constructor | constructor|].
  cbn [insertion_point]. destruct (kept l) eqn:E; [|constructor].
  change (Forall preamble (l :: firstn (insertion_point (l' :: ls)) (l' :: ls))). constructor; [apply kept_iff; exact E | exact IH].
Qed.

Lemma add_header_put : forall y ls, header_put (license_header_lines y) ls (add_header y ls).
Proof.
  intros y ls. exists (firstn (insertion_point ls) ls), (skipn (insertion_point ls) ls).
  split; [apply insertion_pre|]. split; [symmetry; apply firstn_skipn | reflexivity].
Qed.

Lemma put_has : forall h old new, header_put h old new -> has_header h new.
Proof. intros h old new [pre [rest [H [_ E]]]]. exists pre, rest. auto. Qed.

Lemma added_ok : forall y p ls, does_file_need_fix y p (add_header y ls) = false.
Proof.
  intros y p ls. unfold does_file_need_fix. rewrite (proj2 (content_ok y _)); [apply andb_false_r|].
  left. eapply put_has, add_header_put.
Qed.

Definition fix1 (y : Z) (fs : files) (p : string) : files :=
  if does_file_need_fix y p (fs p) then write fs p (add_header y (fs p)) else fs.

Lemma fix_at : forall y ps fs q,
  fold_left (fix1 y) ps fs q =
  if existsb (String.eqb q) ps && does_file_need_fix y q (fs q) then add_header y (fs q) else fs q.
Proof.
  intros y. induction ps as [|p ps IH]; intros fs q; [reflexivity|]. cbn [fold_left existsb]. rewrite IH. unfold fix1.
  destruct (String.eqb_spec q p) as [->|Hne]; cbn [orb].
  - cbn [andb]. destruct (does_file_need_fix y p (fs p)) eqn:E.
    + unfold write. rewrite String.eqb_refl, added_ok, andb_false_r. reflexivity.
    + rewrite E, andb_false_r. reflexivity.
  - destruct (does_file_need_fix y p (fs p)); [|reflexivity].
    unfold write. rewrite (proj2 (String.eqb_neq q p) Hne). reflexivity.
Qed.

Lemma fixed_at : forall y sources fs q,
  fix_files y sources fs q =
  if existsb (String.eqb q) (visited sources) && does_file_need_fix y q (fs q) then add_header y (fs q) else fs q.
Proof. intros y sources fs q. exact (fix_at y (visited sources) fs q). Qed.

(** ** Years *)
Lemma str_of_Z_inj : forall a b, str_of_Z a = str_of_Z b -> a = b.
Proof.
  assert (D : forall z, NilZero.int_of_string (str_of_Z z) = Some (Z.to_int z)).
  { intros z. unfold str_of_Z. apply NilZero.isi.
    - destruct z; simpl; try discriminate. intros E. injection E as E. exact (DecimalPos.Unsigned.to_uint_nonnil _ E).
    - destruct z; simpl; try discriminate. intros E. injection E as E. exact (DecimalPos.Unsigned.to_uint_nonnil _ E). }
  intros a b E. apply (f_equal NilZero.int_of_string) in E. rewrite !D in E. injection E as E.
  rewrite <- (DecimalZ.of_to a), <- (DecimalZ.of_to b), E. reflexivity.
Qed.

Lemma app_inj_l : forall a b c : string, a ++ b = a ++ c -> b = c.
Proof. induction a as [|x a IH]; intros b c E; [exact E | injection E as E; exact (IH _ _ E)]. Qed.

Lemma other_year : forall y y', y <> y' -> forall rest, differs (tl (license_header_lines y')) (tl (license_header_lines y) ++ rest)%list = true.
Proof.
  intros y y' Hne rest. destruct (differs _ _) eqn:E; [reflexivity|]. exfalso. apply differs_false in E.
  set (f := fun y => "#                      Copyright (c) " ++ str_of_Z y ++ "." ++ nl).
  assert (F : forall y, nth 2 (tl (license_header_lines y)) "" = f y).
  { intros z. unfold license_header_lines, f. cbn [map tl nth]. rewrite !app_assoc_s. reflexivity. }
  assert (G : forall l l' : list string, f y = nth 2 l "" -> f y' = nth 2 l' "" -> nth 2 l "" = nth 2 l' "" -> False).
  { intros l l' E1 E2 E3. rewrite <- E1, <- E2 in E3. unfold f in E3. apply app_inj_l in E3. apply append_inj_r in E3.
    apply str_of_Z_inj in E3. contradiction. }
  assert (L : forall z, (3 < length (tl (license_header_lines z)))%nat) by (intros z; simpl; lia).
  destruct E as [[r E]|[m E]]; apply (f_equal (fun l => nth 2 l "")) in E.
  - rewrite !app_nth1 in E by (pose proof (L y); pose proof (L y'); lia). rewrite !F in E.
    eapply (G (tl (license_header_lines y)) (tl (license_header_lines y'))); rewrite ?F; auto.
  - rewrite <- app_assoc in E. rewrite app_nth1 in E by (specialize (L y); lia). rewrite !F in E.
    eapply (G (tl (license_header_lines y)) (tl (license_header_lines y'))); rewrite ?F; auto.
Qed.

Lemma needs_after : forall h pre ls, Forall preamble pre -> kept (hd "" h) = false ->
  content_needs_fix h (pre ++ ls)%list = content_needs_fix h ls.
Proof.
  intros h pre ls H K. induction H as [|l pre Hl _ IH]; [reflexivity|]. cbn [app content_needs_fix].
  apply kept_iff in Hl. destruct (String.eqb_spec l (hd "" h)) as [->|_]; [congruence|]. rewrite Hl. exact IH.
Qed.

Lemma insertion_at : forall pre l ls, Forall preamble pre -> kept l = false -> insertion_point (pre ++ l :: ls)%list = length pre.
Proof.
  intros pre l ls H K. induction H as [|p pre Hp _ IH].
  - simpl. rewrite K. destruct ls; reflexivity.
  - apply kept_iff in Hp. change ((p :: pre) ++ l :: ls)%list with (p :: (pre ++ l :: ls))%list. cbn [length].
    rewrite <- IH. cbn [insertion_point]. destruct (pre ++ l :: ls)%list as [|a b] eqn:E; [destruct pre; discriminate|]. rewrite Hp. reflexivity.
Qed.

Lemma insertion_last : forall pre l, Forall preamble pre -> preamble l -> insertion_point (pre ++ [l])%list = length pre.
Proof.
  intros pre l H K. induction H as [|p pre Hp _ IH]; [reflexivity|].
  apply kept_iff in Hp. change ((p :: pre) ++ [l])%list with (p :: (pre ++ [l]))%list. cbn [length]. rewrite <- IH.
  cbn [insertion_point]. destruct (pre ++ [l])%list as [|a b] eqn:E; [destruct pre; discriminate|]. rewrite Hp. reflexivity.
Qed.

Lemma firstn_at : forall A (a b : list A), firstn (length a) (a ++ b) = a.
Proof. induction a as [|x a IH]; intros b; [destruct b; reflexivity | simpl; rewrite IH; reflexivity]. Qed.
Lemma skipn_at : forall A (a b : list A), skipn (length a) (a ++ b) = b.
Proof. induction a as [|x a IH]; intros b; [destruct b; reflexivity | apply IH]. Qed.

Lemma new_year : forall y y' pre rest, y <> y' -> Forall preamble pre ->
  content_needs_fix (license_header_lines y') (pre ++ license_header_lines y ++ rest)%list = true /\
  add_header y' (pre ++ license_header_lines y ++ rest)%list = (pre ++ license_header_lines y' ++ license_header_lines y ++ rest)%list.
Proof.
  intros y y' pre rest Hy Hp. split.
  - rewrite needs_after by (exact Hp || apply header_first). rewrite (header_cons y). cbn [app content_needs_fix].
    change (hd "" (license_header_lines y)) with (hd "" (license_header_lines y')). rewrite String.eqb_refl.
    change (tl (hd "" (license_header_lines y') :: tl (license_header_lines y))) with (tl (license_header_lines y)).
    apply other_year. exact Hy.
  - assert (E : insertion_point (pre ++ license_header_lines y ++ rest)%list = length pre).
    { rewrite (header_cons y). apply insertion_at; [exact Hp | apply header_first]. }
    unfold add_header. rewrite E, firstn_at, skipn_at. reflexivity.
Qed.

Lemma only_preamble : forall y pre l, Forall preamble pre -> preamble l ->
  content_needs_fix (license_header_lines y) (pre ++ [l])%list = true /\
  add_header y (pre ++ [l])%list = (pre ++ license_header_lines y ++ [l])%list.
Proof.
  intros y pre l Hp Hl. split.
  - rewrite needs_after by (exact Hp || apply header_first). cbn [content_needs_fix]. pose proof (header_first y) as K.
    apply kept_iff in Hl. destruct (String.eqb_spec l (hd "" (license_header_lines y))) as [->|_]; [congruence|]. rewrite Hl. reflexivity.
  - unfold add_header. rewrite insertion_last by assumption.
    rewrite firstn_at, skipn_at. reflexivity.
Qed.
