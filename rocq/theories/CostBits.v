(** * CostBits: what sparse runs of x, cx and Toffoli gates cost. *)
From Coq Require Import List Arith ZArith Lia Permutation.
From Verif Require Import Py Scalar Mat Utils Gates Circuit Spec Calls BitSpec Doubles Lib Kern GateMat GateTof Flow Layers Blocks Refine Run Reversible
  Bits BitRun HistSpec Info InfoLib DepthSpec InfoDepth Exact Csr CsrLib CsrThm Cost CostSpec CostThm CostRun.
Import ListNotations.
Set Implicit Arguments.

Lemma sum_perm : forall l m, Permutation l m -> list_sum l = list_sum m.
Proof. intros l m P. induction P; cbn [list_sum fold_right] in *; unfold list_sum in *; lia. Qed.

Lemma sum_app_map : forall A B (f : A -> list B) (g : B -> nat) l,
  list_sum (map (fun x => list_sum (map g (f x))) l) = list_sum (map g (flat_map f l)).
Proof.
  intros A B f g l; induction l as [|x l IH]; [reflexivity|]. cbn [map flat_map]. rewrite map_app, list_sum_app, <- IH. reflexivity.
Qed.

Lemma NoDup_flat : forall A B (f : A -> list B) d l, (forall x, In x l -> NoDup (f x)) ->
  (forall i j y, i < length l -> j < length l -> In y (f (nth i l d)) -> In y (f (nth j l d)) -> i = j) -> NoDup (flat_map f l).
Proof.
  intros A B f d l; induction l as [|x l IH]; intros H1 H2; [constructor|]. cbn [flat_map].
  assert (X : forall y, In y (f x) -> ~ In y (flat_map f l)).
  { intros y Hy Hl. apply in_flat_map in Hl as [z [Hz Hy']]. apply (In_nth _ _ d) in Hz as [j [Hj Ej]].
    specialize (H2 0 (Datatypes.S j) y). cbn [length nth] in H2. rewrite Ej in H2. specialize (H2 ltac:(lia) ltac:(lia) Hy Hy'). discriminate. }
  assert (Y : NoDup (flat_map f l)).
  { apply IH; [intros z Z; apply H1; right; exact Z|]. intros i j y Hi Hj Yi Yj.
    specialize (H2 (Datatypes.S i) (Datatypes.S j) y). cbn [length nth] in H2. specialize (H2 ltac:(lia) ltac:(lia) Yi Yj). lia. }
  specialize (H1 x (or_introl eq_refl)). clear H2 IH. induction H1 as [|a l' Ha H1 IH']; [exact Y|]. cbn [app]. constructor.
  - intros Hin. apply in_app_or in Hin as [Hin|Hin]; [contradiction|]. apply (X a (or_introl eq_refl) Hin).
  - apply IH'. intros y Hy. apply X. right. exact Hy.
Qed.

Section CostBits.
Variable S : scalar.
Hypothesis BL : bit_laws S.
Notation op := (op S).
Notation moment := (moment S).
Notation KB := (CsrBackend S).
Notation w := (csr_meter S).
Notation CB := (counted w).
Notation fcsr := (@fcsr S).

(** Every column is stored once. *)
Lemma columns_once : forall r c f a, fcsr r c f a -> Permutation (flat_map (fun x => map fst x) (rl a)) (seq 0 c).
Proof.
  intros r c f a [Hok Er Ec Hf Hat]. pose proof Hok as [Hl Hrow].
  assert (K : forall i j, i < r -> In j (map fst (nth i (rl a) [])) -> j < c /\ f j = i).
  { intros i j Hi Hj. pose proof (ok_row i Hok) as [Hn Hb]. apply in_map_iff in Hj as [[j' v] [<- Hj]]. cbn [fst].
    pose proof (Hb _ _ Hj) as Hj'. rewrite Ec in Hj'. split; [exact Hj'|]. specialize (Hat i j' Hi Hj'). unfold at_ in Hat.
    rewrite (@in_stored S _ _ _ Hn Hj) in Hat. destruct (Nat.eqb_spec (f j') i); [assumption | discriminate]. }
  apply NoDup_Permutation; [|apply seq_NoDup|].
  - apply NoDup_flat with (d := []).
    + intros x Hx. apply (Hrow x Hx).
    + intros i j y Hi Hj Yi Yj. assert (Hi' : i < r) by (rewrite <- Er, <- Hl; exact Hi). assert (Hj' : j < r) by (rewrite <- Er, <- Hl; exact Hj). apply K in Yi as [_ <-]; [|exact Hi']. apply K in Yj as [_ <-]; [reflexivity | exact Hj'].
  - intros j. rewrite in_flat_map, in_seq. split.
    + intros [x [Hx Hj]]. apply (In_nth _ _ []) in Hx as [i [Hi <-]]. assert (Hi' : i < r) by (rewrite <- Er, <- Hl; exact Hi). apply K in Hj as [Hj _]; [lia | exact Hi'].
    + intros [_ Hj]. cbn in Hj. exists (nth (f j) (rl a) []). split; [apply nth_In; change (f j < length (rl a)); rewrite Hl, Er; auto|].
      specialize (Hat (f j) j (Hf j Hj) Hj). rewrite Nat.eqb_refl in Hat. apply stored_in in Hat. apply in_map_iff. exists (j, s1). auto.
Qed.

Lemma bits_stored : forall r c f a, fcsr r c f a -> stored_entries a = c.
Proof.
  intros r c f a H. pose proof (columns_once H) as P. apply Permutation_length in P. rewrite seq_length in P. rewrite <- P.
  unfold stored_entries. clear. induction (rl a) as [|x l IH]; [reflexivity|]. cbn [map flat_map]. rewrite app_length, map_length, <- IH. reflexivity.
Qed.

Lemma bits_kron : forall r c f a r' c' f' b, fcsr r c f a -> fcsr r' c' f' b -> in_kron w a b = c * c'.
Proof. intros. cbn. rewrite (bits_stored H), (bits_stored H0). reflexivity. Qed.

Lemma bits_dot : forall r m f a c g b, fcsr r m f a -> fcsr m c g b -> in_dot w a b = c.
Proof.
  intros r m f a c g b Ha Hb. rewrite <- (bits_stored Hb). unfold stored_entries. cbn [in_dot csr_meter].
  transitivity (list_sum (map (fun k => length (nth k (rl b) [])) (flat_map (fun x => map fst x) (rl a)))).
  - rewrite <- sum_app_map. f_equal. apply map_ext. intros x. f_equal. rewrite map_map. apply map_ext. intros [k v]. reflexivity.
  - rewrite (sum_perm (Permutation_map _ (columns_once Ha))). f_equal.
    pose proof (fr_ok Hb) as [Hl _]. rewrite (fr_r Hb) in Hl. rewrite <- Hl. clear.
    induction (rl b) as [|x l IH]; [reflexivity|]. cbn [length seq map nth]. f_equal. rewrite <- seq_shift, map_map. exact IH.
Qed.

Notation FB := (csr_follows BL).
Notation fseg := (@fseg S KB fcsr).
Notation kstep := (fun (acc : res CB) h => a <- acc ;; b <- unitary CB h ;; Ok (b_kron (b := CB) a b)).

Lemma bits_blocks : forall dims l p q n f a k, (forall d, In d dims -> 2 <= d) ->
  fseg dims p l q -> fcsr n n f a -> k <= 2 * n ->
  exists k' a' n' f', fold_left kstep (map (@bo S) (map fst l)) (Ok ((k, 0), a)) = Ok ((k', 0), a') /\
    n' = n * prodn (sub dims p (fwidth l)) /\ fcsr n' n' f' a' /\ k' <= 2 * n'.
Proof.
  intros dims l; induction l as [|x l IH]; intros p q n f a k Hd Hs Ha Hk; cbn [map fold_left].
  - exists k, a, n, f. unfold sub, fwidth. cbn [map Kern.width fold_right firstn]. change (prodn []) with 1. rewrite Nat.mul_1_r. auto.
  - inversion Hs as [|p' b' bs' q' Hb Hs']; subst. pose proof (sub_two Hd (fb_ok Hb)) as H2.
    destruct (fb_u Hb) as [u [Eu [_ Ru]]]. set (m := prodn (sub dims p (bw (fst x)))) in *.
    cbn [bind]. rewrite counted_unitary, Eu. cbn [bind b_kron counted fst snd]. rewrite !Nat.add_0_r. cbn [Nat.add].
    pose proof (fo_kron FB _ _ _ _ _ _ _ _ Ha Ru) as K. rewrite (bits_kron Ha Ru).
    destruct (IH (p + bw (fst x)) q (n * m) _ _ (k + n * m) Hd Hs' K) as [k' [a' [n' [f' [E [En [Sa Hk']]]]]]]; [nia|].
    exists k', a', n', f'. split; [exact E|]. split; [|auto]. subst n'. rewrite <- Nat.mul_assoc. f_equal. unfold m.
    rewrite <- prodn_app. f_equal. change (fwidth (x :: l)) with (bw (fst x) + fwidth l). apply sub_app.
Qed.

Lemma bits_layer : forall dims l, (forall d, In d dims -> 2 <= d) -> dims <> [] -> fseg dims 0 l (length dims) ->
  exists k a f, moment_exec CB (map (@bo S) (map fst l)) = Ok ((k, 0), a) /\ fcsr (prodn dims) (prodn dims) f a /\ k <= 2 * prodn dims.
Proof.
  intros dims l Hd Hne Hs. pose proof (fseg_width Hs) as Hw. destruct l as [|x l].
  - unfold fwidth in Hw. cbn in Hw. destruct dims; [congruence | discriminate].
  - change (fwidth (x :: l)) with (bw (fst x) + fwidth l) in Hw.
    inversion Hs as [|p' b' bs' q' Hb Hs']; subst. cbn [map moment_exec].
    destruct (fb_u Hb) as [u [Eu [_ Ru]]]. rewrite counted_unitary, Eu. cbn [bind].
    destruct (@bits_blocks dims l _ _ _ _ u 0 Hd Hs' Ru ltac:(lia)) as [k [a [n [f [E [En [Sa Hk]]]]]]].
    assert (n = prodn dims) as ->.
    { rewrite En, <- prodn_app. f_equal. rewrite (sub_app dims 0 (bw (fst x)) (fwidth l)).
      unfold sub. apply firstn_all2. cbn [skipn]. lia. }
    exists k, a, f. auto.
Qed.

Lemma bits_init : forall dims init, dims <> [] -> valid dims init ->
  exists k a f, moment_exec CB (init_ops S dims init) = Ok ((k, 0), a) /\ fcsr (prodn dims) 1 f a /\ k < length dims.
Proof.
  intros dims init Hne Hv. unfold init_ops.
  assert (U : forall i, i < length dims -> exists u f, unitary CB (init_op S dims init i) = Ok ((0, 0), u) /\ fcsr (nth i dims 0) 1 f u).
  { intros i Hi. eexists. exists (fun _ => nth i init 0). split; [reflexivity|]. apply (fo_mat FB). constructor; try reflexivity.
    - intros j _. apply (valid_level Hv); assumption.
    - intros r j Hr Hj. rewrite mget_mkmat by assumption. rewrite Nat.eqb_sym. reflexivity. }
  assert (F : forall m i n a k f, i + m <= length dims -> fcsr n 1 f a ->
    exists a' n' f', fold_left kstep (map (init_op S dims init) (seq i m)) (Ok ((k, 0), a)) = Ok ((k + m, 0), a') /\
      n' = n * prodn (sub dims i m) /\ fcsr n' 1 f' a').
  { induction m as [|m IH]; intros i n a k f Hi Ha; cbn [seq map fold_left].
    - exists a, n, f. unfold sub. cbn [firstn]. change (prodn []) with 1. rewrite Nat.mul_1_r, Nat.add_0_r. auto.
    - destruct (U i ltac:(lia)) as [u [g [Eu Su]]]. cbn [bind]. rewrite Eu. cbn [bind b_kron counted fst snd]. rewrite !Nat.add_0_r. cbn [Nat.add].
      pose proof (fo_kron FB _ _ _ _ _ _ _ _ Ha Su) as K. rewrite (bits_kron Ha Su). cbn [Nat.mul Nat.add] in K |- *.
      destruct (IH (Datatypes.S i) _ _ (k + 1) _ ltac:(lia) K) as [a' [n' [f' [E [En Sa]]]]].
      exists a', n', f'. split; [etransitivity; [exact E|]; do 3 f_equal; lia|]. split; [|auto]. subst n'. rewrite <- Nat.mul_assoc. f_equal.
      rewrite (@sub_cons dims i m) by lia. rewrite prodn_cons. reflexivity. }
  destruct dims as [|d ds] eqn:Ed; [congruence|]. rewrite <- Ed in *. replace (length dims) with (Datatypes.S (length ds)) by (rewrite Ed; reflexivity).
  cbn [seq map moment_exec]. destruct (U 0 ltac:(rewrite Ed; cbn; lia)) as [u [g [Eu Su]]]. rewrite Eu. cbn [bind].
  destruct (F (length ds) 1 (nth 0 dims 0) u 0 g) as [a [n [f [E [En Sa]]]]]; [rewrite Ed; cbn; lia | exact Su|].
  assert (n = prodn dims) as ->.
  { rewrite En, Ed. cbn [nth]. rewrite prodn_cons. f_equal. unfold sub. cbn [skipn]. rewrite firstn_all. reflexivity. }
  exists (0 + length ds), a, f. split; [exact E|]. split; [exact Sa | lia].
Qed.

Notation xstep := (fun (acc : res (option CB)) (m : moment) =>
             a <- acc ;; k <- moment_exec CB (m_list m) ;;
             match a with None => Ok (Some k) | Some d => p <- b_dot (b := CB) d k ;; Ok (Some p) end).
Notation flayer := (@flayer_of S KB fcsr).

Section Layers.
Variable dims : list nat.
Variable init : config.
Hypothesis Hd : forall d, In d dims -> 2 <= d.
Hypothesis Hne : dims <> [].
Hypothesis Hv : valid dims init.
Notation N := (prodn dims).

Lemma bits_rest : forall (m0 : moment), m_list m0 = init_ops S dims init ->
  forall ls ms, Forall2 (flayer dims) ms ls ->
  forall a f k d, fcsr N N f a ->
  exists k' a', fold_left xstep (rev (m0 :: ms)) (Ok (Some ((k, d), a))) = Ok (Some ((k', d + length ms * N + 1), a')) /\
    k' <= k + 2 * (length ms * N) + length dims.
Proof.
  intros m0 E0 ls; induction ls as [|l ls IH] using rev_ind; intros ms HF a f k d Ha.
  - inversion HF; subst. cbn [rev app fold_left length Nat.mul]. rewrite E0.
    destruct (bits_init Hne Hv) as [k0 [v [g [Ev [Sv Kv]]]]]. cbn [bind]. rewrite Ev. cbn [bind b_dot counted fst snd].
    destruct (fo_dot FB _ _ _ _ _ _ _ Ha Sv) as [p [Ep _]]. rewrite Ep. cbn [bind]. rewrite (bits_dot Ha Sv).
    eexists _, _. rewrite !Nat.add_0_r. split; [reflexivity|]. lia.
  - apply Forall2_app_inv_r in HF as [ms1 [ms2 [HF1 [HF2 ->]]]].
    inversion HF2 as [|m bs' l1 l2 [Hml Hseg] Hn]; subst. inversion Hn; subst.
    rewrite app_comm_cons, rev_unit. cbn [fold_left bind]. rewrite Hml.
    destruct (bits_layer Hd Hne Hseg) as [k1 [b [g [Eb [Sb Kb]]]]]. rewrite Eb. cbn [bind b_dot counted fst snd].
    destruct (fo_dot FB _ _ _ _ _ _ _ Ha Sb) as [p [Ep Sp]]. rewrite Ep. cbn [bind]. rewrite (bits_dot Ha Sb), Nat.add_0_r.
    destruct (IH ms1 HF1 p _ (k + k1) (d + N) Sp) as [k' [a' [E Kk]]].
    exists k', a'. rewrite app_length. cbn [length]. split; [etransitivity; [exact E|]; do 4 f_equal; lia | lia].
Qed.

Lemma bits_all : forall (m0 : moment) ls ms, m_list m0 = init_ops S dims init -> Forall2 (flayer dims) ms ls ->
  exists k a, fold_left xstep (rev (m0 :: ms)) (Ok None)
              = Ok (Some ((k, match length ms with 0 => 0 | Datatypes.S n => n * N + 1 end), a)) /\
    k <= 2 * (length ms * N) + length dims.
Proof.
  intros m0 ls ms E0 HF. destruct (snoc_cases ms) as [->|[ms' [m ->]]].
  - cbn [rev app fold_left bind]. rewrite E0. destruct (bits_init Hne Hv) as [k0 [v [g [Ev [Sv Kv]]]]]. rewrite Ev. cbn [bind].
    eexists _, _. split; [reflexivity|]. cbn [length]. lia.
  - apply Forall2_snoc_l in HF as [ls' [l [-> [HF [Hml Hseg]]]]].
    rewrite app_comm_cons, rev_unit. cbn [fold_left bind]. rewrite Hml.
    destruct (bits_layer Hd Hne Hseg) as [k1 [b [g [Eb [Sb Kb]]]]]. rewrite Eb. cbn [bind].
    destruct (bits_rest m0 E0 HF k1 0 Sb) as [k [a [E Kk]]].
    exists k, a. rewrite app_length. cbn [length]. replace (length ms' + 1) with (Datatypes.S (length ms')) by lia. split; [exact E | lia].
Qed.
End Layers.

(** A run of a reversible program; the layers are counted in [ls]. *)
Lemma bits_layers : forall dims levels out ks prog (c : circuit S),
  dims <> [] -> (forall d, In d dims -> 2 <= d) ->
  length levels <= length dims -> valid dims (start dims levels) ->
  Forall2 (denotes dims) ks prog -> Forall (gate_ok dims) prog -> forallb (@is_classical S) prog = true ->
  history (QList (map Z.of_nat dims)) (Some (map Z.of_nat levels)) out (ks ++ [CMeasureAll]) c ->
  exists m0 ms mm ls, forallb (fun b => b) (f_meas (c_flow c)) = true /\
    f_list (c_flow c) = (m0 :: ms) ++ [mm] /\ m_list m0 = init_ops S dims (start dims levels) /\ Forall2 (flayer dims) ms ls.
Proof.
  intros dims levels out ks prog c Hne Hd Hlen Hv HF Hok Hcl [c0 [E0 ->]].
  assert (Hpos : forall d, In d dims -> 0 < d) by (intros d X; specialize (Hd d X); lia).
  destruct (@mk_circuit_good S dims levels out Hd Hlen Hv) as [c0' [E0' [Hg0 _]]]. rewrite E0 in E0'. injection E0' as <-.
  assert (Hf0 : fgood KB fcsr dims (start dims levels) [] c0).
  { destruct Hg0 as [H1 H2 [m0 [ms [El [Em0 HF0]]]]]. constructor; auto. exists m0, ms. inversion HF0; subst. auto. }
  destruct (fscript BL FB Hne Hpos Hv HF Hok Hcl Hf0) as [c1 [ls [E1 [Hg1 _]]]].
  pose proof (script_after _ _ E1) as A1.
  destruct (measure_all_good Hne (fgood_good Hg1)) as [c' [before [last [mm [Eapi [_ [Elast [Efl Em]]]]]]]].
  assert (after c0 (ks ++ [CMeasureAll]) = c') as ->.
  { unfold after in *. rewrite fold_left_app, A1. cbn [fold_left]. unfold step. rewrite Eapi. reflexivity. }
  destruct Hg1 as [Hsh Hmeas [m0 [ms [El [Em0 HF1]]]]].
  rewrite El in Elast. destruct before as [|x before]; injection Elast as E2 E3.
  - subst last ms. eexists _, [], _, ls. split; [exact Em|]. split; [rewrite Efl; reflexivity|]. cbn [set_next m_list]. auto.
  - subst x ms. exists m0, (before ++ [set_next (length (f_list (c_flow c1))) last]), mm, ls.
    split; [exact Em|]. split; [rewrite Efl; cbn; rewrite <- app_assoc; reflexivity|]. split; [exact Em0|].
    apply Forall2_snoc_l in HF1 as [bss0 [bs [-> [HF2 HF3]]]]. apply Forall2_app; [exact HF2|]. constructor; [exact HF3 | constructor].
Qed.
End CostBits.

Section Exact.
Variable S : scalar.
Hypothesis L : scalar_laws S.

Theorem bits_cost : forall dims levels out ks prog (c : circuit S),
  dims <> [] -> (forall d, In d dims -> 2 <= d) ->
  length levels <= length dims -> valid dims (start dims levels) ->
  Forall2 (denotes dims) ks prog -> Forall (gate_ok dims) prog -> forallb (@is_classical S) prog = true ->
  history (QList (map Z.of_nat dims)) (Some (map Z.of_nat levels)) out (ks ++ [CMeasureAll]) c ->
  let N := prodn dims in let D := layering (fun _ => true) prog in
  exists k, run_cost (csr_meter S) c = Ok (k, match D with 0 => 0 | Datatypes.S n => n * N + 1 end) /\ k <= 2 * (D * N) + length dims.
Proof.
  intros dims levels out ks prog c Hne Hd Hlen Hv HF Hok Hcl Hh N D.
  destruct (@program_layers S L dims levels out ks prog c Hne Hd Hlen Hv HF Hok Hh) as [m0 [ms [mm [bss [_ [El [_ [_ Hn]]]]]]]].
  destruct (@bits_layers S (@exact_bits S L) dims levels out ks prog c Hne Hd Hlen Hv HF Hok Hcl Hh) as [m0' [ms' [mm' [ls [Em [El' [E0 HL]]]]]]].
  rewrite El in El'. apply app_inj_tail in El' as [El' <-]. injection El' as <- <-.
  destruct (bits_all (@exact_bits S L) Hd Hne Hv m0 E0 HL) as [k [a [E Hk]]]. fold D in Hn. rewrite Hn in E, Hk.
  exists k. split; [|exact Hk]. unfold run_cost, flow_exec. rewrite Em, El, rev_unit, E. reflexivity.
Qed.
End Exact.
