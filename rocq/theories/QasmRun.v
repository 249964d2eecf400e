(** * QasmRun: running the circuit of a text (C37, C39, C40). *)
From Coq Require Import String Ascii.
From Verif Require Import Py Scalar Mat Utils Gates Circuit Spec Calls HistSpec CallSpec Lib Flow History Construct BadGates Refine Exact Reversible
  Qasm QasmSpec RegexLib QasmLib.
Set Implicit Arguments.
Local Notation length := List.length.
Local Notation T s := (lit s%string).

Section Run.
Variable S : scalar.
Notation circuit := (circuit S).
Notation call := (call S).

Lemma call_all_script : forall ks (c : circuit), call_all c ks = script c ks.
Proof.
  induction ks as [|k ks IH]; intro c; [reflexivity|]. unfold call_all in *. cbn [fold_left bind script].
  destruct (api c k) as [[c' b]|e]; cbn [bind]; [apply IH|]. clear. induction ks as [|k ks IH]; [reflexivity | exact IH].
Qed.

Lemma built_run : forall (B : backend S) dims ks, (c <- built dims ks ;; run B c) = simulate B (QList (map Z.of_nat dims)) (Some []) None ks.
Proof.
  intros B dims ks. unfold built, simulate.
  change (mk_circuit S (QList (map Z.of_nat dims)) None None) with (mk_circuit S (QList (map Z.of_nat dims)) (Some []) None).
  destruct (mk_circuit S _ (Some []) None) as [c|e]; [|reflexivity]. cbn [bind]. rewrite call_all_script. reflexivity.
Qed.

Lemma built_history : forall dims ks (c : circuit), built dims ks = Ok c -> history (QList (map Z.of_nat dims)) None None (ks ++ [CMeasureAll]) c.
Proof.
  intros dims ks c H. unfold built in H. apply bind_ok in H as [c0 [E H]]. rewrite call_all_script in H. apply script_after in H.
  exists c0. split; [exact E | symmetry; exact H].
Qed.

Lemma raised_nth : forall dims (ks : list call) r, r < length dims -> nth r (raised dims ks) 0 = nth r dims 0 + (if existsb (raises r) ks then 1 else 0).
Proof.
  intros dims ks r Hr. unfold raised.
  assert (G : forall k r, r < length dims -> nth r (map (fun '(i, d) => if existsb (raises i) ks then d + 1 else d) (combine (seq k (length dims)) dims)) 0
            = nth r dims 0 + (if existsb (raises (k + r)) ks then 1 else 0)).
  { clear. induction dims as [|d dims IH]; intros k r H; [inversion H|]. destruct r as [|r]; cbn [length seq combine map nth].
    - rewrite Nat.add_0_r. destruct (existsb (raises k) ks); lia.
    - rewrite IH by (cbn in H; lia). replace (Datatypes.S k + r) with (k + Datatypes.S r) by lia. reflexivity. }
  apply (G 0 r Hr).
Qed.

Lemma raised_length : forall dims (ks : list call), length (raised dims ks) = length dims.
Proof. intros dims ks. unfold raised. rewrite map_length, combine_length, seq_length. lia. Qed.

Lemma made_no_measure : forall ls os, Forall2 (@line_call S) ls os -> ~ In CMeasureAll (made os).
Proof.
  intros ls os H; induction H as [|l o ls os Hl H IH]; [intros []|]. rewrite made_cons. intro I. apply in_app_iff in I as [I|I]; [|exact (IH I)].
  destruct Hl; cbn in I; try (destruct I as [I|[]]; discriminate I); destruct I.
Qed.

(** A call that is accepted and makes every run fail. *)
Lemma built_never : forall dims ks1 k ks2 (B : backend S),
  (forall c, history (QList (map Z.of_nat dims)) None None ks1 c -> accepted_but_never_runs c k) ->
  exists e, (c <- built dims (ks1 ++ k :: ks2) ;; run B c) = Err e.
Proof.
  intros dims ks1 k ks2 B H. destruct (built dims (ks1 ++ k :: ks2)) as [c|e] eqn:E; [|exists e; reflexivity]. cbn [bind].
  unfold built in E. apply bind_ok in E as [c0 [E0 E]]. rewrite call_all_script, <- app_assoc, script_app in E.
  apply bind_ok in E as [c1 [E1 E]]. destruct (H c1) as [c2 [A N]].
  { exists c0. split; [exact E0 | symmetry; apply script_after; exact E1]. }
  cbn [app script] in E. rewrite A in E. cbn [bind] in E. apply script_after in E. rewrite <- E. apply N.
Qed.

(** ** Every list of such calls has a text *)
Lemma numeral_of : forall n, exists s, numeral s n.
Proof.
  intro n. induction n as [n IH] using (well_founded_induction lt_wf). destruct (Nat.lt_ge_cases n 10) as [H|H].
  - exists [digit n]. constructor. exact H.
  - destruct (IH (n / 10)) as [s Hs]; [apply Nat.div_lt; lia|]. exists (s ++ [digit (n mod 10)]).
    rewrite (Nat.div_mod n 10) at 2 by lia. apply num_more; [exact Hs | apply Nat.mod_upper_bound; lia].
Qed.

Lemma integer_of : forall v, exists s, integer s v.
Proof.
  intro v. destruct (numeral_of (Z.to_nat (Z.abs v))) as [s Hs]. destruct (Z_le_gt_dec 0 v).
  - exists s. replace v with (Z.of_nat (Z.to_nat (Z.abs v))) by lia. constructor. exact Hs.
  - exists ("-"%char :: s). replace v with (- Z.of_nat (Z.to_nat (Z.abs v)))%Z by lia. constructor. exact Hs.
Qed.

Definition inkless (l : text) : Prop := ~ In nlc l /\ ~ In "."%char l.

Lemma inkless_app : forall a b, inkless a -> inkless b -> inkless (a ++ b).
Proof. intros a b [A1 A2] [B1 B2]. split; intro I; apply in_app_iff in I as [I|I]; auto. Qed.
Lemma inkless_num : forall s n, numeral s n -> inkless s.
Proof. intros s n H. destruct (numeral_facts H) as [_ [D _]]. split; (eapply digits_no; [exact D | reflexivity]). Qed.
Lemma inkless_int : forall s n, integer s n -> inkless s.
Proof.
  intros s n H. destruct H as [s n H|s n H|s n H]; apply inkless_num in H; [exact H| |].
  - apply (@inkless_app ["+"%char]); [|exact H]. split; intros [I|[]]; discriminate I.
  - apply (@inkless_app ["-"%char]); [|exact H]. split; intros [I|[]]; discriminate I.
Qed.
Lemma inkless_lit : forall s, forallb (fun c => negb (Ascii.eqb c nlc) && negb (Ascii.eqb c ".")) (lit s) = true -> inkless (lit s).
Proof.
  intros s H. rewrite forallb_forall in H.
  split; intro I; apply H in I; cbn in I; discriminate I.
Qed.
Lemma inkless_quiet : forall l, inkless l -> quiet l.
Proof.
  intros l [N D]. split; [exact N|]. split.
  - intros [a [b ->]]. apply D. apply in_app_iff. right. left. reflexivity.
  - intros [b ->]. apply D. left. reflexivity.
Qed.

Lemma write_call : forall k, writable k -> exists l, @line_call S l (Some k) /\ quiet l.
Proof.
  intros k H. destruct H as [r p|r|r|a b p|a b t].
  - destruct (numeral_of r) as [s Hs], (integer_of p) as [u Hu]. exists (T "X x" ++ s ++ T " " ++ u). split; [apply lc_x_plus; assumption|].
    apply inkless_quiet. repeat apply inkless_app; try (apply inkless_lit; reflexivity); [eapply inkless_num | eapply inkless_int]; eauto.
  - destruct (numeral_of r) as [s Hs]. exists (T "H x" ++ s). split; [apply lc_h; assumption|].
    apply inkless_quiet. repeat apply inkless_app; try (apply inkless_lit; reflexivity); eapply inkless_num; eauto.
  - destruct (numeral_of r) as [s Hs]. exists (T "Z x" ++ s). split; [apply lc_z; assumption|].
    apply inkless_quiet. repeat apply inkless_app; try (apply inkless_lit; reflexivity); eapply inkless_num; eauto.
  - destruct (numeral_of a) as [s Hs], (numeral_of b) as [u Hu], (numeral_of p) as [v Hv]. exists (T "CX" ++ T " x" ++ s ++ T " x" ++ u ++ T " " ++ v). split.
    + replace (Z.of_nat p) with (Z.abs (Z.of_nat p)) by lia. apply lc_cx_plus; [left; reflexivity | assumption | assumption | constructor; assumption].
    + apply inkless_quiet. repeat apply inkless_app; try (apply inkless_lit; reflexivity); eapply inkless_num; eauto.
  - destruct (numeral_of a) as [s Hs], (numeral_of b) as [u Hu], (numeral_of t) as [v Hv].
    exists (T "Toffoli x" ++ s ++ T ", " ++ T "x" ++ u ++ T ", " ++ T "x" ++ v). split.
    + assert (Hc : separator (T ", ")) by (split; [discriminate | constructor; [left; reflexivity | constructor; [right; reflexivity | constructor]]]).
      apply lc_toffoli; assumption.
    + apply inkless_quiet. repeat apply inkless_app; try (apply inkless_lit; reflexivity); eapply inkless_num; eauto.
Qed.

Lemma write_calls : forall ks, Forall (@writable S) ks -> exists ls, Forall2 (@line_call S) ls (map Some ks) /\ Forall quiet ls.
Proof.
  intros ks H; induction H as [|k ks Hk H [ls [F Q]]]; [exists []; split; constructor|].
  destruct (write_call Hk) as [l [Hl Hq]]. exists (l :: ls). split; constructor; assumption.
Qed.

Lemma write_dims : forall dims, exists ls, Forall2 declares ls (map (fun d => [d]) dims) /\ Forall quiet ls.
Proof.
  induction dims as [|d dims [ls [F Q]]]; [exists []; split; constructor|].
  destruct (numeral_of d) as [s Hs]. exists ((T "qudit x" ++ [digit 0] ++ T " (" ++ s ++ T ")" ++ []) :: ls). split; constructor; try assumption.
  - apply dc_qudit with (n := 0); [constructor; lia | exact Hs | constructor].
  - apply inkless_quiet. repeat apply inkless_app; try (apply inkless_lit; reflexivity); [|eapply inkless_num; eauto|].
    + eapply inkless_num. constructor. lia.
    + split; intros [].
Qed.

Lemma made_some : forall ks : list call, made (map Some ks) = ks.
Proof. induction ks as [|k ks IH]; [reflexivity|]. cbn [map]. rewrite made_cons, IH. reflexivity. Qed.

Lemma concat_single : forall A (l : list A), concat (map (fun d => [d]) l) = l.
Proof. intros A l; induction l as [|x l IH]; [reflexivity|]. cbn. f_equal. exact IH. Qed.

Theorem every_text : forall dims ks, Forall (@writable S) ks ->
  exists d, well_formed d /\ Forall2 declares (d_decls d) (map (fun d => [d]) dims) /\ Forall2 (@line_call S) (d_gates d) (map Some ks).
Proof.
  intros dims ks H. destruct (write_calls H) as [gs [Fg Qg]], (write_dims dims) as [ds [Fd Qd]].
  exists {| d_head := [[]]; d_kind := "qudit"; d_count := [digit 0]; d_blank := []; d_decls := ds; d_blank2 := []; d_gates := gs; d_blank3 := []; d_foot := [] |}.
  split; [|split; assumption]. constructor; cbn [d_head d_kind d_count d_blank d_decls d_blank2 d_gates d_blank3 d_foot]; auto.
  - discriminate.
  - constructor; [|constructor]. apply inkless_quiet. split; intros [].
  - left. reflexivity.
  - exists 0. constructor. lia.
  - constructor.
  - constructor.
  - constructor.
Qed.

(** ** The AND of two qubits *)
Lemma and_moves : forall n a b t, a < n -> b < n -> t < n -> a <> b -> a <> t -> b <> t ->
  forall dims, length dims = n -> (forall r, r < n -> nth r dims 0 = 2 + (if Nat.eqb r b then 1 else 0)) ->
  moves dims [GX (S := S) a 1; GX b 1; GTof [a; b] t 1] (repeat 0 n) = map (fun r => if Nat.eqb r a || Nat.eqb r b then 1 else 0) (seq 0 n).
Proof.
  intros n a b t Ha Hb Ht Hab Hat Hbt dims Hl Hd. cbn [moves move]. unfold move_tof, move_x.
  assert (L0 : forall r, level (repeat 0 n) r = 0) by (intro r; unfold level; destruct (nth_in_or_default r (repeat 0 n) 0) as [I|E]; [apply repeat_spec in I; exact I | exact E]).
  assert (Sa : shift (nth a dims 0) (level (repeat 0 n) a) 1 = 1).
  { rewrite L0, Hd by exact Ha. replace (Nat.eqb a b) with false by (symmetry; apply Nat.eqb_neq; exact Hab). reflexivity. }
  rewrite Sa. set (s1 := put (repeat 0 n) a 1).
  assert (Len1 : length s1 = n) by (unfold s1; rewrite put_length, repeat_length; reflexivity).
  assert (Lb : level s1 b = 0).
  { unfold s1. rewrite level_put by (rewrite repeat_length; exact Ha). rewrite L0. destruct (Nat.eqb_spec b a); [congruence | reflexivity]. }
  rewrite Lb. assert (Sb : shift (nth b dims 0) 0 1 = 1) by (rewrite Hd by exact Hb; rewrite Nat.eqb_refl; reflexivity). rewrite Sb.
  set (s2 := put s1 b 1).
  assert (L2 : forall r, level s2 r = if Nat.eqb r b then 1 else if Nat.eqb r a then 1 else 0).
  { intro r. unfold s2. rewrite level_put by (rewrite Len1; exact Hb). destruct (Nat.eqb r b); [reflexivity|].
    unfold s1. rewrite level_put by (rewrite repeat_length; exact Ha). rewrite L0. reflexivity. }
  assert (Tb : top dims s2 b = false).
  { unfold top. rewrite L2, Hd by exact Hb. rewrite Nat.eqb_refl. reflexivity. }
  cbn [forallb]. rewrite Tb, Bool.andb_false_r.
  apply nth_ext with (d := 0) (d' := 0).
  - unfold s2. rewrite put_length, Len1, map_length, seq_length. reflexivity.
  - intros r Hr. unfold s2 in Hr. rewrite put_length, Len1 in Hr. change (nth r s2 0) with (level s2 r). rewrite L2.
    rewrite nth_indep with (d' := (fun r => if Nat.eqb r a || Nat.eqb r b then 1 else 0) 0) by (rewrite map_length, seq_length; exact Hr).
    rewrite (map_nth (fun r => if Nat.eqb r a || Nat.eqb r b then 1 else 0)), seq_nth by exact Hr. cbn [Nat.add].
    destruct (Nat.eqb r a), (Nat.eqb r b); reflexivity.
Qed.
End Run.

Section More.
Variable S : scalar.
Notation call := (call S).

Lemma raises_exists : forall os ls r, Forall2 (@line_call S) ls os ->
  existsb (raises r) (made os) = true <-> exists a t, In (CTof [a; Z.of_nat r] t 1) (made os).
Proof.
  intros os ls r H. rewrite existsb_exists. split.
  - intros [k [I R]]. induction H as [|l o ls os Hl H IH]; [destruct I|]. rewrite made_cons in *. apply in_app_iff in I as [I|I].
    + destruct Hl; cbn in I; try (destruct I as [<-|[]]; discriminate R); [|destruct I].
      destruct I as [<-|[]]. cbn in R. apply Z.eqb_eq in R. exists (Z.of_nat n), (Z.of_nat k0). apply in_app_iff. left. left. rewrite R. reflexivity.
    + destruct (IH I) as [a [t J]]. exists a, t. apply in_app_iff. right. exact J.
  - intros [a [t I]]. exists (CTof [a; Z.of_nat r] t 1). split; [exact I|]. cbn. apply Z.eqb_refl.
Qed.

Theorem raised_dims : forall d dss os c, well_formed d -> Forall2 declares (d_decls d) dss -> Forall2 (@line_call S) (d_gates d) os ->
  circuit_from_qasm S (text_of d) = Ok c ->
  length (c_dims c) = length (concat dss) /\
  forall r, r < length (concat dss) ->
    ((exists a t, In (CTof [a; Z.of_nat r] t 1) (made os)) -> nth r (c_dims c) 0%Z = (Z.of_nat (nth r (concat dss) O) + 1)%Z) /\
    (~ (exists a t, In (CTof [a; Z.of_nat r] t 1) (made os)) -> nth r (c_dims c) 0%Z = Z.of_nat (nth r (concat dss) O)).
Proof.
  intros d dss os c W D G E. rewrite (read_text W D G) in E. apply built_history in E. destruct (history_layout E) as [_ [_ [-> _]]].
  rewrite map_length, raised_length. split; [reflexivity|]. intros r Hr. change 0%Z with (Z.of_nat 0). rewrite map_nth, raised_nth by exact Hr.
  rewrite <- (raises_exists r G). split; intro H.
  - rewrite H. lia.
  - destruct (existsb (raises r) (made os)); [congruence | lia].
Qed.

Lemma rx_call : forall ls os s r, Forall2 (@line_call S) ls os -> In (T "RX x" ++ s ++ T " 180") ls -> numeral s r ->
  exists ks1 ks2, made os = ks1 ++ CX (Z.of_nat r) None 180 :: ks2 /\ ~ In CMeasureAll ks1.
Proof.
  intros ls os s r H I Hs. pose proof (made_no_measure H) as N.
  assert (J : In (CX (Z.of_nat r) None 180) (made os)).
  { clear N. induction H as [|l o ls os Hl H IH]; [destruct I|]. rewrite made_cons. apply in_app_iff. destruct I as [->|I]; [left | right; auto].
    pose proof (line_read Hl) as E1. unfold lit in E1; rewrite (line_read (lc_rx S Hs)) in E1. injection E1 as <-. left. reflexivity. }
  apply in_split in J as [ks1 [ks2 E]]. exists ks1, ks2. split; [exact E|]. intro I'. apply N. rewrite E. apply in_app_iff. left. exact I'.
Qed.

Theorem and_of_qubits : scalar_laws S -> forall (B : backend S) n a b t,
  (forall q init out ks, simulate B q init out ks = simulate (NumpyBackend S) q init out ks) ->
  a < n -> b < n -> t < n -> a <> b -> a <> t -> b <> t ->
  let ks := [CX (Z.of_nat a) None 1; CX (Z.of_nat b) None 1; CTof [Z.of_nat a; Z.of_nat b] (Z.of_nat t) 1] in
  simulate B (QList (map Z.of_nat (raised (repeat 2 n) ks))) (Some []) None ks
  = Ok [(shown OutPrint (map (fun r => if Nat.eqb r a || Nat.eqb r b then 1 else 0) (seq 0 n)), s1)].
Proof.
  intros L B n a b t HB Ha Hb Ht Hab Hat Hbt ks. rewrite HB. set (dims := raised (repeat 2 n) ks).
  assert (Hl : length dims = n) by (unfold dims; rewrite raised_length, repeat_length; reflexivity).
  assert (Hd : forall r, r < n -> nth r dims 0 = 2 + (if Nat.eqb r b then 1 else 0)).
  { intros r Hr. unfold dims. rewrite raised_nth by (rewrite repeat_length; exact Hr).
    replace (nth r (repeat 2 n) 0) with 2 by (rewrite nth_indep with (d' := 2) by (rewrite repeat_length; exact Hr); symmetry; apply nth_repeat).
    unfold ks. cbn [existsb raises orb]. rewrite Bool.orb_false_r.
    destruct (Z.eqb_spec (Z.of_nat b) (Z.of_nat r)), (Nat.eqb_spec r b); lia. }
  rewrite <- (and_moves S Ha Hb Ht Hab Hat Hbt dims Hl Hd).
  change (Some []) with (Some (map Z.of_nat [])).
  rewrite (@simulate_reversible S L dims [] None OutPrint OutAmplitude ks [GX a 1; GX b 1; GTof [a; b] t 1]).
  - unfold start. cbn [app length]. rewrite Hl, Nat.sub_0_r. reflexivity.
  - intros ->. cbn in Hl. lia.
  - intros d Hin. apply In_nth with (d := 0) in Hin as [r [Hr <-]]. rewrite Hd by lia. lia.
  - cbn. lia.
  - unfold start. cbn [app length]. rewrite Hl, Nat.sub_0_r. unfold valid. clear - Hl Hd.
    assert (G : Forall (fun d => 0 < d) dims).
    { apply Forall_forall. intros d Hin. apply In_nth with (d := 0) in Hin as [r [Hr <-]]. rewrite Hd by lia. lia. }
    clear Hd. rewrite <- Hl. clear Hl. clearbody dims. induction G; cbn; constructor; assumption.
  - right; auto.
  - unfold ks. constructor; [constructor; left; reflexivity|]. constructor; [constructor; left; reflexivity|].
    constructor; [|constructor]. apply (@den_tof S dims [a; b] t 1%Z).
  - assert (X : forall r, r < n -> gate_ok dims (GX (S := S) r 1)) by (intros r Hr; split; [lia | rewrite Hd by exact Hr; destruct (Nat.eqb r b); cbn; lia]).
    constructor; [apply X; exact Ha|]. constructor; [apply X; exact Hb|]. constructor; [|constructor].
    split; [intros c [<-|[<-|[]]]; lia|]. split; [lia|]. split; [intros [E|[E|[]]]; congruence|].
    intros [lo [_ [_ F]]]. assert (Fa := F a ltac:(simpl; auto)). assert (Fb := F b ltac:(simpl; auto)). assert (Ft := F t ltac:(simpl; auto)). lia.
  - reflexivity.
Qed.
End More.
