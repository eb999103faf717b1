(** The file of the RRDP state and the text of the list of ROAs. *)
From Coq Require Import List ZArith Lia Bool String Permutation.
From Verif.Model Require Import Base Str Der NetText Json Output RrdpXml StateFile.
From Verif.Spec Require Import JsonSpec StateSpec.
From Verif.Proofs Require Import StrProofs NetTextProofs OutputProofs JsonStr JsonProofs JsonVal JsonEnc.
Import ListNotations.
Open Scope Z_scope.

(** ** Maps *)
Section Maps.
  Context {A : Type}.
  Implicit Types m l : list (bytes * A).
  Lemma alook_in : forall m k a, NoDup (map fst m) -> In (k, a) m -> alook m k = Some a.
  Proof.
    induction m as [|[k' a'] m IH]; intros k a N I; [destruct I|]. inversion N as [|? ? N1 N2]; subst. cbn [alook map fst] in *.
    destruct (beq k' k) eqn:B.
    - apply beq_eq in B. subst k'. destruct I as [I|I]; [injection I as <-; reflexivity|].
      exfalso. apply N1. apply in_map_iff. exists (k, a). split; [reflexivity|exact I].
    - destruct I as [I|I]; [|apply IH; assumption]. injection I as -> ->. rewrite (proj2 (beq_eq k k) eq_refl) in B. discriminate B.
  Qed.
  Lemma alook_perm : forall m m' k, NoDup (map fst m) -> Permutation m m' -> alook m k = alook m' k.
  Proof.
    intros m m' k N P. assert (N' : NoDup (map fst m')) by (eapply Permutation_NoDup; [apply Permutation_map, P|exact N]).
    assert (AI : forall (x : list (bytes * A)) (a : A), alook x k = Some a -> In (k, a) x).
    { clear. induction x as [|[k' a'] x IH]; intros a H; [discriminate H|]. cbn [alook] in H. destruct (beq k' k) eqn:B.
      - apply beq_eq in B. injection H as ->. left. subst. reflexivity.
      - right. apply IH, H. }
    destruct (alook m k) as [a|] eqn:E.
    - symmetry. apply alook_in; [exact N'|]. eapply Permutation_in; [exact P|]. apply AI, E.
    - destruct (alook m' k) as [a|] eqn:E'; [|reflexivity]. apply AI in E'. apply Permutation_sym in P.
      apply (Permutation_in _ P) in E'. rewrite (alook_in m k a N E') in E. discriminate E.
  Qed.
  Lemma aset_new : forall m k a, ~ In k (map fst m) -> aset m k a = m ++ [(k, a)].
  Proof.
    intros m k a N. unfold aset. f_equal. induction m as [|[k' a'] m IH]; [reflexivity|]. cbn [filter fst map] in *.
    destruct (beq k' k) eqn:B; [apply beq_eq in B; exfalso; apply N; left; exact B|]. cbn [negb]. f_equal. apply IH.
    intro I. apply N. right. exact I.
  Qed.
  Lemma map_look : forall m d, NoDup (map fst m) -> map (fun k => (k, match alook m k with Some i => i | None => d end)) (map fst m) = m.
  Proof.
    intros m d N. rewrite map_map. transitivity (map (fun e => e) m); [|apply map_id]. apply map_ext_in. intros [k a] I. cbn [fst].
    rewrite (alook_in m k a N I). reflexivity.
  Qed.
End Maps.

(** ** One entry *)
Lemma parse_dec : forall z, - 2 ^ 63 <= z < 2 ^ 63 -> RrdpXml.parse_int64 (dec z) = Some z.
Proof.
  intros z H. unfold RrdpXml.parse_int64. destruct (Z_lt_le_dec z 0) as [L|L].
  - rewrite dec_neg by exact L. change (45 =? 45) with true. cbv iota.
    destruct (dec_digits (- z) ltac:(lia)) as (F & NE). destruct (dec (- z)) as [|c d] eqn:E; [contradiction|]. rewrite <- E in *.
    assert (FB : forallb is_digit (dec (- z)) = true) by (apply forallb_forall; rewrite Forall_forall in F; exact F).
    rewrite FB, dec_value by lia. replace (-1 * - z) with z by lia.
    rewrite (proj2 (Z.leb_le _ _)) by lia. rewrite (proj2 (Z.ltb_lt _ _)) by lia. reflexivity.
  - destruct (dec_digits z L) as (F & NE). pose proof (dec_value z L) as V. destruct (dec z) as [|c d] eqn:E; [contradiction|].
    pose proof (Forall_inv F) as C. cbv beta in C. unfold is_digit in C. rewrite andb_true_iff, !Z.leb_le in C.
    rewrite (proj2 (Z.eqb_neq c 45)), (proj2 (Z.eqb_neq c 43)) by lia.
    assert (FB : forallb is_digit (c :: d) = true) by (apply forallb_forall; rewrite Forall_forall in F; exact F).
    rewrite FB, V. replace (1 * z) with z by lia.
    rewrite (proj2 (Z.leb_le _ _)) by lia. rewrite (proj2 (Z.ltb_lt _ _)) by lia. reflexivity.
Qed.
Lemma sf_rsync : forall i ok s, store_field (i, ok) (str "rsync", JStr s) = (mkInfo s (ri_path i) (ri_session i) (ri_serial i), ok && true).
Proof. reflexivity. Qed.
Lemma sf_path : forall i ok s, store_field (i, ok) (str "path", JStr s) = (mkInfo (ri_rsync i) s (ri_session i) (ri_serial i), ok && true).
Proof. reflexivity. Qed.
Lemma sf_session : forall i ok s, store_field (i, ok) (str "sessionid", JStr s) = (mkInfo (ri_rsync i) (ri_path i) s (ri_serial i), ok && true).
Proof. reflexivity. Qed.
Lemma sf_serial : forall i ok v, store_field (i, ok) (str "serial", v) =
  let '(x, o) := store_int v (ri_serial i) in (mkInfo (ri_rsync i) (ri_path i) (ri_session i) x, ok && o).
Proof. reflexivity. Qed.
Lemma info_read : forall i, good_info i -> store_info (info_json i) = (i, true).
Proof.
  intros i (_ & _ & _ & S). unfold info_json, store_info. cbn [fold_left].
  rewrite sf_rsync, sf_path, sf_session, sf_serial. cbn [store_int]. rewrite parse_dec by exact S. destruct i. reflexivity.
Qed.
Lemma str_ascii : forall s, forallb (fun c => (0 <=? c) && (c <? 128)) s = true -> unicode s.
Proof.
  intros s H. apply ascii_unicode. apply Forall_forall. intros c I. rewrite forallb_forall in H. specialize (H c I).
  rewrite andb_true_iff, Z.leb_le, Z.ltb_lt in H. exact H.
Qed.
Lemma info_writable : forall i, good_info i -> writable 1 (info_json i).
Proof.
  intros i (A & B & C & _). apply wr_obj. repeat constructor; cbn [fst snd]; try assumption; try apply dec_number; apply str_ascii; vm_compute; reflexivity.
Qed.

(** ** The file *)
Definition sorted_state (m : list (bytes * rrdp_info)) : list (bytes * rrdp_info) :=
  map (fun k => (k, match alook m k with Some i => i | None => zero_info end)) (sort_lines (map fst m)).
Lemma sorted_perm : forall m, NoDup (map fst m) -> Permutation (sorted_state m) m.
Proof.
  intros m N. unfold sorted_state. eapply Permutation_trans; [apply Permutation_map, sort_perm|].
  rewrite (map_look m zero_info N). apply Permutation_refl.
Qed.
Definition state_json (m : list (bytes * rrdp_info)) : json := JObj (map (fun e => (fst e, info_json (snd e))) m).
Lemma save_eq : forall m, save_text m = enc_json (state_json (sorted_state m)).
Proof. intros m. unfold save_text, state_json, sorted_state. rewrite map_map. reflexivity. Qed.
Lemma state_writable : forall m, good_state m -> writable 2 (state_json m).
Proof.
  intros m (_ & G). apply wr_obj. apply Forall_forall. intros x I. apply in_map_iff in I. destruct I as ([k i] & <- & I).
  destruct (G k i I) as (U & V). split; [exact U|apply info_writable, V].
Qed.
Lemma good_perm : forall m m', Permutation m m' -> good_state m -> good_state m'.
Proof.
  intros m m' P (N & G). split; [eapply Permutation_NoDup; [apply Permutation_map, P|exact N]|].
  intros k i I. apply G. eapply Permutation_in; [apply Permutation_sym, P|exact I].
Qed.
Lemma state_read : forall m, good_state m -> store_map (state_json m) = (Some m, true).
Proof.
  intros m (N & G). unfold store_map, state_json.
  assert (H : forall acc, NoDup (map fst (acc ++ m)) ->
    fold_left (fun st e => let '(i, o) := store_info (snd e) in (aset (fst st) (fst e) i, snd st && o))
      (map (fun e => (fst e, info_json (snd e))) m) (acc, true) = (acc ++ m, true)).
  { clear N. induction m as [|[k i] m IH]; intros acc N; [rewrite app_nil_r; reflexivity|].
    cbn [map fold_left fst snd]. rewrite info_read by (apply (G k i); left; reflexivity). cbn [andb].
    rewrite aset_new.
    - rewrite IH; [rewrite <- app_assoc; reflexivity|intros; apply G; right; assumption|rewrite <- app_assoc; exact N].
    - rewrite map_app in N. cbn [map fst] in N. apply NoDup_remove_2 in N. intro I. apply N. apply in_or_app. left; exact I. }
  rewrite (H []) by exact N. reflexivity.
Qed.

Theorem state_kept : forall m, good_state m -> exists m', load_text (save_text m) = (Some m', true) /\ Permutation m' m.
Proof.
  intros m G. exists (sorted_state m). pose proof (sorted_perm m (proj1 G)) as P. split; [|exact P].
  assert (G' : good_state (sorted_state m)) by (eapply good_perm; [apply Permutation_sym, P|exact G]).
  unfold load_text. rewrite save_eq, (written_read 2) by (try apply state_writable, G'; lia). apply state_read, G'.
Qed.
Theorem save_order : forall m m', NoDup (map fst m) -> Permutation m m' -> save_text m = save_text m'.
Proof.
  intros m m' N P. unfold save_text. rewrite (sort_perm_eq _ _ (Permutation_map fst P)). f_equal. f_equal.
  apply map_ext. intros k. rewrite (alook_perm m m' k N P). reflexivity.
Qed.
Theorem torn_refused : forall m p, good_state m -> written_short p (save_text m) -> load_text p = (Some [], false).
Proof.
  intros m p G (x & NX & E). pose proof (sorted_perm m (proj1 G)) as P.
  assert (G' : good_state (sorted_state m)) by (eapply good_perm; [apply Permutation_sym, P|exact G]).
  unfold load_text. rewrite (prefix_refused 2 (state_json (sorted_state m)) (save_text m) p x); try lia; try assumption; [reflexivity| |].
  - rewrite save_eq. apply written, state_writable, G'.
  - intro H. exact H.
Qed.
Theorem load_total : forall s, parse_json s <> JFuel.
Proof. exact parse_total. Qed.

(** ** The list *)
Lemma has_in : forall l k v, In (str k, v) l -> (forall v', In (str k, v') l -> v' = v) -> has (JObj l) k v.
Proof. intros l k v I U. exists l. auto. Qed.

Ltac one_of := let I := fresh in intros ? I; cbn [In app] in I;
  repeat match type of I with _ \/ _ => destruct I as [I|I] end; try contradiction; inversion I; reflexivity.
Lemma entry_shown : forall r, shows_entry r (roa_json r).
Proof.
  intros r. unfold shows_entry, roa_json. destruct (j_ta r) as [|c t] eqn:T.
  - split; [apply has_in; [cbn [In app]; tauto|one_of]|]. split; [apply has_in; [cbn [In app]; tauto|one_of]|].
    split; [eexists; split; [apply has_in; [cbn [In app]; right; left; reflexivity|one_of]|apply dec_writes]|].
    left. split; [reflexivity|]. eexists; split; [reflexivity|]. intros v I. cbn [In app] in I.
    repeat match type of I with _ \/ _ => destruct I as [I|I] end; try contradiction; inversion I.
  - split; [apply has_in; [cbn [In app]; tauto|one_of]|]. split; [apply has_in; [cbn [In app]; tauto|one_of]|].
    split; [eexists; split; [apply has_in; [cbn [In app]; right; left; reflexivity|one_of]|apply dec_writes]|].
    right. apply has_in; [cbn [In app]; tauto|one_of].
Qed.
Lemma meta_shown : forall m, shows_meta m (meta_json m).
Proof.
  intros m. unfold shows_meta, meta_json, omit_str.
  assert (N : forall l k v, In (str k, v) l -> (forall v', In (str k, v') l -> v' = v) -> forall z, v = JNum (dec z) ->
    exists n, has (JObj l) k n /\ writes z n).
  { intros l k v I U z ->. exists (JNum (dec z)). split; [apply has_in; assumption|apply dec_writes]. }
  split; [|split; [|split; [|split]]].
  - eapply N; [cbn [In app]; left; reflexivity| |reflexivity].
    destruct (m_valid m =? 0), (m_sign m), (m_signdate m); one_of.
  - eapply N; [cbn [In app]; right; left; reflexivity| |reflexivity].
    destruct (m_valid m =? 0), (m_sign m), (m_signdate m); one_of.
  - destruct (Z.eqb_spec (m_valid m) 0) as [V|V].
    + left. split; [exact V|]. eexists; split; [reflexivity|]. intros v I.
      destruct (m_sign m), (m_signdate m); cbn [In app] in I;
        repeat match type of I with _ \/ _ => destruct I as [I|I] end; try contradiction; inversion I.
    + right. eapply N; [cbn [In app]; right; right; left; reflexivity| |reflexivity].
      destruct (m_sign m), (m_signdate m); one_of.
  - destruct (m_sign m) as [|c s] eqn:E.
    + left. split; [reflexivity|]. eexists; split; [reflexivity|]. intros v I.
      destruct (m_valid m =? 0), (m_signdate m); cbn [In app] in I;
        repeat match type of I with _ \/ _ => destruct I as [I|I] end; try contradiction; inversion I.
    + right. apply has_in; [destruct (m_valid m =? 0), (m_signdate m); cbn [In app]; tauto|].
      destruct (m_valid m =? 0), (m_signdate m); one_of.
  - destruct (m_signdate m) as [|c s] eqn:E.
    + left. split; [reflexivity|]. eexists; split; [reflexivity|]. intros v I.
      destruct (m_valid m =? 0), (m_sign m); cbn [In app] in I;
        repeat match type of I with _ \/ _ => destruct I as [I|I] end; try contradiction; inversion I.
    + right. apply has_in; [destruct (m_valid m =? 0), (m_sign m); cbn [In app]; tauto|].
      destruct (m_valid m =? 0), (m_sign m); one_of.
Qed.
Lemma list_shown : forall l, shows_list l (list_json l).
Proof.
  intros l. split.
  - exists (meta_json (l_meta l)). split; [|apply meta_shown]. apply has_in; [cbn [In]; tauto|one_of].
  - exists (map roa_json (l_data l)). split; [apply has_in; [cbn [In]; tauto|one_of]|].
    induction (l_data l) as [|r d IH]; [constructor|]. cbn [map]. constructor; [apply entry_shown|exact IH].
Qed.
Lemma list_writable : forall l, good_list l -> writable 3 (list_json l).
Proof.
  assert (K : forall s, forallb (fun c => (0 <=? c) && (c <? 128)) (str s) = true -> unicode (str s)) by (intros; apply str_ascii; assumption).
  intros l (S1 & S2 & D). apply wr_obj. constructor; [|constructor; [|constructor]]; cbn [fst snd].
  - split; [apply K; reflexivity|]. apply wr_obj.
    repeat match goal with |- Forall _ (_ ++ _) => apply Forall_app; split end.
    + repeat constructor; cbn [fst snd]; try apply dec_number; apply K; reflexivity.
    + destruct (_ =? 0); repeat constructor; cbn [fst snd]; try apply dec_number; apply K; reflexivity.
    + unfold omit_str. destruct (m_sign (l_meta l)) as [|c s]; repeat constructor; cbn [fst snd]; try exact S1; apply K; reflexivity.
    + unfold omit_str. destruct (m_signdate (l_meta l)) as [|c s]; repeat constructor; cbn [fst snd]; try exact S2; apply K; reflexivity.
  - split; [apply K; reflexivity|]. apply wr_arr. apply Forall_forall. intros x I. apply in_map_iff in I. destruct I as (r & <- & I).
    rewrite Forall_forall in D. destruct (D r I) as (U1 & U2 & U3). apply wr_obj. apply Forall_app. split.
    + repeat constructor; cbn [fst snd]; try assumption; try apply dec_number; apply K; reflexivity.
    + destruct (j_ta r) as [|c t]; repeat constructor; cbn [fst snd]; try exact U3; apply K; reflexivity.
Qed.
Theorem list_text : forall l, good_list l -> exists v, shows_list l v /\
  jdocument 3 v (output_text l) /\ jdocument 3 v (served_text l) /\
  (forall n v', Z.of_nat n <= 10000 -> jdocument n v' (output_text l) \/ jdocument n v' (served_text l) -> v' = v).
Proof.
  intros l G. exists (list_json l). split; [apply list_shown|]. pose proof (written 3 _ (list_writable l G)) as W.
  assert (D1 : jdocument 3 (list_json l) (output_text l)).
  { exists [], (output_text l), []. split; [apply ws_nil|]. split; [apply ws_nil|]. split; [exact W|]. rewrite app_nil_r. reflexivity. }
  assert (D2 : jdocument 3 (list_json l) (served_text l)).
  { exists [], (output_text l), [10]. split; [apply ws_nil|]. split; [constructor; [cbn; tauto|constructor]|]. split; [exact W|]. reflexivity. }
  split; [exact D1|]. split; [exact D2|]. intros n v' N [H|H].
  - apply (document_read n v' _ N) in H. apply (document_read 3) in D1; [|lia]. congruence.
  - apply (document_read n v' _ N) in H. apply (document_read 3) in D2; [|lia]. congruence.
Qed.

(** What octorpki puts in a list is ASCII, but for the names of the locators. *)
Lemma ascii_app : forall a b, ascii a -> ascii b -> ascii (a ++ b).
Proof. intros a b A B. apply Forall_app. split; assumption. Qed.

(** ** Rounds *)
Theorem restart : forall m, good_state m -> exists m', Permutation m' m /\
  forall fetch st, do_rrdp fetch st (Some (save_text m)) = do_rrdp fetch (Some m') None.
Proof.
  intros m G. destruct (state_kept m G) as (m' & E & P). exists m'. split; [exact P|]. intros fetch st. unfold do_rrdp. rewrite E. reflexivity.
Qed.
Theorem restart_torn : forall m p, good_state m -> written_short p (save_text m) ->
  forall fetch st, do_rrdp fetch st (Some p) = do_rrdp fetch (Some []) None.
Proof. intros m p G S fetch st. unfold do_rrdp. rewrite (torn_refused m p G S). reflexivity. Qed.
