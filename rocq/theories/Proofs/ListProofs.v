(** Facts about finished lists: counts, tags, signatures. *)
From Coq Require Import Lia String Permutation.
From Verif.Model Require Import Base NetIP CertRes Roa Str Tal Validator TalText NetText Output.
From Verif.Spec Require Import Addr Resources Bits Trust Canon OutputSpec.
From Verif.Proofs Require Import NetIPProofs StrProofs NetTextProofs OutputProofs ExportProofs.

Lemma hexd_inj : forall a b, 0 <= a < 16 -> 0 <= b < 16 -> hexd a = hexd b -> a = b.
Proof.
  intros a b A B H. destruct (hexd_facts a A) as [_ <-]. destruct (hexd_facts b B) as [_ <-]. congruence.
Qed.
Lemma hexs_inj a : forall b, bytes_ok a = true -> bytes_ok b = true -> hexs a = hexs b -> a = b.
Proof.
  induction a as [|x a IH]; intros [|y b] A B H; try discriminate; [reflexivity|].
  cbn [hexs] in H. injection H as H1 H2 H3.
  unfold bytes_ok in A, B. cbn [forallb] in A, B. apply andb_true_iff in A as [A1 A2], B as [B1 B2].
  unfold byte_ok in *. apply andb_true_iff in A1, B1.
  assert (0 <= x < 256) by lia. assert (0 <= y < 256) by lia.
  apply hexd_inj in H1; [|split; [apply Z.div_pos|apply Z.div_lt_upper_bound]; lia..].
  apply hexd_inj in H2; [|apply Z.mod_pos_bound; lia..].
  rewrite (IH b A2 B2 H3). f_equal. rewrite (Z.div_mod x 16), (Z.div_mod y 16) by lia. congruence.
Qed.

(** * Counts *)
Lemma filter_all {A} (f : A -> bool) l : filter f l = l <-> forall x, In x l -> f x = true.
Proof.
  induction l as [|a l IH]; cbn [filter]; [split; [contradiction|reflexivity]|].
  destruct (f a) eqn:E.
  - split.
    + intros H x [<-|I]; [assumption|]. injection H as H. now apply IH.
    + intros H. f_equal. apply IH. intros x I. apply H. now right.
  - split; [|intros H; rewrite (H a (or_introl eq_refl)) in E; discriminate].
    intros H. exfalso. assert (length (filter f l) = length (a :: l)) as L by now rewrite H.
    cbn [length] in L. assert (length (filter f l) <= length l)%nat; [|lia].
    clear. induction l as [|b l IH]; cbn [filter length]; [lia|]. destruct (f b); cbn [length]; lia.
Qed.
Lemma filter_subseq {A} (f : A -> bool) l : subseq (filter f l) l.
Proof. induction l as [|a l IH]; cbn [filter]; [constructor|]. destruct (f a); constructor; exact IH. Qed.

Lemma finish_counts filt data now d L : finish_list filt data now d = Ret L ->
  (forall r, In r data -> ~ In 47 (j_asn r)) ->
  m_counts (l_meta L) = Z.of_nat (length data) /\ m_generated (l_meta L) = now /\ m_valid (l_meta L) = now + d /\
  subseq (l_data L) data /\ NoDup (map vrp (l_data L)) /\
  (m_counts (l_meta L) = Z.of_nat (length (l_data L)) <->
   NoDup (map vrp data) /\ (filt = true -> forall r, In r data -> kept r = true)).
Proof.
  unfold finish_list. intros H S.
  assert (exists x, (if filt then filter_prefix_len (filter_duplicates data) else Ret data) = Ret x) as (x & X).
  { destruct (if filt then _ else _); [eauto|discriminate]. }
  rewrite X in H. cbn [gbind] in H. assert (L = mkList (mkMeta (Z.of_nat (length data)) now (now + d) [] []) (filter_duplicates x)) as -> by congruence.
  cbn [l_meta l_data m_counts m_generated m_valid]. split; [reflexivity|]. split; [reflexivity|]. split; [reflexivity|].
  destruct (filter_duplicates_spec data S) as (A1 & A2 & A3 & A4).
  assert (SX : subseq x data).
  { destruct filt; [|assert (x = data) as -> by congruence].
    - apply filter_prefix_len_data in X. subst x. eapply subseq_trans; [apply filter_subseq|exact A1].
    - clear. induction data; constructor; assumption. }
  assert (S' : forall r, In r x -> ~ In 47 (j_asn r)) by (intros r I; apply S; exact (subseq_in _ _ SX _ I)).
  destruct (filter_duplicates_spec x S') as (B1 & B2 & B3 & B4).
  pose proof (subseq_trans _ _ _ B1 SX) as SL. split; [exact SL|]. split; [exact B2|]. split.
  - intros E. apply Nat2Z.inj in E. pose proof (subseq_same _ _ SL (eq_sym E)) as Q.
    split; [now rewrite <- Q|]. intros -> r I. apply filter_prefix_len_data in X. subst x.
    rewrite <- Q in I. apply (subseq_in _ _ B1) in I. now apply filter_In in I as [_ K].
  - intros [N K]. f_equal. destruct filt; [|assert (x = data) as -> by congruence].
    + apply filter_prefix_len_data in X. rewrite (nodup_kept data S N) in X.
      assert (x = data) as -> by (rewrite X; apply filter_all; auto). now rewrite nodup_kept.
    + now rewrite nodup_kept.
Qed.

Lemma generated_counts filt names paths tals now d L : generate_list filt names paths tals now d = Ret L ->
  exists data, export_tals names paths 0 tals = Ret data /\
  m_counts (l_meta L) = Z.of_nat (length data) /\ m_generated (l_meta L) = now /\ m_valid (l_meta L) = now + d /\
  subseq (l_data L) data /\ NoDup (map vrp (l_data L)) /\
  (m_counts (l_meta L) = Z.of_nat (length (l_data L)) <->
   NoDup (map vrp data) /\ (filt = true -> forall r, In r data -> kept r = true)).
Proof.
  intros G. destruct (generate_in _ _ _ _ _ _ _ G) as (data & E & F & S).
  exists data. split; [assumption|]. now apply finish_counts.
Qed.

(** * Tags *)
Section Tags.
Variable sha256 : bytes -> bytes.
Lemma etag_same a b : m_generated (l_meta a) = m_generated (l_meta b) -> m_counts (l_meta a) = m_counts (l_meta b) ->
  etag sha256 a = etag sha256 b.
Proof. intros A B. unfold etag. now rewrite A, B. Qed.

Lemma etag_inj : (forall x, bytes_ok (sha256 x) = true) -> (forall x y, sha256 x = sha256 y -> x = y) ->
  forall a b, etag sha256 a = etag sha256 b ->
  m_generated (l_meta a) = m_generated (l_meta b) /\ m_counts (l_meta a) = m_counts (l_meta b).
Proof.
  intros O I a b H. unfold etag in H. apply hexs_inj in H; auto. apply I in H. cbn [app] in H.
  destruct (first_sep 47 _ _ _ _ (dec_no_slash _) (dec_no_slash _) H) as [H1 H2].
  split; now apply dec_inj.
Qed.

Lemma not_modified_iff stable wait prev l t : serve_roas sha256 stable wait prev l t = NotModified <->
  (stable = true \/ wait = false \/ prev = true) /\ t <> [] /\ t = etag sha256 l.
Proof.
  unfold serve_roas. destruct stable, wait, prev; cbn [negb andb];
    destruct (beq t []) eqn:B; cbn [negb andb];
    try apply beq_eq in B; try (assert (t <> []) as NE by (intros ->; discriminate B));
    destruct (beq t (etag sha256 l)) eqn:C;
    try apply beq_eq in C; try (assert (t <> etag sha256 l) as NC by (intros Q; rewrite Q, beq_refl in C; discriminate C));
    split; intros H; try discriminate H; try tauto; try reflexivity;
    destruct H as ([H|[H|H]] & H1 & H2); try discriminate H; try (exfalso; tauto); try reflexivity.
Qed.
End Tags.

(** * Signatures *)
Section Signatures.
Variable sha256 sign : bytes -> bytes.
Variable verify : bytes -> bytes -> bool.

Lemma digest2_perm m a b : Permutation a b -> digest2_text (mkList m a) = digest2_text (mkList m b).
Proof. intros P. unfold digest2_text. cbn [l_meta]. now rewrite (digest1_perm m m a b P). Qed.

Lemma signed_checks : (forall h, verify h (sign h) = true) -> forall l data, Permutation (l_data l) data ->
  check_file sha256 verify (mkList (l_meta (sign_list sha256 sign l)) data) = (true, true).
Proof.
  intros V l data P. unfold check_file. cbn [sign_list l_meta m_sign m_signdate].
  assert (forall m, digest1_text (mkList m data) = digest1_text l) as D1.
  { intros m. destruct l as [ml dl]. symmetry. now apply digest1_perm. }
  assert (digest2_text (mkList (l_meta (sign_list sha256 sign l)) data) = digest2_text l) as D2.
  { unfold digest2_text. now rewrite D1. }
  cbn [sign_list l_meta] in D2. rewrite D2, D1, !V. reflexivity.
Qed.

Lemma signed_bound : (forall x y, sha256 x = sha256 y -> x = y) -> (forall h h', verify h (sign h') = true -> h = h') ->
  forall l l', clean_list (l_data l) -> clean_list (l_data l') ->
  m_sign (l_meta l') = m_sign (l_meta (sign_list sha256 sign l)) ->
  snd (check_file sha256 verify l') = true ->
  Permutation (map vrp (l_data l')) (map vrp (l_data l)) /\
  m_generated (l_meta l') = m_generated (l_meta l) /\ m_valid (l_meta l') = m_valid (l_meta l).
Proof.
  intros I U l l' C C' S H. unfold check_file in H. cbn [snd] in H. rewrite S in H. cbn [sign_list l_meta m_sign] in H.
  apply U, I in H. now apply digest2_inj.
Qed.
End Signatures.

(** Printed prefixes and AS numbers contain no comma. *)
Lemma shows_clean r ip p : shows r ip p -> no_comma (j_prefix r).
Proof.
  intros (A & P & ->). rewrite ipnet_text_plain by assumption. unfold no_comma. intros I.
  apply in_app_or in I as [I|I].
  - unfold plain_text in I. destruct (Nat.eqb (length ip) 4).
    + apply in_join in I as [I|(x & X & I)]; [discriminate|]. apply in_map_iff in X as (z & <- & _).
      exact (dec_no_comma _ I).
    + apply text6_bytes in I; [|apply groups_ok, A]. destruct I as [I|I]; discriminate.
  - destruct I as [I|I]; [discriminate|]. exact (dec_no_comma _ I).
Qed.
Lemma export_asn_clean ta asn e : no_comma (j_asn (export_entry ta asn e)).
Proof.
  cbn [export_entry j_asn]. change (str "AS" ++ dec asn) with (65 :: 83 :: dec asn).
  intros [I|[I|I]]; [discriminate|discriminate|exact (dec_no_comma _ I)].
Qed.
