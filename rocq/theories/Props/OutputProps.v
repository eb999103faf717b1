(** C44-C47, C50, C61, C62: the exported list. *)
From Coq Require Import Lia String Permutation.
From Verif.Model Require Import Base NetIP CertRes Roa Str Tal Validator TalText NetText Output.
From Verif.Spec Require Import Addr Resources Bits Canon Trust OutputSpec.
From Verif.Proofs Require Import NetIPProofs NetTextProofs OutputProofs ExportProofs ListProofs Witness ValidatorWitness.

(** C44. One entry per distinct authorisation, the first one, in order.  The
    text of an AS number contains no slash. *)
Theorem C44_one_entry_per_vrp : forall l, (forall r, In r l -> ~ In 47 (j_asn r)) ->
  subseq (filter_duplicates l) l /\
  NoDup (map vrp (filter_duplicates l)) /\
  (forall r, In r (filter_duplicates l) -> first_of l r) /\
  (forall r, In r l -> In (vrp r) (map vrp (filter_duplicates l))).
Proof. exact filter_duplicates_spec. Qed.
Print Assumptions C44_one_entry_per_vrp.

(** A generated list has no duplicates. *)
Theorem C44_generated_without_duplicates : forall filt names paths tals now d L,
  generate_list filt names paths tals now d = Ret L -> NoDup (map vrp (l_data L)).
Proof. intros filt names paths tals now d L G. destruct (generated_counts _ _ _ _ _ _ _ G) as (data & H). apply H. Qed.
Print Assumptions C44_generated_without_duplicates.

Definition w_j (p : string) (n : Z) (a t : string) : roajson := mkJ (str p) n (str a) (str t).

Example C44_example :
  filter_duplicates [w_j "10.0.0.0/8" 24 "AS1" "a"; w_j "10.0.0.0/8" 25 "AS1" "a"; w_j "10.0.0.0/8" 24 "AS1" "b";
                     w_j "10.0.0.0/8" 25 "AS2" "b"]
  = [w_j "10.0.0.0/8" 24 "AS1" "a"; w_j "10.0.0.0/8" 25 "AS1" "a"; w_j "10.0.0.0/8" 25 "AS2" "b"].
Proof. vm_compute. reflexivity. Qed.

(** C44 fails for entries with arbitrary texts: two different entries have one
    key. *)
Theorem C44_slash_refuted : exists a b, vrp a <> vrp b /\ filter_duplicates [a; b] = [a].
Proof.
  exists (w_j "10.0.0.0/8" 24 "AS1" ""), (w_j "10.0.0.0" 8 "24/AS1" ""). split; [discriminate|]. vm_compute. reflexivity.
Qed.
Print Assumptions C44_slash_refuted.

(** C45. Of readable entries the filter keeps, in order, exactly those whose
    prefix is short enough. *)
Theorem C45_keeps_short_prefixes : forall l, (forall r, In r l -> exists ip p, shows r ip p) ->
  exists f, filter_prefix_len l = Ret (filter f l) /\
    forall r ip p, In r l -> shows r ip p -> (f r = true <-> p <= longest ip).
Proof.
  intros l H. exists kept. split.
  - apply filter_prefix_len_ret. intros r I. destruct (H r I) as (ip & p & S). rewrite (get_prefix_shows _ _ _ S). discriminate.
  - intros r ip p _ S. rewrite (kept_shows _ _ _ S). apply Z.leb_le.
Qed.
Print Assumptions C45_keeps_short_prefixes.

Example C45_example :
  shows (w_j "10.0.0.0/24" 24 "AS1" "a") (ip4 10 0 0 0) 24 /\
  filter_prefix_len [w_j "10.0.0.0/24" 24 "AS1" "a"; w_j "10.0.0.0/25" 25 "AS1" "a"; w_j "2001:db8::/48" 48 "AS1" "a";
                     w_j "2001:db8::/49" 49 "AS1" "a"; w_j "::/0" 0 "AS1" "a"]
  = Ret [w_j "10.0.0.0/24" 24 "AS1" "a"; w_j "2001:db8::/48" 48 "AS1" "a"; w_j "::/0" 0 "AS1" "a"].
Proof. split; [|vm_compute; reflexivity]. split; [plain|]. split; [vm_compute; split; discriminate|]. vm_compute. reflexivity. Qed.

(** The filter panics exactly on an entry whose prefix cannot be read. *)
Theorem C45_panics_iff_unreadable : forall l, filter_prefix_len l = Panic <-> exists r, In r l /\ get_prefix r = None.
Proof. exact filter_prefix_len_panic. Qed.
Print Assumptions C45_panics_iff_unreadable.

(** C46. The count is that of the entries before the filters: it is the number
    of exported entries exactly when no entry was dropped. *)
Theorem C46_counts_partial : forall filt names paths tals now d L, generate_list filt names paths tals now d = Ret L ->
  exists data, export_tals names paths 0 tals = Ret data /\
    m_counts (l_meta L) = Z.of_nat (length data) /\ subseq (l_data L) data /\
    (m_counts (l_meta L) = Z.of_nat (length (l_data L)) <->
     NoDup (map vrp data) /\ (filt = true -> filter_prefix_len data = Ret data)).
Proof.
  intros filt names paths tals now d L G. destruct (generated_counts _ _ _ _ _ _ _ G) as (data & E & C & _ & _ & S & _ & I).
  exists data. split; [assumption|]. split; [assumption|]. split; [assumption|]. rewrite I. clear I.
  split; intros [N K]; split; auto; intros F; specialize (K F).
  - assert (forall r, In r data -> get_prefix r <> None) as R.
    { intros r I. specialize (K r I). unfold kept in K. destruct (get_prefix r); [discriminate|discriminate K]. }
    rewrite (filter_prefix_len_ret _ R). f_equal. now apply filter_all.
  - apply filter_prefix_len_data in K. apply filter_all. now symmetry.
Qed.
Print Assumptions C46_counts_partial.

Definition w_roa2 := mkRoa (mkc (str "P") (str "A") 12 [pfx (ip4 10 1 3 0) 24] []) 15
  [mkEntry (mkNet (ip4 10 1 3 0) (cidr_mask 24 32)) 24] true.
(** C46: two ROAs with the same entry, one exported entry, count two. *)
Theorem C46_duplicates_refuted : exists tals L, generate_list false [] [] tals 100 60 = Ret L /\
  m_counts (l_meta L) = 2 /\ length (l_data L) = 1%nat.
Proof. exists [[w_roa; w_roa2]]. eexists. split; [vm_compute; reflexivity|]. vm_compute. repeat split. Qed.
Print Assumptions C46_duplicates_refuted.

(** C47. "Not modified" is answered exactly to a client presenting the tag of
    the list; for a hash without collisions the tag determines the second of
    generation and the count. *)
Theorem C47_tag_partial : forall sha256 : bytes -> bytes,
  (forall x, bytes_ok (sha256 x) = true) -> (forall x y, sha256 x = sha256 y -> x = y) ->
  forall stable wait prev old new,
  serve_roas sha256 stable wait prev new (etag sha256 old) = NotModified ->
  m_generated (l_meta old) = m_generated (l_meta new) /\ m_counts (l_meta old) = m_counts (l_meta new).
Proof.
  intros sha256 O I stable wait prev old new H. apply not_modified_iff in H as (_ & _ & H). now apply (etag_inj sha256).
Qed.
Print Assumptions C47_tag_partial.

Theorem C47_not_modified_iff_tag : forall (sha256 : bytes -> bytes) stable wait prev l t,
  serve_roas sha256 stable wait prev l t = NotModified <->
  (stable = true \/ wait = false \/ prev = true) /\ t <> [] /\ t = etag sha256 l.
Proof. exact not_modified_iff. Qed.
Print Assumptions C47_not_modified_iff_tag.

Example C47_example : forall sha256 : bytes -> bytes, sha256 (str "100/1") <> [] ->
  exists L, generate_list false [] [] [[w_roa]] 100 60 = Ret L /\
  serve_roas sha256 true true true L (etag sha256 L) = NotModified /\
  serve_roas sha256 true true true L [] = Content (etag sha256 L) L.
Proof.
  intros sha256 N. eexists. split; [vm_compute; reflexivity|]. split; [|reflexivity].
  apply not_modified_iff. split; [auto|]. split; [|reflexivity]. unfold etag. intros H.
  match type of H with hexs (sha256 ?x) = [] => change (sha256 x) with (sha256 (str "100/1")) in H end.
  destruct (sha256 (str "100/1")); [now apply N|discriminate].
Qed.

(** C47: two different lists of one second with as many entries have the same
    tag, whatever the hash; a client holding the first is told that nothing
    changed. *)
Theorem C47_same_second_refuted : forall sha256 : bytes -> bytes, (forall x, sha256 x <> []) ->
  exists t1 t2 L1 L2, generate_list false [] [] t1 100 60 = Ret L1 /\ generate_list false [] [] t2 100 60 = Ret L2 /\
  map vrp (l_data L1) <> map vrp (l_data L2) /\
  serve_roas sha256 true true true L2 (etag sha256 L1) = NotModified.
Proof.
  intros sha256 N. exists [[w_roa]], [[mkRoa (roa_cert w_roa) 16 (roa_entries w_roa) true]]. eexists. eexists.
  split; [vm_compute; reflexivity|]. split; [vm_compute; reflexivity|]. split; [vm_compute; discriminate|].
  apply not_modified_iff. split; [auto|]. split; [|now apply etag_same].
  unfold etag. intros H. match type of H with hexs (sha256 ?x) = [] => specialize (N x); destruct (sha256 x) end; [now apply N|discriminate].
Qed.
Print Assumptions C47_same_second_refuted.

(** C50. The texts that are signed do not depend on the order of the entries. *)
Theorem C50_digests_order_independent : forall m a b, Permutation a b ->
  digest1_text (mkList m a) = digest1_text (mkList m b) /\ digest2_text (mkList m a) = digest2_text (mkList m b).
Proof. intros m a b P. split; [now apply digest1_perm|now apply digest2_perm]. Qed.
Print Assumptions C50_digests_order_independent.

(** A consumer checking a signed list, with its entries in any order, accepts
    both signatures. *)
Theorem C50_signed_list_accepted : forall (sha256 sign : bytes -> bytes) verify,
  (forall h, verify h (sign h) = true) -> forall l data, Permutation (l_data l) data ->
  check_file sha256 verify (mkList (l_meta (sign_list sha256 sign l)) data) = (true, true).
Proof. exact signed_checks. Qed.
Print Assumptions C50_signed_list_accepted.

(** With a hash without collisions and signatures that verify only for what
    was signed, an accepted list has the authorisations, generation time and
    validity of the signed one. *)
Theorem C50_signature_binds_entries : forall (sha256 sign : bytes -> bytes) verify,
  (forall x y, sha256 x = sha256 y -> x = y) -> (forall h h', verify h (sign h') = true -> h = h') ->
  forall l l', clean_list (l_data l) -> clean_list (l_data l') ->
  m_sign (l_meta l') = m_sign (l_meta (sign_list sha256 sign l)) ->
  snd (check_file sha256 verify l') = true ->
  Permutation (map vrp (l_data l')) (map vrp (l_data l)) /\
  m_generated (l_meta l') = m_generated (l_meta l) /\ m_valid (l_meta l') = m_valid (l_meta l).
Proof. exact signed_bound. Qed.
Print Assumptions C50_signature_binds_entries.

Example C50_example : exists L, generate_list false [] [] [[w_roa]; [mkRoa (roa_cert w_roa) 16 (roa_entries w_roa) true]] 100 60 = Ret L /\
  length (l_data L) = 2%nat /\ clean_list (l_data L) /\
  digest2_text L = str "100,10.1.3.0/24,24,AS15,10.1.3.0/24,24,AS16,160" /\
  check_file (fun x => x) beq (mkList (l_meta (sign_list (fun x => x) (fun x => x) L)) (rev (l_data L))) = (true, true).
Proof.
  eexists. split; [vm_compute; reflexivity|]. split; [reflexivity|]. split; [|vm_compute; auto].
  repeat constructor; unfold no_comma; vm_compute; intuition discriminate.
Qed.

(** The name of the trust anchor and the count are not covered by the
    signatures. *)
Theorem C50_anchor_name_not_signed : forall (sha256 sign : bytes -> bytes) verify,
  (forall h, verify h (sign h) = true) -> exists l l', l <> l' /\
  map j_ta (l_data l) <> map j_ta (l_data l') /\ m_counts (l_meta l) <> m_counts (l_meta l') /\
  m_sign (l_meta l') = m_sign (l_meta (sign_list sha256 sign l)) /\
  check_file sha256 verify l' = (true, true).
Proof.
  intros sha256 sign verify V.
  set (l := mkList (mkMeta 1 100 160 [] []) [w_j "10.0.0.0/8" 24 "AS1" "a"]).
  set (m := l_meta (sign_list sha256 sign l)).
  exists l, (mkList (mkMeta 7 100 160 (m_sign m) (m_signdate m)) [w_j "10.0.0.0/8" 24 "AS1" "b"]).
  split; [discriminate|]. split; [discriminate|]. split; [discriminate|]. split; [reflexivity|].
  unfold check_file. unfold m. cbn [sign_list l_meta m_sign m_signdate].
  f_equal; apply V.
Qed.
Print Assumptions C50_anchor_name_not_signed.

Section Props.
Variable sig_ok : cert -> cert -> bool.
Variable crl_sig_ok : cert -> crl -> bool.
Variable dec_tal : bytes -> option tal.
Variable dec_cert : bytes -> option cert.
Variable dec_roa : bytes -> option roa.
Variable dec_mft : bytes -> option mft.
Variable dec_crl : bytes -> option crl.
Variable hex_sha1 : bytes -> bytes.
Notation run := (run sig_ok crl_sig_ok dec_tal dec_cert dec_roa dec_mft dec_crl hex_sha1).
Notation anchor := (given_as_anchor dec_cert).

(** C45. From decoded objects below well-formed trust anchors a list is always
    generated, and with the filter all its prefixes are short enough. *)
Theorem C45_generation_returns : forall rs tals filt names paths now d, produced run rs tals ->
  (forall q, In q rs -> decoded_state (anchor (run_ops q)) (run_state q)) ->
  exists L, generate_list filt names paths tals now d = Ret L.
Proof. exact (generate_returns sig_ok crl_sig_ok dec_tal dec_cert dec_roa dec_mft dec_crl hex_sha1). Qed.

Theorem C45_generated_prefixes_short : forall rs tals names paths now d L, produced run rs tals ->
  (forall q, In q rs -> decoded_state (anchor (run_ops q)) (run_state q)) ->
  generate_list true names paths tals now d = Ret L ->
  forall r, In r (l_data L) -> exists ip p, shows r ip p /\ p <= longest ip.
Proof. exact (generated_filter sig_ok crl_sig_ok dec_tal dec_cert dec_roa dec_mft dec_crl hex_sha1). Qed.

(** C61. Every exported entry is an entry of a ROA reported valid, whose
    certificate has a chain of valid issuers to a trust anchor. *)
Theorem C61_entries_of_valid_roas : forall rs tals filt names paths now d L, produced run rs tals ->
  generate_list filt names paths tals now d = Ret L -> forall r, In r (l_data L) ->
  exists j q x e, nth_error rs j = Some q /\ valid_roa (run_state q) x /\
    In e (roa_entries x) /\ r = export_entry (tal_name names paths j) (roa_asn x) e /\
    chain sig_ok dec_cert (run_ops q) (run_state q) (roa_cert x).
Proof.
  intros rs tals filt names paths now d L P G r I.
  destruct (exported_from sig_ok crl_sig_ok dec_tal dec_cert dec_roa dec_mft dec_crl hex_sha1 _ _ _ _ _ _ _ _ P G r I)
    as (j & q & x & l & e & H1 & _ & H2 & _ & _ & H3 & H4 & H5).
  exists j, q, x, e. auto.
Qed.

(** The trust anchor named in an exported entry is that of the run in which the
    ROA is valid: by its configured name if there is one for each trust anchor,
    by the path of its TAL otherwise. *)
Theorem C61_trust_anchor_named : forall rs tals filt names paths now d L, produced run rs tals ->
  length rs = length paths ->
  generate_list filt names paths tals now d = Ret L -> forall r, In r (l_data L) ->
  exists j q x e, nth_error rs j = Some q /\ valid_roa (run_state q) x /\ In e (roa_entries x) /\
    vrp r = (ipnet_text (re_net e), re_maxlen e mod 2 ^ 8, str "AS" ++ dec (roa_asn x)) /\
    (length names = length paths -> nth_error names j = Some (j_ta r)) /\
    (length names <> length paths -> nth_error paths j = Some (j_ta r)).
Proof. exact (exported_ta sig_ok crl_sig_ok dec_tal dec_cert dec_roa dec_mft dec_crl hex_sha1). Qed.

(** Where resources are well formed and no certificate inheriting addresses is
    issued by another one or is a trust anchor, the addresses of an exported
    entry are held by every certificate from the ROA up to the trust anchor. *)
Theorem C61_entries_held_along_chain_partial : forall rs tals filt names paths now d L, produced run rs tals ->
  (forall q, In q rs -> conforming_state (anchor (run_ops q)) (run_state q)) ->
  generate_list filt names paths tals now d = Ret L -> forall r, In r (l_data L) ->
  exists j q x e ip p, nth_error rs j = Some q /\ valid_roa (run_state q) x /\ In e (roa_entries x) /\
    j_ta r = tal_name names paths j /\ j_asn r = str "AS" ++ dec (roa_asn x) /\
    j_len r = re_maxlen e /\ shows r ip p /\ p <= j_len r <= addr_bits ip /\
    holds sig_ok (anchor (run_ops q)) (run_state q) (length ip)
      (first_addr (addr_bits ip) p (addr_val ip)) (last_addr (addr_bits ip) p (addr_val ip)) (roa_cert x).
Proof. exact (exported_held sig_ok crl_sig_ok dec_tal dec_cert dec_roa dec_mft dec_crl hex_sha1). Qed.

(** Conversely every entry of a valid ROA inside its certificate's own
    resources is exported, unless the filter is on and its prefix is too long. *)
Theorem C61_authorised_entries_exported : forall rs tals filt names paths now d L, produced run rs tals ->
  generate_list filt names paths tals now d = Ret L ->
  forall j q x ip p ml, nth_error rs j = Some q -> valid_roa (run_state q) x ->
  let e := mkEntry (mkNet ip (cidr_mask p (addr_bits ip))) ml in
  In e (roa_entries x) -> plain_addr ip -> 0 <= p <= addr_bits ip -> p <= ml <= addr_bits ip ->
  wf_list (c_ips (roa_cert x)) -> (forall fam, ~ inherited (c_ips (roa_cert x)) fam) ->
  (forall e, In e (roa_entries x) -> exists fam lo hi, entry_denotes e fam lo hi /\ plain_bounds fam lo hi) ->
  covered (c_ips (roa_cert x)) (length ip) (first_addr (addr_bits ip) p (addr_val ip)) (last_addr (addr_bits ip) p (addr_val ip)) ->
  filt = false \/ p <= longest ip ->
  In (ipnet_text (re_net e), ml, str "AS" ++ dec (roa_asn x)) (map vrp (l_data L)).
Proof. exact (exported_all sig_ok crl_sig_ok dec_tal dec_cert dec_roa dec_mft dec_crl hex_sha1). Qed.

(** C62. A consumer reads from an exported entry the prefix and max length of
    an entry of a valid ROA, and its AS number if that has 32 bits. *)
Theorem C62_consumer_reads_entry_partial : forall rs tals filt names paths now d L, produced run rs tals ->
  (forall q, In q rs -> decoded_state (anchor (run_ops q)) (run_state q)) ->
  generate_list filt names paths tals now d = Ret L -> forall r, In r (l_data L) ->
  exists j q x e ip p, nth_error rs j = Some q /\ valid_roa (run_state q) x /\ In e (roa_entries x) /\
    re_net e = mkNet ip (cidr_mask p (addr_bits ip)) /\ shows r ip p /\
    get_prefix r = Some (re_net e) /\ j_len r = re_maxlen e /\ p <= j_len r <= addr_bits ip /\
    j_asn r = str "AS" ++ dec (roa_asn x) /\
    get_asn2 r = if (0 <=? roa_asn x) && (roa_asn x <? 2 ^ 32) then Some (roa_asn x) else None.
Proof. exact (generated_read sig_ok crl_sig_ok dec_tal dec_cert dec_roa dec_mft dec_crl hex_sha1). Qed.

(** C50. Generated lists meet the hypothesis of [C50_signature_binds_entries]. *)
Theorem C50_generated_lists_clean : forall rs tals filt names paths now d L, produced run rs tals ->
  (forall q, In q rs -> decoded_state (anchor (run_ops q)) (run_state q)) ->
  generate_list filt names paths tals now d = Ret L -> clean_list (l_data L).
Proof.
  intros rs tals filt names paths now d L P D G. apply Forall_forall. intros r I.
  destruct (generated_read sig_ok crl_sig_ok dec_tal dec_cert dec_roa dec_mft dec_crl hex_sha1 _ _ _ _ _ _ _ _ P D G r I)
    as (j & q & x & e & ip & p & _ & _ & _ & _ & SH & _ & _ & _ & A & _).
  split; [exact (shows_clean _ _ _ SH)|]. rewrite A. exact (export_asn_clean [] (roa_asn x) e).
Qed.
End Props.
Print Assumptions C50_generated_lists_clean.
Print Assumptions C45_generation_returns.
Print Assumptions C45_generated_prefixes_short.
Print Assumptions C61_entries_of_valid_roas.
Print Assumptions C61_trust_anchor_named.
Print Assumptions C61_entries_held_along_chain_partial.
Print Assumptions C61_authorised_entries_exported.
Print Assumptions C62_consumer_reads_entry_partial.

(** * Concrete runs *)
Definition w_state (ops : list op) : validator := match w_run ops with VRet v => v | _ => new_validator 0 end.
Definition w_rs : list a_run := [(w_ops, 50, w_state w_ops)].
Definition w_produced := produced (run sig_all crl_all (no_dec _) (no_dec _) (no_dec _) (no_dec _) (no_dec _) (fun x => x)).
Definition w_certs : list cert := [w_root; w_ca; w_leaf; roa_cert w_roa; w_other; w_other_leaf].
Definition heap_certs (v : validator) : list cert :=
  flat_map (fun r => match r_obj r with OCert c => [c] | _ => [] end) (v_heap v).
Definition heap_roas (v : validator) : list roa :=
  flat_map (fun r => match r_obj r with ORoa x => [x] | _ => [] end) (v_heap v).

Lemma valid_in_heap v c : valid_cert v c -> In c (heap_certs v).
Proof.
  intros (a & _ & r & N & O). apply in_flat_map. exists r. split; [eapply nth_error_In; eassumption|]. rewrite O. now left.
Qed.
Lemma roa_in_heap v x : valid_roa v x -> In x (heap_roas v).
Proof.
  intros (a & _ & r & N & O). apply in_flat_map. exists r. split; [eapply nth_error_In; eassumption|]. rewrite O. now left.
Qed.

Lemma w_valid_certs c : valid_cert (w_state w_ops) c -> In c w_certs.
Proof. intros V. apply valid_in_heap in V. assert (heap_certs (w_state w_ops) = w_certs) as <-; [vm_compute; reflexivity|exact V]. Qed.

Lemma w_state_run ops : match w_run ops with VRet _ => true | _ => false end = true -> w_run ops = VRet (w_state ops).
Proof. unfold w_state. destruct (w_run ops); congruence. Qed.
Lemma w_produced_one ops x : match w_run ops with VRet _ => true | _ => false end = true ->
  heap_roas (w_state ops) = [x] -> valid_roa (w_state ops) x -> w_produced [(ops, 50, w_state ops)] [[x]].
Proof.
  intros R H V. constructor; [|constructor]. split; [exact (w_state_run ops R)|]. intros y. split.
  - intros [<-|[]]. exact V.
  - intros VY. apply roa_in_heap in VY. cbn [run_state snd] in VY. now rewrite H in VY.
Qed.
Ltac one_roa :=
  apply w_produced_one; [vm_compute; reflexivity|vm_compute; reflexivity|
    eexists; split; [vm_compute; reflexivity|eexists; split; vm_compute; reflexivity]].

Lemma w_is_produced : w_produced w_rs [[w_roa]].
Proof.
  one_roa.
Qed.

Lemma w_entry_decoded : decoded_entry (mkEntry (mkNet (ip4 10 1 3 0) (cidr_mask 24 32)) 24).
Proof.
  exists [0; 1], 4%nat, (mkBits [10; 1; 3] 24), (-1). split; [left; split; [reflexivity|exists 0, []; reflexivity]|].
  split; [unfold wf_bits; cbn; repeat split; lia|vm_compute; reflexivity].
Qed.

Lemma w_roa_entries x e : valid_roa (w_state w_ops) x -> In e (roa_entries x) -> decoded_entry e.
Proof.
  intros V I. apply roa_in_heap in V. assert (heap_roas (w_state w_ops) = [w_roa]) as E by (vm_compute; reflexivity).
  rewrite E in V. destruct V as [<-|[]]. cbn [w_roa roa_entries] in I.
  destruct I as [<-|[]]. exact w_entry_decoded.
Qed.

Definition w_blk (n : Z) (l : list Z) := [([0; 1], ChSeq [OBits (mkBits l n)])].

Lemma w_decoded : forall q, In q w_rs -> decoded_state (given_as_anchor (no_dec _) (run_ops q)) (run_state q).
Proof.
  intros q [<-|[]]. cbn [run_ops run_state fst snd]. split; [|split].
  - intros c V. apply w_valid_certs in V. cbn [w_certs In] in V.
    repeat (destruct V as [<-|V];
      [split; [|cbn; intuition discriminate];
       first [exists (w_blk 8 [10]), true; vm_compute; reflexivity | exists (w_blk 16 [10; 1]), true; vm_compute; reflexivity |
              exists (w_blk 24 [10; 1; 2]), true; vm_compute; reflexivity | exists (w_blk 24 [10; 1; 3]), true; vm_compute; reflexivity |
              exists (w_blk 16 [10; 2]), true; vm_compute; reflexivity | exists (w_blk 24 [10; 2; 2]), true; vm_compute; reflexivity]|]).
    contradiction.
  - intros c V _. apply w_valid_certs in V. cbn [w_certs In] in V.
    repeat (destruct V as [<-|V]; [constructor; [left; eexists _, _, _; apply den_prefix; [plain|unfold addr_bits; cbn; lia]|constructor]|]).
    contradiction.
  - exact w_roa_entries.
Qed.

Lemma w_conforming : forall q, In q w_rs -> conforming_state (given_as_anchor (no_dec _) (run_ops q)) (run_state q).
Proof.
  intros q [<-|[]]. cbn [run_ops run_state fst snd].
  assert (NI : forall c fam, valid_cert (w_state w_ops) c -> ~ inherited (c_ips c) fam).
  { intros c fam V (i & I & H). apply w_valid_certs in V. cbn [w_certs In] in V.
    repeat (destruct V as [<-|V]; [destruct I as [<-|[]]; inversion H|]). contradiction. }
  split; [|split; [|split]].
  - intros c V. apply w_valid_certs in V. cbn [w_certs In] in V.
    repeat (destruct V as [<-|V]; [constructor; [right; eexists _, _, _; split; [apply den_prefix; [plain|unfold addr_bits; cbn; lia]|
      split; [vm_compute; discriminate|discriminate]]|constructor]|]).
    contradiction.
  - intros c fam V _. now apply NI.
  - intros c p fam V P _ H. now apply NI.
  - exact w_roa_entries.
Qed.

(** The run of the examples for the validator, below a conforming anchor,
    exports its one authorisation. *)
Example C61_example : w_produced w_rs [[w_roa]] /\
  (forall q, In q w_rs -> decoded_state (given_as_anchor (no_dec _) (run_ops q)) (run_state q)) /\
  (forall q, In q w_rs -> conforming_state (given_as_anchor (no_dec _) (run_ops q)) (run_state q)) /\
  exists L, generate_list true [str "ta"] [str "ta.tal"] [[w_roa]] 100 60 = Ret L /\
    l_data L = [w_j "10.1.3.0/24" 24 "AS15" "ta"] /\
    map get_prefix (l_data L) = [Some (mkNet (ip4 10 1 3 0) (cidr_mask 24 32))] /\
    map get_asn2 (l_data L) = [Some 15].
Proof.
  split; [exact w_is_produced|]. split; [exact w_decoded|]. split; [exact w_conforming|].
  eexists. split; [vm_compute; reflexivity|]. vm_compute. repeat split.
Qed.

(** C61: through two inheriting certificates an entry is exported for addresses
    that the trust anchor does not hold. *)
Definition w_twice_roa := mkRoa (mkc (str "X") (str "J") 4 [pfx (ip4 11 0 0 0) 8] []) 15
  [mkEntry (mkNet (ip4 11 0 0 0) (cidr_mask 8 32)) 8] true.
Definition w_twice : list op :=
  [DoCert w_root true; DoCert (mkc (str "I") (str "R") 2 [INull 1] [ASNull]) false;
   DoCert (mkc (str "J") (str "I") 3 [INull 1] [ASNull]) false; DoRoa None w_twice_roa].
Theorem C61_inherit_twice_refuted : exists L,
  w_produced [(w_twice, 50, w_state w_twice)] [[w_twice_roa]] /\
  c_ips w_root = [pfx (ip4 10 0 0 0) 8] /\
  (forall c, given_as_anchor (no_dec _) w_twice c -> c = w_root) /\
  generate_list true [str "ta"] [str "ta.tal"] [[w_twice_roa]] 100 60 = Ret L /\
  l_data L = [w_j "11.0.0.0/8" 8 "AS15" "ta"].
Proof.
  eexists. split; [|split; [reflexivity|split; [|split; [vm_compute; reflexivity|reflexivity]]]].
  - one_roa.
  - intros c [H|(f & d & H & _)]; cbn [w_twice In] in H; intuition congruence.
Qed.
Print Assumptions C61_inherit_twice_refuted.

(** C45: below a malformed trust anchor a ROA entry without mask is valid; it is
    exported as "<nil>" and the filter panics. *)
Definition w_nil_roa := mkRoa (mkc (str "X") (str "R") 4 [IRange [] []] []) 15
  [mkEntry (mkNet (ip4 10 0 0 0) []) 24] true.
Definition w_nil : list op := [DoCert (mkc (str "R") (str "R") 1 [IRange [] []] []) true; DoRoa None w_nil_roa].
Theorem C45_malformed_anchor_refuted :
  decode_ip_block [([0; 3], ChSeq [ORange (mkBits [10] 8) (mkBits [10] 8)])] = ([IRange [] []], true) /\
  convert_addrs [0; 1] [mkAddr (mkBits [10; 0; 0; 0; 1] 40) 24] = Some (roa_entries w_nil_roa) /\
  w_produced [(w_nil, 50, w_state w_nil)] [[w_nil_roa]] /\
  (exists L, generate_list false [] [] [[w_nil_roa]] 100 60 = Ret L /\ map j_prefix (l_data L) = [str "<nil>"]) /\
  generate_list true [] [] [[w_nil_roa]] 100 60 = Panic.
Proof.
  split; [vm_compute; reflexivity|]. split; [vm_compute; reflexivity|]. split; [|split].
  - one_roa.
  - eexists. split; [vm_compute; reflexivity|]. vm_compute. reflexivity.
  - vm_compute. reflexivity.
Qed.
Print Assumptions C45_malformed_anchor_refuted.

(** C62: an AS number beyond 32 bits is exported; the consumer cannot read it. *)
Definition w_wide_roa := mkRoa (roa_cert w_roa) (2 ^ 32 + 15) (roa_entries w_roa) true.
Definition w_wide : list op := [DoCert w_root true; DoCert w_ca false; DoRoa None w_wide_roa].
Theorem C62_wide_as_refuted : exists L,
  w_produced [(w_wide, 50, w_state w_wide)] [[w_wide_roa]] /\
  generate_list true [] [] [[w_wide_roa]] 100 60 = Ret L /\
  l_data L = [w_j "10.1.3.0/24" 24 "AS4294967311" ""] /\ map get_asn2 (l_data L) = [None].
Proof. eexists. split; [one_roa|]. split; [vm_compute; reflexivity|]. vm_compute. repeat split. Qed.
Print Assumptions C62_wide_as_refuted.
