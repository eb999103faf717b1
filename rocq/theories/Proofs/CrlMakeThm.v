(** Revocation lists that CreateCRL makes, as the readers and the validator see
    them. *)
From Coq Require Import Lia Bool ZifyBool ZifyNat String.
From Verif.Model Require Import Base Str NetIP CertRes Roa Ber Asn1 GoTime Der Tal Cms Validator ObjDer TalDer X509 CrlMake.
From Verif.Spec Require Import Addr Resources Bits Canon BerSpec IpExtSpec CmsSpec ObjSpec SignedSpec Trust CrlSpec X509Spec CrlMakeSpec.
From Verif.Proofs Require Import StrProofs NetIPProofs BerProofs DerPrim DerProofs DerBytes ObjEncode ObjSign ObjRound ObjBytes
  CmsProofs HeapProofs ValidatorInv ValidatorFacts CrlKey X509Proofs CrlProofs CrlMakeProofs.
Ltac Zify.zify_post_hook ::= Z.div_mod_to_equations.

Lemma number_octets : forall n, number_coded (put_int n) n.
Proof.
  intros n. destruct (put_int_ok n) as (V & C & _). rewrite <- V at 2. apply checked_coded; [apply put_int_bytes|exact C].
Qed.

(** Octets are determined by their number and value. *)
Lemma octets_of_value : forall l, bytes_ok l = true -> be_bytes (length l) (addr_val l) = l.
Proof.
  intros l O. apply bval_inj.
  - apply be_length.
  - apply be_bytes_ok.
  - exact O.
  - rewrite <- !addr_val_bval.
    change (addr_val (be_bytes (length l) (addr_val l))) with (be_value (be_bytes (length l) (addr_val l))).
    rewrite be_value_bytes. apply Z.mod_small. now apply addr_bound.
Qed.

(** A signature as RFC 8017 describes it passes. *)
Lemma signature_passes : forall n e h sig, 0 < n -> bytes_ok h = true -> pkcs1_signature n (Zpos e) h sig ->
  rsa_verify n e h sig = true.
Proof.
  intros n e h sig N O (ps & F & L & H). cbv zeta in H. change sha256_info with X509.digest_info in H.
  destruct H as (Ls & B & V). set (em := [0; 1] ++ ps ++ [0] ++ X509.digest_info ++ h) in *.
  destruct (key_size_spec n N) as (K1 & K).
  assert (E : key_size n = List.length em).
  { set (k := key_size n) in *. clearbody k. destruct (Z.lt_trichotomy (Z.of_nat k) (Z.of_nat (List.length em))) as [X|[X|X]]; [exfalso| |exfalso].
    - pose proof (Z.pow_le_mono_r 256 (Z.of_nat k) (Z.of_nat (List.length em) - 1) ltac:(lia) ltac:(lia)). lia.
    - lia.
    - pose proof (Z.pow_le_mono_r 256 (Z.of_nat (List.length em)) (Z.of_nat k - 1) ltac:(lia) ltac:(lia)). lia. }
  assert (Oe : bytes_ok em = true).
  { unfold em. unfold bytes_ok in *. rewrite !forallb_app, O, andb_true_r.
    replace (forallb byte_ok ps) with true; [reflexivity|]. symmetry. apply forallb_forall. intros x I.
    rewrite Forall_forall in F. rewrite (F x I). reflexivity. }
  assert (LE : List.length em = (3 + List.length ps + List.length (X509.digest_info ++ h))%nat).
  { unfold em. rewrite !app_length. cbn [List.length]. lia. }
  unfold rsa_verify. cbv zeta. rewrite E, Ls, Nat.eqb_refl, LE.
  replace (_ <=? _)%nat with true by (symmetry; apply Nat.leb_le; lia).
  replace (3 + List.length ps + List.length (X509.digest_info ++ h) - 3 - List.length (X509.digest_info ++ h))%nat with (List.length ps) by lia.
  rewrite <- LE, pow_mod_spec by exact N. change (int_of_bytes sig) with (addr_val sig). rewrite V, (octets_of_value em Oe).
  cbn [andb]. apply beq_eq. unfold em. do 2 f_equal. clear - F. induction F as [|x l E F IH]; [reflexivity|]. cbn [repeat List.length]. now rewrite E, <- IH.
Qed.

Section Made.
  Variable sha256 : bytes -> bytes.
  Variable rsa_sign : bytes -> option bytes.
  Variable more : bytes -> bool.
  Variable other_sig : list Z * bytes -> bytes -> bytes -> bytes -> bool.
  Notation create_crl := (create_crl sha256 rsa_sign).

  Lemma made_says : forall o n contents sig, order_ok o -> or_number o = Some n ->
    made_from o (mkXL contents (oid_sha256_rsa, [5; 0]) (or_now o) (or_expiry o) (map (fun r => fst (fst r)) (or_revoked o))
                   (made_exts o n) (mkBits sig (8 * Z.of_nat (List.length sig)))) sig.
  Proof.
    intros o n contents sig OK N. repeat split. exists n, (put_int n), (put_tlv 0 false 2 (put_int n)).
    split; [exact N|]. split; [apply number_octets|]. split.
    - destruct OK as (_ & _ & _ & _ & _ & _ & _ & (m & M & B)). assert (m = n) by congruence. subst m.
      assert (Li : (List.length (put_int n) <= 20)%nat) by (apply put_int_length; unfold fits_in; change (8 * Z.of_nat 20 - 1) with 159; exact B).
      exists (encode_length (Z.of_nat (List.length (put_int n)))). split; [apply encode_length_der; lia|].
      rewrite put_tlv_low by lia. reflexivity.
    - unfold made_exts. cbn [xl_exts]. destruct (or_ski o); reflexivity.
  Qed.

  Theorem list_made : forall o b, order_ok o -> create_crl o = Some b -> Z.of_nat (List.length b) < 2 ^ 31 -> bytes_ok b = true ->
    exists x sig, list_octets b x /\ made_from o x sig /\ rsa_sign (sha256 (xl_tbs x)) = Some sig.
  Proof.
    intros o b OK H L O. destruct (made_read sha256 rsa_sign o b OK H L) as (contents & sig & n & S & N & R).
    eexists. exists sig. split; [apply list_grammar; [exact O|exact R]|]. split; [now apply made_says|exact S].
  Qed.

  Theorem list_named : forall o b, order_ok o -> create_crl o = Some b -> Z.of_nat (List.length b) < 2 ^ 31 -> more b = false ->
    exists l, x509_crl more b = Some l /\ crl_body l = b /\ crl_serials l = serials o /\
      (or_ski o <> [] -> names_issuer l (or_ski o)) /\ (or_ski o = [] -> forall k, ~ names_issuer l k).
  Proof.
    intros o b OK H L M. destruct (made_read sha256 rsa_sign o b OK H L) as (contents & sig & n & S & N & R).
    unfold x509_crl. rewrite R, M. eexists. split; [reflexivity|]. cbn [crl_body crl_serials xl_revoked]. split; [reflexivity|]. split; [reflexivity|].
    destruct OK as (_ & _ & Lk & _). cbn [xl_exts]. unfold made_exts. destruct (or_ski o) as [|x k] eqn:E.
    - split; [congruence|]. intros _ k (b1 & b2 & X & _ & _). cbn [crl_exts app map e_id e_value] in X.
      destruct b1 as [|a [|a' b1]]; discriminate.
    - split; [|congruence]. intros _. exists [], [(false, put_tlv 0 false 2 (put_int n))]. split; [reflexivity|]. split.
      + intros e [<-|[]]. reflexivity.
      + split; [cbn [List.length]; lia|exact Lk].
  Qed.

  Notation signs_for := (signs_for sha256 rsa_sign).

  Lemma list_signed : forall o b l p, order_ok o -> create_crl o = Some b -> Z.of_nat (List.length b) < 2 ^ 31 ->
    (forall m, bytes_ok (sha256 m) = true) -> crl_body l = b -> signs_for p -> x509_crl_signed sha256 other_sig p l = true.
  Proof.
    intros o b l p OK H L SO B (y & n & e & Ry & K & SG). destruct (made_read sha256 rsa_sign o b OK H L) as (contents & sig & m & S & N & R).
    unfold x509_crl_signed. rewrite Ry, B, R. cbn [xl_alg xl_tbs xl_sig]. unfold check_signature. cbn [fst].
    rewrite oid_eqb_refl, K. replace (right_align (mkBits sig (8 * Z.of_nat (List.length sig)))) with sig.
    - apply signature_passes; [|apply SO|now apply SG].
      unfold key_of in K. destruct (key_number (fst (xc_key_alg y)) =? 1); [|discriminate].
      destruct (negb _); [discriminate|]. destruct (unmarshal t_rsa_key _) as [[v r]|]; [|discriminate].
      destruct v; try discriminate.
      repeat match type of K with (match ?x with _ => _ end) = _ => destruct x eqn:?; try discriminate end.
      inversion K; subst. lia.
    - unfold right_align. cbn [bs_len bs_bytes]. replace (8 - _ =? 8) with true by lia. reflexivity.
  Qed.

  Variable sig_ok : cert -> cert -> bool.
  Variable dec_tal : bytes -> option tal.
  Variable dec_cert : bytes -> option cert.
  Variable dec_roa : bytes -> option roa.
  Variable dec_mft : bytes -> option mft.
  Variable hex_sha1 : bytes -> bytes.
  Notation crl_signed := (x509_crl_signed sha256 other_sig).
  Notation run := (run sig_ok crl_signed dec_tal dec_cert dec_roa dec_mft (x509_crl more) hex_sha1).

  Theorem list_accepted : forall ops now v o b l v1 valid a ic, run ops (new_validator now) = VRet v ->
    order_ok o -> create_crl o = Some b -> Z.of_nat (List.length b) < 2 ^ 31 -> (forall m, bytes_ok (sha256 m) = true) ->
    x509_crl more b = Some l -> known_cert v ic -> c_ski ic = or_ski o -> or_ski o <> [] -> v_valid v (or_ski o) <> None ->
    signs_for ic -> add_crl crl_signed l v = VRet (v1, (valid, a)) -> valid = true.
  Proof.
    intros ops now v o b l v1 valid a ic R OK H L SO X (p & KO & CA) IK NE VV SG A.
    assert (M : more b = false). { unfold x509_crl in X. destruct (crl_read b); [|discriminate]. now destruct (more b). }
    destruct (list_named o b OK H L M) as (l' & X' & B & _ & NI & _). assert (l' = l) by congruence. subst l'.
    specialize (NI NE). apply names_issuer_read in NI.
    pose proof (list_signed o b l ic OK H L SO B SG) as S.
    unfold add_crl in A. rewrite NI in A. cbv zeta in A. rewrite <- IK, KO in A.
    rewrite IK in A. unfold kin in A. destruct (v_valid v (or_ski o)); [|congruence].
    destruct CA as (pr & HP & E). unfold deref in A. rewrite HP in A. cbn [vbind] in A.
    rewrite E, S in A. destruct (revoke_loop _ _ _) as [v3| |]; try discriminate. cbn [vbind] in A. now inversion A.
  Qed.

  Theorem list_revokes : forall ops now v o b l v1 valid a ic ops2 v2 c, run ops (new_validator now) = VRet v ->
    order_ok o -> create_crl o = Some b -> Z.of_nat (List.length b) < 2 ^ 31 -> (forall m, bytes_ok (sha256 m) = true) ->
    x509_crl more b = Some l -> known_cert v ic -> c_ski ic = or_ski o -> or_ski o <> [] -> v_valid v (or_ski o) <> None ->
    signs_for ic -> add_crl crl_signed l v = VRet (v1, (valid, a)) -> run ops2 v1 = VRet v2 ->
    c_aki c = or_ski o -> In (c_serial c) (serials o) -> ~ given_as_anchor dec_cert ops2 c -> ~ valid_cert v1 c -> ~ valid_cert v2 c.
  Proof.
    intros ops now v o b l v1 valid a ic ops2 v2 c R OK H L SO X K IK NE VV SG A R2 CA CS AN NV.
    pose proof (list_accepted _ _ _ _ _ _ _ _ _ _ R OK H L SO X K IK NE VV SG A) as E. subst valid.
    assert (M : more b = false). { unfold x509_crl in X. destruct (crl_read b); [|discriminate]. now destruct (more b). }
    destruct (list_named o b OK H L M) as (l' & X' & B & SE & NI & _). assert (l' = l) by congruence. subst l'.
    specialize (NI NE). apply names_issuer_read in NI.
    apply (revoked_not_valid_later sig_ok crl_signed dec_tal dec_cert dec_roa dec_mft (x509_crl more) hex_sha1 _ _ _ _ _ _ _ _ c R A R2); auto; congruence.
  Qed.
End Made.
