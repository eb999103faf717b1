(** C27, C28, C55: signed objects. *)
From Coq Require Import Lia.
From Verif.Model Require Import Base Str Tal Ber Asn1 Cms.
From Verif.Spec Require Import Addr BerSpec CmsSpec.
From Verif.Proofs Require Import StrProofs NetIPProofs BerProofs Asn1Proofs CmsProofs.

(** C28. Fragments are reassembled in order ... *)
Theorem C28_reassembled : forall cs bs, Forall2 fragment cs bs -> cs <> [] ->
  bad_format_group (concat bs) = Some (concat cs, (1 <? length cs)%nat, true).
Proof. exact group_fragments. Qed.
Print Assumptions C28_reassembled.

(** ... what is accepted is such a list, or data that does not start with an
    octet string (tag 4), of which the first value is taken unchanged ... *)
Theorem C28_only_fragments : forall data out many, bytes_ok data = true ->
  bad_format_group data = Some (out, many, true) ->
  (exists cs bs, Forall2 fragment cs bs /\ cs <> [] /\ data = concat bs /\ out = concat cs /\
                 many = (1 <? length cs)%nat) \/
  (many = false /\ exists rest r, data = out ++ rest /\ parse_raw data = Some (r, rest) /\ r_tag r <> 4).
Proof. exact group_inv. Qed.
Print Assumptions C28_only_fragments.

(** ... and the loop ends. *)
Theorem C28_terminates : forall data, bytes_ok data = true -> bad_format_group data <> None.
Proof. exact group_terminates. Qed.
Print Assumptions C28_terminates.

Example C28_example :
  Forall2 fragment [[7; 8]; []; [9]] [[4; 2; 7; 8]; [4; 0]; [4; 1; 9]] /\
  bad_format_group [4; 2; 7; 8; 4; 0; 4; 1; 9] = Some ([7; 8; 9], true, true) /\
  bad_format_group [4; 2; 7; 8; 4; 0; 4; 5; 9] = Some ([7; 8], true, false) /\
  bad_format_group [48; 1; 7; 9] = Some ([48; 1; 7], false, true).
Proof.
  split; [|vm_compute; auto].
  constructor; [|constructor; [|constructor; [|constructor]]].
  - apply (fragment_intro [7; 8] [2]); [reflexivity|apply short_len; cbn; lia|cbn; lia].
  - apply (fragment_intro [] [0]); [reflexivity|apply short_len; cbn; lia|cbn; lia].
  - apply (fragment_intro [9] [1]); [reflexivity|apply short_len; cbn; lia|cbn; lia].
Qed.

Section C27.
  Variable sha256 : bytes -> bytes.
  Variable marshal_set : list attr -> option bytes.

  (** C27. A signed object passes only if the digest of its content is its
      digest attribute and the signature, raised to the exponent, holds the
      digest of the signed attributes in a DigestInfo-like structure at the
      start or after FF 00.  (The padding, the algorithm and what follows are
      not checked.) *)
  Theorem C27_accepted_partial : (forall x, length (sha256 x) = 32%nat) ->
    forall c encap key, cms_validate sha256 marshal_set c encap key = Ret VOk ->
    exists si rest n p s x, c_signers c = si :: rest /\ key = RSAPtr n (Zpos p) /\
      digest_of a_type a_values (si_attrs si) (sha256 encap) /\
      marshal_set (si_attrs si) = Some s /\
      (0 < n -> let out := bytes_of_int (addr_val (si_sig si) ^ Zpos p mod n) in
         out = x \/ exists pre, out = pre ++ 255 :: 0 :: x /\ (2 <= length pre)%nat) /\
      (0 < n -> exists l1 l2 l3 alg extra trail,
         x = 48 :: l1 ++ (48 :: l2 ++ alg ++ 4 :: l3 ++
               sha256 (skipn 2 (48 :: encode_length (Z.of_nat (length s)) ++ s)) ++ extra) ++ trail /\
         der_len (Z.of_nat (length alg)) l2 /\ der_len 32 l3).
  Proof. exact (validate_sound sha256 marshal_set). Qed.

  (** Hence signatures can be forged: for every content, every set of
      attributes with its digest, and every modulus above 2^1400 with exponent
      3, there is a signature that passes and is not a PKCS#1 v1.5 signature
      of anything. *)
  Theorem C27_forgery_refuted : (forall x, length (sha256 x) = 32%nat) ->
    forall certs alg attrs s encap n,
    2 ^ 1400 <= n -> (forall x, bytes_ok (sha256 x) = true) ->
    digest_of a_type a_values attrs (sha256 encap) -> marshal_set attrs = Some s ->
    exists sig,
      cms_validate sha256 marshal_set (mkCms certs [mkSigner attrs alg sig]) encap (RSAPtr n 3) = Ret VOk /\
      forall h, ~ rsa_signs n 3 sig h.
  Proof. exact (validate_forge sha256 marshal_set). Qed.

  (** The algorithm identifiers of object and certificate are the same octets
      and end with a NULL; afterwards validation cannot panic. *)
  Theorem C27_algorithms_match : forall cert_alg c, check_signatures_match cert_alg c = Some true ->
    exists si rest rs r, c_signers c = si :: rest /\ cert_alg (c_certs c) = Some (si_alg si) /\
      parse_raws (si_alg si) = Some (rs ++ [r]) /\ r_tag r = 5.
  Proof. exact match_sound. Qed.

  Theorem C27_no_panic : forall cert_alg c encap key, check_signatures_match cert_alg c = Some true ->
    cms_validate sha256 marshal_set c encap key <> Panic.
  Proof. exact (match_no_panic sha256 marshal_set). Qed.

  (** C55. Correctly signed objects are accepted when the encoding of their
      signed attributes is shorter than 128 octets ... *)
  Theorem C55_accepted_partial : (forall x, length (sha256 x) = 32%nat) ->
    forall c si rest n p s encap,
    c_signers c = si :: rest -> 0 < n ->
    digest_of a_type a_values (si_attrs si) (sha256 encap) ->
    marshal_set (si_attrs si) = Some s -> Z.of_nat (length s) < 128 ->
    rsa_signs n (Zpos p) (si_sig si) (sha256 s) ->
    cms_validate sha256 marshal_set c encap (RSAPtr n (Zpos p)) = Ret VOk.
  Proof. exact (validate_complete sha256 marshal_set). Qed.

  (** ... and refused when it is longer, unless digests collide. *)
  Theorem C55_long_attributes_refuted : (forall x, length (sha256 x) = 32%nat) ->
    forall c si rest n p s encap,
    c_signers c = si :: rest -> 0 < n ->
    marshal_set (si_attrs si) = Some s -> 128 <= Z.of_nat (length s) < 2 ^ 63 ->
    rsa_signs n (Zpos p) (si_sig si) (sha256 s) ->
    (forall l, l <> [] -> sha256 (l ++ s) <> sha256 s) ->
    cms_validate sha256 marshal_set c encap (RSAPtr n (Zpos p)) <> Ret VOk.
  Proof. exact (validate_long_refused sha256 marshal_set). Qed.
End C27.
Print Assumptions C27_accepted_partial.
Print Assumptions C27_forgery_refuted.
Print Assumptions C27_algorithms_match.
Print Assumptions C27_no_panic.
Print Assumptions C55_accepted_partial.
Print Assumptions C55_long_attributes_refuted.

(** An object with a digest attribute and a signature under exponent 1 (so the
    signature is the block itself); digest and marshalling are toys.  The same
    with the block cut short and octets appended also passes. *)
Example C27_example :
  let sha := fun _ : bytes => repeat 7 32 in
  let mar := fun _ : list attr => Some [49; 0] in
  let at1 := mkAttr digest_oid [([4; 32] ++ repeat 7 32, repeat 7 32)] in
  let block := 0 :: 1 :: repeat 255 8 ++ 0 :: digest_info (repeat 7 32) in
  let obj := fun s => mkCms [] [mkSigner [at1] [] s] in
  let n := addr_val (255 :: repeat 255 61) in
  digest_of a_type a_values [at1] (sha [1; 2]) /\ rsa_signs n 1 block (sha [49; 0]) /\
  cms_validate sha mar (obj block) [1; 2] (RSAPtr n 1) = Ret VOk /\
  cms_validate sha mar (obj (9 :: 9 :: 255 :: 0 :: digest_info (repeat 7 32) ++ [1; 2; 3])) [1; 2] (RSAPtr n 1) = Ret VOk /\
  cms_validate sha mar (obj (9 :: 9 :: 255 :: 1 :: digest_info (repeat 7 32))) [1; 2] (RSAPtr n 1) = Ret VErr.
Proof.
  cbv zeta. split.
  - exists [], (mkAttr digest_oid [([4; 32] ++ repeat 7 32, repeat 7 32)]), [].
    split; [reflexivity|]. split; [|easy]. split; [reflexivity|]. eexists. reflexivity.
  - split; [|vm_compute; auto].
    exists (0 :: 1 :: repeat 255 8 ++ 0 :: digest_info (repeat 7 32)).
    split; [|vm_compute; reflexivity]. exists 8%nat. split; [reflexivity|]. split; [lia|].
    split; [reflexivity|]. split; [reflexivity|]. vm_compute. reflexivity.
Qed.
