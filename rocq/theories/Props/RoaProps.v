(** C20-C22: ROA entries. *)
From Coq Require Import Lia Permutation.
From Verif.Model Require Import Base NetIP CertRes Roa.
From Verif.Spec Require Import Addr Resources Bits Canon.
From Verif.Proofs Require Import RoaProofs Witness.

(** C20. Over prefixes: the entry check passes exactly when every entry has
    prefix length <= max length <= size of its family. *)
Theorem C20_entries_wellformed : forall l,
  (forall e, In e l -> exists ip p,
     re_net e = mkNet ip (cidr_mask p (addr_bits ip)) /\ plain_addr ip /\ 0 <= p <= addr_bits ip) ->
  (validate_entries l = true <->
   forall e ip p, In e l -> plain_addr ip -> 0 <= p <= addr_bits ip ->
     re_net e = mkNet ip (cidr_mask p (addr_bits ip)) -> p <= re_maxlen e <= addr_bits ip).
Proof. exact validate_entries_prefixes. Qed.
Print Assumptions C20_entries_wellformed.

(** The same from the encoded address; a missing max length stands for the
    prefix length; IPv4-mapped IPv6 prefixes never pass. *)
Theorem C20_decoded_entry : forall fam n b ml r,
  fam_octets fam n -> wf_bits b -> bs_len b <= 8 * Z.of_nat n ->
  convert_addrs fam [mkAddr b ml] = Some r ->
  exists e, r = [e] /\
   re_maxlen e = (if ml <? 0 then bs_len b else ml) /\
   (entry_validate e = true <->
     bs_len b <= re_maxlen e <= 8 * Z.of_nat n /\
     (n = 16%nat -> ~ v4mapped (bits_val b * 2 ^ (128 - bs_len b)))).
Proof. exact converted_validate. Qed.
Print Assumptions C20_decoded_entry.

Example C20_example :
  validate_entries [mkEntry (mkNet (ip4 10 0 0 0) (cidr_mask 8 32)) 24;
                    mkEntry (mkNet (ip6 0) (cidr_mask 32 128)) 48] = true /\
  validate_entries [mkEntry (mkNet (ip4 10 0 0 0) (cidr_mask 8 32)) 33] = false /\
  validate_entries [mkEntry (mkNet (ip4 10 0 0 0) (cidr_mask 8 32)) 7] = false /\
  convert_addrs [0; 1] [mkAddr (mkBits [10] 8) (-1)] = Some [mkEntry (mkNet (ip4 10 0 0 0) (cidr_mask 8 32)) 8].
Proof. repeat split. Qed.

(** C20 fails for an address longer than its family: it passes the check with
    a max length below its own bit length. *)
Theorem C20_overlong_accepted_refuted : exists b ml e,
  wf_bits b /\ 32 < bs_len b /\ ml < bs_len b /\
  convert_addrs [0; 1] [mkAddr b ml] = Some [e] /\ validate_entries [e] = true.
Proof.
  exists (mkBits [10; 0; 0; 0; 1] 40), 24. eexists.
  split; [unfold wf_bits; cbn; repeat split; lia|]. vm_compute. repeat split.
Qed.
Print Assumptions C20_overlong_accepted_refuted.

(** C21. The entries are split in three; a validated entry lies inside one
    element of the certificate. *)
Theorem C21_validated_covered : forall l cert,
  wf_list cert ->
  (forall e, In e l -> exists fam lo hi, entry_denotes e fam lo hi /\ plain_bounds fam lo hi) ->
  exists v iv c, validate_roa_list l cert = Ret (v, iv, c) /\ Permutation l (v ++ iv ++ c) /\
    (forall e, In e v -> exists fam lo hi, entry_denotes e fam lo hi /\ covered cert fam lo hi) /\
    (forall e, In e c -> exists fam lo hi, entry_denotes e fam lo hi /\ inherited cert fam) /\
    (forall e, In e iv -> exists fam lo hi, entry_denotes e fam lo hi /\
        ~ covered cert fam lo hi /\ ~ inherited cert fam).
Proof. exact validate_roa_list_spec. Qed.
Print Assumptions C21_validated_covered.

Example C21_example :
  validate_roa_list [mkEntry (mkNet (ip4 10 1 0 0) (cidr_mask 16 32)) 24;
                     mkEntry (mkNet (ip4 11 0 0 0) (cidr_mask 8 32)) 8] [pfx (ip4 10 0 0 0) 8]
  = Ret ([mkEntry (mkNet (ip4 10 1 0 0) (cidr_mask 16 32)) 24],
         [mkEntry (mkNet (ip4 11 0 0 0) (cidr_mask 8 32)) 8], []) /\
  entry_denotes (mkEntry (mkNet (ip4 10 1 0 0) (cidr_mask 16 32)) 24) 4
    (2561 * 2 ^ 16) (2562 * 2 ^ 16 - 1) /\
  wf_list [pfx (ip4 10 0 0 0) 8].
Proof.
  split; [reflexivity|]. split.
  - apply (den_prefix (ip4 10 1 0 0) 16); [plain|unfold addr_bits; cbn; lia].
  - constructor; [left|constructor]. do 3 eexists.
    apply (den_prefix (ip4 10 0 0 0) 8); [plain|unfold addr_bits; cbn; lia].
Qed.

(** C21 fails for malformed encodings: an entry without mask is reported both
    as validated and as invalid when the certificate holds a malformed range;
    and an IPv6 certificate prefix validates an IPv4 entry. *)
Theorem C21_malformed_refuted : exists cert e,
  decode_ip_block [([0; 3], ChSeq [ORange (mkBits [10] 8) (mkBits [10] 8)])] = (cert, true) /\
  convert_addrs [0; 1] [mkAddr (mkBits [10; 0; 0; 0; 1] 40) 24] = Some [e] /\
  nmask (re_net e) = [] /\
  validate_entries [e] = true /\
  validate_roa_list [e] cert = Ret ([e], [e], []).
Proof. eexists _, _. vm_compute. repeat split. Qed.
Print Assumptions C21_malformed_refuted.

Theorem C21_family_refuted : exists cert e,
  decode_ip_block [([0; 2], ChSeq [OBits (mkBits (repeat 0 10 ++ [255; 255]) 96)])] = (cert, true) /\
  convert_addrs [0; 1] [mkAddr (mkBits [10] 8) 8] = Some [e] /\
  validate_entries [e] = true /\
  validate_roa_list [e] cert = Ret ([e], [], []) /\ length (nip (re_net e)) = 4%nat.
Proof. eexists _, _. vm_compute. repeat split. Qed.
Print Assumptions C21_family_refuted.

(** C22. Encoding then converting returns the same entries, IPv4 first. *)
Theorem C22_roa_roundtrip : forall l, Forall (fun e => exists m, canonical_entry e m) l ->
  exists blk, encode_roa_entries l = Ret blk /\
   convert_entries blk = Some (filter (fun e => Nat.eqb (length (nip (re_net e))) 4) l ++
                               filter (fun e => Nat.eqb (length (nip (re_net e))) 16) l).
Proof. exact encode_convert_entries. Qed.
Print Assumptions C22_roa_roundtrip.

Example C22_example :
  Forall (fun e => exists m, canonical_entry e m)
    [mkEntry (mkNet (ip6 0) (cidr_mask 32 128)) 48; mkEntry (mkNet (ip4 10 128 0 0) (cidr_mask 9 32)) 24].
Proof.
  constructor; [|constructor; [|constructor]].
  - exists 16%nat, (ip6 0), 32. repeat (split; [first [reflexivity|apply ip6_plain0|unfold addr_bits; cbn; lia]|]).
    cbn; lia.
  - exists 4%nat, (ip4 10 128 0 0), 9.
    split; [reflexivity|]. split; [reflexivity|]. split; [plain|]. split; [unfold addr_bits; cbn; lia|].
    split; [reflexivity|]. cbn; lia.
Qed.
