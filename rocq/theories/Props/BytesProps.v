(** C68: what comes out of the decoders of IP addresses, octet by octet. *)
From Coq Require Import Lia Bool.
From Verif.Model Require Import Base Str NetIP CertRes Roa Asn1 Der ObjDer.
From Verif.Spec Require Import Addr Resources Bits BerSpec IpExtSpec.
From Verif.Proofs Require Import ObjBytes.

(** C68. An IP address extension is accepted only if it has the structure of
    [ip_extension], and the result is what the structure means. *)
Theorem C68_ip_extension : forall d l, bytes_ok d = true ->
  decode_ip_ext d = (l, true) -> ip_extension d l.
Proof. exact ip_ext_grammar. Qed.
Print Assumptions C68_ip_extension.

(** The same for the contents of a ROA. *)
Theorem C68_roa_contents : forall d asn blocks l, bytes_ok d = true ->
  read_as t_roa_content roa_content_of d = Some (asn, blocks) -> convert_entries blocks = Some l ->
  roa_octets d asn l.
Proof. exact roa_grammar. Qed.
Print Assumptions C68_roa_contents.

(** A prefix of an ordinary length denotes the addresses that start with its
    bits; a range reaches from the smallest address that starts with the bits
    of its lower end to the largest that starts with those of its upper end. *)
Theorem C68_prefix : forall fam n b net, prefix_of fam b (Some net) -> wf_bits b ->
  fam_octets fam n -> bs_len b <= 8 * Z.of_nat n ->
  (n = 16%nat -> ~ v4mapped (bits_val b * 2 ^ (128 - bs_len b))) ->
  denotes (INet (Some net)) n (bits_val b * 2 ^ (8 * Z.of_nat n - bs_len b))
    ((bits_val b + 1) * 2 ^ (8 * Z.of_nat n - bs_len b) - 1).
Proof. exact prefix_denotes. Qed.
Print Assumptions C68_prefix.
Theorem C68_range : forall fam n b1 b2 lo hi, low_end fam b1 lo -> high_end fam b2 hi ->
  fam_octets fam n -> bs_len b1 <= 8 * Z.of_nat n -> bs_len b2 <= 8 * Z.of_nat n ->
  (n = 16%nat -> ~ v4mapped (addr_val lo) /\ ~ v4mapped (addr_val hi)) ->
  denotes (IRange lo hi) n (bits_val b1 * 2 ^ (8 * Z.of_nat n - bs_len b1))
    ((bits_val b2 + 1) * 2 ^ (8 * Z.of_nat n - bs_len b2) - 1).
Proof. exact range_denotes. Qed.
Print Assumptions C68_range.

(** 10.0.0.0/8, a range of all IPv4 addresses, and IPv6 inherited. *)
Definition octets_a : bytes :=
  [48; 29; 48; 19; 4; 3; 0; 1; 1; 48; 12; 3; 2; 0; 10; 48; 6; 3; 1; 0; 3; 1; 0; 48; 6; 4; 2; 0; 2; 5; 0].
Example C68_example :
  bytes_ok octets_a = true /\
  decode_ip_ext octets_a =
    ([INet (Some (mkNet [10; 0; 0; 0] [255; 0; 0; 0])); IRange [0; 0; 0; 0] [255; 255; 255; 255]; INull 2], true) /\
  exists blocks, read_as t_roa_content roa_content_of
     [48; 25; 2; 3; 0; 253; 232; 48; 18; 48; 16; 4; 2; 0; 1; 48; 10; 48; 8; 3; 3; 0; 10; 1; 2; 1; 24] = Some (65000, blocks) /\
   convert_entries blocks = Some [mkEntry (mkNet [10; 1; 0; 0] [255; 255; 0; 0]) 24].
Proof. split; [reflexivity|]. split; [vm_compute; reflexivity|]. eexists. split; vm_compute; reflexivity. Qed.

(** The property itself is false.  A bit string that is too long is accepted
    and gives a network without mask, in a certificate and in a ROA; *)
Theorem C68_overlong_refuted :
  decode_ip_ext [48; 16; 48; 14; 4; 2; 0; 1; 48; 8; 3; 6; 0; 10; 0; 0; 0; 1] =
    ([INet (Some (mkNet [10; 0; 0; 0] []))], true) /\
  exists blocks, read_as t_roa_content roa_content_of
     [48; 23; 2; 1; 1; 48; 18; 48; 16; 4; 2; 0; 1; 48; 10; 48; 8; 3; 6; 0; 10; 0; 0; 0; 1] = Some (1, blocks) /\
   convert_entries blocks = Some [mkEntry (mkNet [10; 0; 0; 0] []) 0].
Proof. split; [vm_compute; reflexivity|]. eexists. split; vm_compute; reflexivity. Qed.
Print Assumptions C68_overlong_refuted.

(** an unknown family gives a nil network and ranges without ends; *)
Theorem C68_family_refuted :
  decode_ip_ext [48; 22; 48; 20; 4; 2; 0; 3; 48; 14; 3; 2; 0; 10; 48; 8; 3; 2; 0; 10; 3; 2; 0; 11] =
    ([INet None; IRange [] []], true).
Proof. vm_compute; reflexivity. Qed.
Print Assumptions C68_family_refuted.

(** a range may end before it begins, or lose its upper end; *)
Theorem C68_range_refuted :
  decode_ip_ext [48; 34; 48; 32; 4; 2; 0; 1; 48; 26; 48; 8; 3; 2; 0; 11; 3; 2; 0; 10; 48; 14; 3; 2; 0; 11; 3; 8; 0; 10; 0; 0; 0; 0; 0; 1] =
    ([IRange [11; 0; 0; 0] [10; 255; 255; 255]; IRange [11; 0; 0; 0] []], true).
Proof. vm_compute; reflexivity. Qed.
Print Assumptions C68_range_refuted.

(** and elements of another form are ignored: these octets contain a prefix
    under the tag of an OCTET STRING only. *)
Theorem C68_ignored_refuted :
  decode_ip_ext [48; 12; 48; 10; 4; 2; 0; 1; 48; 4; 4; 2; 0; 10] = ([], true).
Proof. vm_compute; reflexivity. Qed.
Print Assumptions C68_ignored_refuted.
