(** C15-C19: IP and AS resources of certificates. *)
From Coq Require Import Lia Permutation.
From Verif.Model Require Import Base NetIP CertRes.
From Verif.Spec Require Import Addr Resources Bits Canon.
From Verif.Proofs Require Import CertProofs DecodeProofs EncodeProofs Witness.

(** C15. An element contains an address exactly when the address is of the
    element's family and its number lies in the element's interval. *)
Theorem C15_membership_is_interval : forall i fam lo hi a,
  denotes i fam lo hi -> plain_addr a ->
  exists b, is_ip_in_range i a = Ret (b, false) /\
            (b = true <-> length a = fam /\ lo <= addr_val a <= hi).
Proof. intros i fam lo hi a Hd Ha. exact (denotes_member i fam lo hi a Hd (proj1 Ha) (plain_not_mapped a Ha)). Qed.
Print Assumptions C15_membership_is_interval.

Example C15_example :
  denotes (pfx (ip4 10 0 0 0) 8) 4 (10 * 2 ^ 24) (11 * 2 ^ 24 - 1) /\
  is_ip_in_range (pfx (ip4 10 0 0 0) 8) (ip4 10 255 0 1) = Ret (true, false) /\
  is_ip_in_range (pfx (ip4 10 0 0 0) 8) (ip4 11 0 0 0) = Ret (false, false).
Proof.
  split; [|split; reflexivity].
  apply (den_prefix (ip4 10 0 0 0) 8); [apply ip4_plain; reflexivity|unfold addr_bits; cbn; lia].
Qed.

(** C15 fails for IPv4-mapped IPv6 addresses: an IPv6 prefix contains IPv4
    addresses, and ::/0 does not contain an IPv6 address of its own family. *)
Theorem C15_families_mixed_refuted :
  exists i a, decode_ranges [0; 2] [OBits (mkBits (repeat 0 10 ++ [255; 255]) 96)] = ([i], true) /\
    length a = 4%nat /\ is_ip_in_range i a = Ret (true, false).
Proof. eexists _, [192; 0; 2; 1]. vm_compute. repeat split. Qed.
Print Assumptions C15_families_mixed_refuted.

Theorem C15_own_family_missing_refuted :
  exists i a, denotes i 16 0 (2 ^ 128 - 1) /\ length a = 16%nat /\ bytes_ok a = true /\
    is_ip_in_range i a = Ret (false, false).
Proof.
  exists (pfx (repeat 0 16) 0), (mapped 192 0 2 1). split; [|vm_compute; repeat split].
  apply (den_prefix (repeat 0 16) 0); [plain|unfold addr_bits; cbn; lia].
Qed.
Print Assumptions C15_own_family_missing_refuted.

(** C16. A decoded prefix denotes the numbers whose leading bits are the bit
    string, for every bit string that fits the family. *)
Theorem C16_decoded_prefix : forall fam n b,
  fam_octets fam n -> wf_bits b -> bs_len b <= 8 * Z.of_nat n ->
  (n = 16%nat -> ~ v4mapped (bits_val b * 2 ^ (128 - bs_len b))) ->
  denotes (INet (decode_ip fam b)) n
    (bits_val b * 2 ^ (8 * Z.of_nat n - bs_len b))
    ((bits_val b + 1) * 2 ^ (8 * Z.of_nat n - bs_len b) - 1).
Proof. exact decode_ip_denotes. Qed.
Print Assumptions C16_decoded_prefix.

(** The bounds of a range, mapped or not. *)
Theorem C16_decoded_min : forall fam n b,
  fam_octets fam n -> wf_bits b -> bs_len b <= 8 * Z.of_nat n ->
  exists a, decode_ip_minmax fam b false = Some a /\ length a = n /\ bytes_ok a = true /\
    addr_val a = bits_val b * 2 ^ (8 * Z.of_nat n - bs_len b).
Proof. exact decode_min_spec. Qed.
Print Assumptions C16_decoded_min.

Theorem C16_decoded_max : forall fam n b,
  fam_octets fam n -> wf_bits b -> bs_len b <= 8 * Z.of_nat n ->
  exists a, decode_ip_minmax fam b true = Some a /\ length a = n /\ bytes_ok a = true /\
    addr_val a = (bits_val b + 1) * 2 ^ (8 * Z.of_nat n - bs_len b) - 1.
Proof. exact decode_max_spec. Qed.
Print Assumptions C16_decoded_max.

(** The first and last address GetRange reports for an element are the ends
    of its interval. *)
Theorem C16_get_range : forall i fam lo hi,
  denotes i fam lo hi -> plain_bounds fam lo hi ->
  exists mn mx, ip_get_range i = Ret (mn, mx, false) /\ plain_addr mn /\ plain_addr mx /\
    length mn = fam /\ length mx = fam /\ addr_val mn = lo /\ addr_val mx = hi.
Proof. exact denotes_range. Qed.
Print Assumptions C16_get_range.

Example C16_example :
  fam_octets [0; 1] 4 /\ wf_bits (mkBits [10; 160] 11) /\ bits_val (mkBits [10; 160] 11) = 85 /\
  decode_ip_minmax [0; 1] (mkBits [10; 160] 11) true = Some (ip4 10 191 255 255) /\
  plain_bounds 4 (85 * 2 ^ 21) (86 * 2 ^ 21 - 1).
Proof.
  split; [left; split; [reflexivity|exists 0, []; reflexivity]|].
  split; [unfold wf_bits; cbn; repeat split; lia|].
  split; [reflexivity|]. split; [reflexivity|]. split; [lia|discriminate].
Qed.

(** A bit string longer than the family is accepted by the decoder and gives
    a prefix without mask: not a set of addresses at all. *)
Theorem C16_overlong_accepted_refuted : forall fam n b,
  fam_octets fam n -> 8 * Z.of_nat n < bs_len b ->
  exists net, decode_ip fam b = Some net /\ nmask net = [].
Proof. exact decode_ip_too_long. Qed.
Print Assumptions C16_overlong_accepted_refuted.

(** C17. The three parts are exactly the list. *)
Theorem C17_partition : forall l parent v iv c,
  validate_ip_list l parent = Ret (v, iv, c) -> Permutation l (v ++ iv ++ c).
Proof. exact validate_ip_list_perm. Qed.
Print Assumptions C17_partition.

(** The meaning of each part, and absence of panics. *)
Theorem C17_classification : forall l parent,
  wf_list parent -> Forall wf_claim l ->
  exists v iv c, validate_ip_list l parent = Ret (v, iv, c) /\
    (forall i, In i v -> (exists fam, inherits i fam) \/
       exists fam lo hi, denotes i fam lo hi /\ covered parent fam lo hi) /\
    (forall i, In i c -> exists fam lo hi, denotes i fam lo hi /\ inherited parent fam) /\
    (forall i, In i iv -> exists fam lo hi, denotes i fam lo hi /\
       ~ covered parent fam lo hi /\ ~ inherited parent fam).
Proof. exact validate_ip_list_spec. Qed.
Print Assumptions C17_classification.

Theorem C17_as_partition : forall l parent v iv c,
  validate_as_list l parent = (v, iv, c) -> Permutation l (v ++ iv ++ c).
Proof. exact validate_as_list_perm. Qed.
Print Assumptions C17_as_partition.

Example C17_example :
  wf_list [pfx (ip4 10 0 0 0) 8; INull 2] /\
  Forall wf_claim [pfx (ip4 10 1 0 0) 16; pfx (ip4 11 0 0 0) 8; pfx (ip6 0) 32] /\
  validate_ip_list [pfx (ip4 10 1 0 0) 16; pfx (ip4 11 0 0 0) 8; pfx (ip6 0) 32]
                   [pfx (ip4 10 0 0 0) 8; INull 2]
   = Ret ([pfx (ip4 10 1 0 0) 16], [pfx (ip4 11 0 0 0) 8], [pfx (ip6 0) 32]).
Proof.
  split.
  { constructor; [left|constructor; [right; exists 16%nat; constructor|constructor]].
    do 3 eexists. apply (den_prefix (ip4 10 0 0 0) 8); [plain|unfold addr_bits; cbn; lia]. }
  split; [|reflexivity].
  constructor; [|constructor; [|constructor; [|constructor]]]; right; do 3 eexists.
  - split; [apply (den_prefix (ip4 10 1 0 0) 16); [plain|unfold addr_bits; cbn; lia]|].
    split; [vm_compute; discriminate|discriminate].
  - split; [apply (den_prefix (ip4 11 0 0 0) 8); [plain|unfold addr_bits; cbn; lia]|].
    split; [vm_compute; discriminate|discriminate].
  - split; [apply (den_prefix (ip6 0) 32); [apply ip6_plain0|unfold addr_bits; cbn; lia]|].
    split; [vm_compute; discriminate|]. intros _. split; not_v4mapped.
Qed.

(** C17 fails when an end of the claim is an IPv4-mapped address: ::/80 is
    rejected against a parent holding ::/0. *)
Theorem C17_contained_rejected_refuted :
  exists child parent lo hi, denotes child 16 lo hi /\ covered [parent] 16 lo hi /\
    validate_ip_list [child] [parent] = Ret ([], [child], []).
Proof.
  exists (pfx (repeat 0 16) 80), (pfx (repeat 0 16) 0), 0, (2 ^ 48 - 1).
  assert (D : denotes (pfx (repeat 0 16) 80) 16 0 (2 ^ 48 - 1)).
  { apply (den_prefix (repeat 0 16) 80); [plain|unfold addr_bits; cbn; lia]. }
  split; [exact D|]. split; [|vm_compute; reflexivity].
  exists (pfx (repeat 0 16) 0), 0, (2 ^ 128 - 1). split; [left; reflexivity|].
  split; [apply (den_prefix (repeat 0 16) 0); [plain|unfold addr_bits; cbn; lia]|]. split; [lia|]. vm_compute. discriminate.
Qed.
Print Assumptions C17_contained_rejected_refuted.

(** An element of an unknown address family makes the comparison panic. *)
Theorem C17_unknown_family_panic_refuted :
  exists l, decode_ip_block [([0; 3], ChSeq [OBits (mkBits [10] 8)])] = (l, true) /\
    validate_ip_list l [] = Panic.
Proof. eexists. vm_compute. split; reflexivity. Qed.
Print Assumptions C17_unknown_family_panic_refuted.

(** C18. AS ranges. *)
Theorem C18_as_containment : forall l lo hi, lo <= hi ->
  exists b c, is_as_range_in l lo hi = (b, c) /\
    (b = true -> as_covered l lo hi) /\
    (c = true -> In ASNull l) /\
    (b = false -> c = false -> ~ as_covered l lo hi /\ ~ In ASNull l) /\
    (b = true -> c = false).
Proof. exact is_as_range_in_spec. Qed.
Print Assumptions C18_as_containment.

Theorem C18_as_exact : forall l lo hi, lo <= hi -> ~ In ASNull l ->
  (is_as_range_in l lo hi = (true, false) <-> as_covered l lo hi).
Proof. exact is_as_range_in_exact. Qed.
Print Assumptions C18_as_exact.

Theorem C18_as_classification : forall l parent v iv c,
  Forall as_claim l -> validate_as_list l parent = (v, iv, c) ->
    (forall i, In i v -> i = ASNull \/ exists lo hi, as_denotes i lo hi /\ as_covered parent lo hi) /\
    (forall i, In i c -> In ASNull parent /\ exists lo hi, as_denotes i lo hi) /\
    (forall i, In i iv -> exists lo hi, as_denotes i lo hi /\ ~ as_covered parent lo hi /\ ~ In ASNull parent).
Proof. intros l parent v iv c H. exact (validate_as_list_spec l parent H v iv c). Qed.
Print Assumptions C18_as_classification.

Example C18_example :
  is_as_range_in [ASNum 5; ASRange 10 20] 12 20 = (true, false) /\
  is_as_range_in [ASNum 5; ASRange 10 20] 5 20 = (false, false) /\
  as_covered [ASNum 5; ASRange 10 20] 12 20 /\ as_claim (ASRange 12 20).
Proof.
  repeat split.
  - exists (ASRange 10 20), 10, 20. repeat split; [right; left; reflexivity|constructor|lia|lia].
  - intros lo hi H. inversion H. lia.
Qed.

(** The order of elements matters once an inherit element is mixed in: the
    code stops at it although a later element contains the range. *)
Theorem C18_mixed_inherit_refuted : exists l lo hi,
  lo <= hi /\ as_covered l lo hi /\ is_as_range_in l lo hi = (false, true).
Proof.
  exists [ASNull; ASRange 10 20], 12, 13. split; [lia|]. split; [|reflexivity].
  exists (ASRange 10 20), 10, 20. repeat split; [right; left; reflexivity|constructor|lia|lia].
Qed.
Print Assumptions C18_mixed_inherit_refuted.

(** C19. Decoding an encoded list of prefixes, IPv6 ranges and inherit
    markers gives the IPv4 part followed by the IPv6 part. *)
Theorem C19_ip_roundtrip : forall l, all_canonical l ->
  exists blk, encode_ip_block l = Ret blk /\
    decode_ip_block blk = (family_part 4 l ++ family_part 16 l, true).
Proof. exact encode_decode_ip_block. Qed.
Print Assumptions C19_ip_roundtrip.

Theorem C19_as_roundtrip : forall l, l <> [] -> ~ In ASNull l \/ l = [ASNull] ->
  exists c, encode_as l = Some c /\ decode_as c = (l, true).
Proof. exact encode_decode_as. Qed.
Print Assumptions C19_as_roundtrip.

Example C19_example :
  all_canonical [IRange (ip6 0) (ip6 9); pfx (ip4 10 0 0 0) 8; pfx (ip4 10 128 0 0) 9] /\
  family_part 4 [IRange (ip6 0) (ip6 9); pfx (ip4 10 0 0 0) 8; pfx (ip4 10 128 0 0) 9]
   = [pfx (ip4 10 0 0 0) 8; pfx (ip4 10 128 0 0) 9] /\
  family_part 16 [IRange (ip6 0) (ip6 9); pfx (ip4 10 0 0 0) 8; pfx (ip4 10 128 0 0) 9]
   = [IRange (ip6 0) (ip6 9)].
Proof.
  split; [|split; reflexivity]. repeat constructor.
  - exists 16%nat. apply can_range6; [apply ip6_plain0|apply ip6_plain9|reflexivity|reflexivity].
  - exists 4%nat. apply (can_prefix (ip4 10 0 0 0) 8); [plain|unfold addr_bits; cbn; lia|reflexivity].
  - exists 4%nat. apply (can_prefix (ip4 10 128 0 0) 9); [plain|unfold addr_bits; cbn; lia|reflexivity].
Qed.

(** Encoding a range of 4-byte IPv4 addresses - which is what decoding
    produces - panics. *)
Theorem C19_ipv4_range_refuted : exists blk l,
  decode_ip_block blk = (l, true) /\ denotes (hd (INull 0) l) 4 (10 * 2 ^ 24) (10 * 2 ^ 24 + 7) /\
  encode_ip_block l = Panic.
Proof.
  exists [([0; 1], ChSeq [ORange (mkBits [10] 8) (mkBits [10; 0; 0; 0] 29)])].
  eexists. split; [vm_compute; reflexivity|]. split; [|vm_compute; reflexivity].
  apply (den_range (ip4 10 0 0 0) (ip4 10 0 0 7)); [plain|plain|reflexivity].
Qed.
Print Assumptions C19_ipv4_range_refuted.
