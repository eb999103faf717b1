{
 "claims": [
  {
   "property": "C01",
   "status": "proved",
   "theorems": [
    "C01_explored_chain_to_tal",
    "C01_valid_certificates_have_chain",
    "C01_valid_roas_have_chain"
   ],
   "note": "For every operation list; signature verification and the decoders are arbitrary functions."
  },
  {
   "property": "C02",
   "status": "proved",
   "theorems": [
    "C02_invalidation_exact",
    "C02_below_is_issued",
    "C02_issued_is_removed"
   ],
   "note": "Exact effect on the three validity maps, and that what is below was issued by the key. Manifests are kept (see C09)."
  },
  {
   "property": "C03",
   "status": "proved",
   "theorems": [
    "C03_invalidation_permanent",
    "C03_not_valid_stays"
   ],
   "note": "For every later operation list."
  },
  {
   "property": "C04",
   "status": "partial",
   "theorems": [
    "C04_listed_before_arrival",
    "C04_listed_after_arrival_partial",
    "C04_revoked_before_arrival",
    "C04_revoked_after_arrival_partial",
    "C04_serial_reuse_refuted"
   ],
   "note": "CRL first: proved. Certificate first: proved when key identifiers have one length and serials are unique per issuer; serial reuse is a counterexample (_refuted). Trust anchors are exempt."
  },
  {
   "property": "C05",
   "status": "partial",
   "theorems": [
    "C05_invalidates_only_own",
    "C05_other_issuers_untouched_partial",
    "C05_created_crl_names_key",
    "C05_longer_key_refuted",
    "C05_further_fields_refuted",
    "C05_invalidates_only_listed",
    "C05_other_issuer_not_marked_partial",
    "C05_rejected_crl_no_effect",
    "C05_serial_key_collision_refuted"
   ],
   "note": "What a CRL removes is proved to be below a listed certificate of its issuer, and the issuer to be the key identifier in its octets for short keys and no further fields. Later rejections: proved for key identifiers of the same length; the index key is a concatenation and collides otherwise (_refuted)."
  },
  {
   "property": "C06",
   "status": "partial",
   "theorems": [
    "C06_ip_claims_held_partial",
    "C06_as_claims_held_partial",
    "C06_inherit_twice_refuted",
    "C06_anchor_inherits_refuted"
   ],
   "note": "Containment one level up, or two through an inheriting issuer; two inheriting issuers in a row or an inheriting anchor are counterexamples (_refuted). IPv4-mapped bounds excluded (see C15)."
  },
  {
   "property": "C07",
   "status": "partial",
   "theorems": [
    "C07_key_of_tal",
    "C07_trust_only_from_tal",
    "C07_no_issuer_is_anchor",
    "C07_anchor_signature_refuted"
   ],
   "note": "Key binding and origin of trust proved, also end to end through exploration (C01_explored_chain_to_tal); the self-signature of an anchor is never verified (_refuted)."
  },
  {
   "property": "C08",
   "status": "partial",
   "theorems": [
    "C08_conflict_no_effect",
    "C08_conflict_reported",
    "C08_roa_index_overwritten_refuted"
   ],
   "note": "Stored objects and validity maps never change on a conflict, and the caller is told; the all-ROAs index is overwritten (_refuted)."
  },
  {
   "property": "C09",
   "status": "partial",
   "theorems": [
    "C09_indexes_agree",
    "C09_manifest_of_invalid_certificate_refuted"
   ],
   "note": "Agreement of the indexes proved, except that valid manifests keep entries whose certificate was invalidated (_refuted)."
  },
  {
   "property": "C10",
   "status": "partial",
   "theorems": [
    "C10_bad_entry_discards_ca",
    "C10_valid_ca_manifest_complete_partial",
    "C10_claimed_path_refuted"
   ],
   "note": "Proved for every entry that is looked at as an entry of that manifest, for all caches and orders. A path named first by another object is looked at only there, so the digest goes unchecked (_refuted)."
  },
  {
   "property": "C11",
   "status": "proved",
   "theorems": [
    "C11_stale_manifest_discards_ca"
   ],
   "note": "With strict manifests and hashes (the defaults), for every listed file met and every clock."
  },
  {
   "property": "C12",
   "status": "proved",
   "theorems": [
    "C12_run_is_sequence",
    "C12_paths_once",
    "C12_all_found",
    "C12_terminates"
   ],
   "note": "All finite caches; cycles included. The bound is the number of files that the cached files can name."
  },
  {
   "property": "C13",
   "status": "proved",
   "theorems": [
    "C13_only_matching_files"
   ],
   "note": "The validator state is that of a run on files with matching digests; SHA-256 is an arbitrary function."
  },
  {
   "property": "C14",
   "status": "partial",
   "theorems": [
    "C14_loops_end",
    "C14_no_panic_partial",
    "C14_next_no_panic_partial",
    "C14_unknown_family_refuted",
    "C14_crl_unknown_issuer_refuted"
   ],
   "note": "Termination proved for all inputs; absence of panics under stated conditions on objects, with counterexamples outside them (_refuted)."
  },
  {
   "property": "C15",
   "status": "partial",
   "theorems": [
    "C15_membership_is_interval",
    "C15_families_mixed_refuted",
    "C15_own_family_missing_refuted"
   ],
   "note": "Proved for every element and address that is not an IPv4-mapped IPv6 address; the full statement is false there (two _refuted theorems)."
  },
  {
   "property": "C16",
   "status": "partial",
   "theorems": [
    "C16_decoded_prefix",
    "C16_decoded_min",
    "C16_decoded_max",
    "C16_get_range",
    "C16_overlong_accepted_refuted"
   ],
   "note": "Proved for every bit string that fits its family; longer ones are accepted with an empty mask (_refuted)."
  },
  {
   "property": "C17",
   "status": "partial",
   "theorems": [
    "C17_partition",
    "C17_classification",
    "C17_as_partition",
    "C17_contained_rejected_refuted",
    "C17_unknown_family_panic_refuted"
   ],
   "note": "The partition holds for all lists; the meaning of the parts holds unless a bound of a claim is an IPv4-mapped address or an element has an unknown family (_refuted)."
  },
  {
   "property": "C18",
   "status": "partial",
   "theorems": [
    "C18_as_containment",
    "C18_as_exact",
    "C18_as_classification",
    "C18_mixed_inherit_refuted"
   ],
   "note": "Proved for all lists; when an inherit element is mixed with ranges the answer depends on the order (_refuted)."
  },
  {
   "property": "C19",
   "status": "partial",
   "theorems": [
    "C19_ip_roundtrip",
    "C19_as_roundtrip",
    "C19_ipv4_range_refuted"
   ],
   "note": "Proved for prefixes, IPv6 ranges, inherit markers and AS lists; encoding an IPv4 range panics (_refuted)."
  },
  {
   "property": "C20",
   "status": "partial",
   "theorems": [
    "C20_entries_wellformed",
    "C20_decoded_entry",
    "C20_overlong_accepted_refuted"
   ],
   "note": "Proved for every prefix that fits its family; an overlong bit string passes the check (_refuted)."
  },
  {
   "property": "C21",
   "status": "partial",
   "theorems": [
    "C21_validated_covered",
    "C21_malformed_refuted",
    "C21_family_refuted"
   ],
   "note": "Proved for well-formed certificates and entries; false for malformed encodings and for IPv4-mapped certificate prefixes (_refuted)."
  },
  {
   "property": "C22",
   "status": "proved",
   "theorems": [
    "C22_roa_roundtrip"
   ],
   "note": "All lists of entries without host bits, max length >= 0. The DER layer (encoding/asn1) is outside the model."
  },
  {
   "property": "C23",
   "status": "proved",
   "theorems": [
    "C23_terminates",
    "C23_single_definite"
   ],
   "note": "All byte strings; sizes below 2^63."
  },
  {
   "property": "C24",
   "status": "proved",
   "theorems": [
    "C24_der_fixpoint",
    "C24_idempotent"
   ],
   "note": "All DER values below 2^31 bytes (the code rejects longer length fields)."
  },
  {
   "property": "C25",
   "status": "partial",
   "theorems": [
    "C25_panics_refuted",
    "C25_complete_value_partial"
   ],
   "note": "False: truncated inputs panic (_refuted). Proved for every input starting with a complete BER value."
  },
  {
   "property": "C26",
   "status": "partial",
   "theorems": [
    "C26_no_linear_bound_refuted",
    "C26_exponential_refuted",
    "C26_complete_value_partial"
   ],
   "note": "False: output can be exponential in the input (_refuted). Proved for every complete BER value (factor 2)."
  },
  {
   "property": "C27",
   "status": "partial",
   "theorems": [
    "C27_accepted_partial",
    "C27_forgery_refuted",
    "C27_algorithms_match",
    "C27_no_panic"
   ],
   "note": "What is accepted is characterised exactly; padding, algorithm and trailing octets are not checked, so for exponent 3 signatures can be forged for any content (_refuted, for every modulus above 2^1400)."
  },
  {
   "property": "C28",
   "status": "proved",
   "theorems": [
    "C28_reassembled",
    "C28_only_fragments",
    "C28_terminates"
   ],
   "note": "All fragment lists with DER lengths below 2^31, both directions, and termination."
  },
  {
   "property": "C29",
   "status": "partial",
   "theorems": [
    "C29_round_trip_partial",
    "C29_length_refuted",
    "C29_1024_2048",
    "C29_3072_4096_refuted",
    "C29_written",
    "C29_read_then_write_refuted",
    "C29_accepted",
    "C29_text_layer"
   ],
   "note": "Proved, down to the octets of the key, for key encodings whose length is a multiple of three (with exponent 65537: moduli of 1024 and 2048 bits); all others (3072 and 4096 bits among them) cannot be read back, and writing a TAL that was read panics (_refuted). Every accepted TAL is described by a grammar. URIs are those that the text form can carry (Spec/TalSpec.v)."
  },
  {
   "property": "C30",
   "status": "partial",
   "theorems": [
    "C30_first_rsync",
    "C30_made_up",
    "C30_made_up_injective",
    "C30_collision_partial",
    "C30_name_taken_refuted",
    "C30_name"
   ],
   "note": "Proved, except that a TAL may name the made-up place of another one itself (_refuted)."
  },
  {
   "property": "C31",
   "status": "partial",
   "theorems": [
    "C31_update_partial",
    "C31_ends",
    "C31_wraparound_refuted"
   ],
   "note": "Proved for every notification with fewer than 2^62 deltas and every stored serial below 2^63-1, where the loop wraps around (_refuted). An announced serial of 2^63-1 always leads to the snapshot. Documents are given already parsed; digests are not checked by the code."
  },
  {
   "property": "C32",
   "status": "partial",
   "theorems": [
    "C32_state_partial",
    "C32_failed_file",
    "C32_rollback_refuted",
    "C32_withdraw_error_refuted"
   ],
   "note": "Proved, except that a lower serial of the same session is accepted without effect and that errors for withdrawals in deltas are dropped (_refuted)."
  },
  {
   "property": "C33",
   "status": "partial",
   "theorems": [
    "C33_retry",
    "C33_retry_later_partial",
    "C33_new_session_refuted"
   ],
   "note": "Proved for any number of interruptions at any elementary file operation, also when the server has moved on within the session; false when the session changes in between (_refuted)."
  },
  {
   "property": "C34",
   "status": "partial",
   "theorems": [
    "C34_content_replaced",
    "C34_content_replaced_partial",
    "C34_withdrawn_refuted",
    "C34_unlisted_refuted"
   ],
   "note": "False: withdrawals leave empty files and snapshots keep unlisted ones (_refuted). Proved: the last element delivered for a place decides its content (C34_content_replaced; for withdrawals in deltas, whose errors are ignored, a directory may be in the place, C34_content_replaced_partial)."
  },
  {
   "property": "C35",
   "status": "proved",
   "theorems": [
    "C35_exact",
    "C35_unambiguous"
   ],
   "note": "Exact in both directions for blanks and line ends; text with tabs is refused. Unused trailing bits are not checked, as in Go's decoder."
  },
  {
   "property": "C36",
   "status": "partial",
   "theorems": [
    "C36_files_inside",
    "C36_accepted_inside",
    "C36_steps_up_refused",
    "C36_steps_up_not_listed",
    "C36_directories_refuted"
   ],
   "note": "Proved for files, and for directories of accepted addresses, in a file system without symbolic links; refused addresses make directories outside (_refuted)."
  },
  {
   "property": "C37",
   "status": "partial",
   "theorems": [
    "C37_own_host_partial",
    "C37_substring_refuted",
    "C37_dot_host_refuted"
   ],
   "note": "Proved up to the case of an address containing the domain's text further on; there, and for host \".\", other hosts' directories are written (_refuted)."
  },
  {
   "property": "C38",
   "status": "partial",
   "theorems": [
    "C38_same_place_partial",
    "C38_read_after_write_partial",
    "C38_twice_refuted"
   ],
   "note": "Proved for addresses with one occurrence of rsync:// and a non-empty cache path; false otherwise (_refuted)."
  },
  {
   "property": "C39",
   "status": "partial",
   "theorems": [
    "C39_jobs_left",
    "C39_stored",
    "C39_two_modules_refuted"
   ],
   "note": "Proved for the addresses as they are bound to modules, for all schedules; with two modules behind one address the first keeps its rsync job (_refuted)."
  },
  {
   "property": "C40",
   "status": "proved",
   "theorems": [
    "C40_every_job_once",
    "C40_no_job_lost",
    "C40_no_deadlock",
    "C40_ends",
    "C40_rrdp_ends",
    "C40_no_worker_stuck"
   ],
   "note": "For any job whose steps can always continue and are finitely many; shown for the RRDP jobs. With no worker the pool is stuck (stated)."
  },
  {
   "property": "C41",
   "status": "proved",
   "theorems": [
    "C41_pinned",
    "C41_module_of_host",
    "C41_override_ignored"
   ],
   "note": "Over all sequences of rounds, certificates, fetch results and schedules."
  },
  {
   "property": "C42",
   "status": "partial",
   "theorems": [
    "C42_served_only_partial",
    "C42_stays_partial",
    "C42_from_then_on_refuted",
    "C42_forced_refuted"
   ],
   "note": "'Refused before' proved, counting the maximum of iterations as stable; 'served from then on' is false (_refuted), proved while validations find nothing new."
  },
  {
   "property": "C43",
   "status": "partial",
   "theorems": [
    "C43_stable_iff",
    "C43_bounded",
    "C43_max_refuted"
   ],
   "note": "Proved with the bound max+1; the bound max is false (_refuted)."
  },
  {
   "property": "C44",
   "status": "partial",
   "theorems": [
    "C44_one_entry_per_vrp",
    "C44_generated_without_duplicates",
    "C44_slash_refuted"
   ],
   "note": "Proved for all lists whose AS texts contain no slash, hence for every generated list; false for arbitrary texts (_refuted)."
  },
  {
   "property": "C45",
   "status": "partial",
   "theorems": [
    "C45_keeps_short_prefixes",
    "C45_panics_iff_unreadable",
    "C45_generation_returns",
    "C45_generated_prefixes_short",
    "C45_malformed_anchor_refuted"
   ],
   "note": "Proved for all lists of readable prefixes; panics exactly on others. Generation never panics for decoded objects below well-formed trust anchors; below a malformed one it does (_refuted)."
  },
  {
   "property": "C46",
   "status": "partial",
   "theorems": [
    "C46_counts_partial",
    "C46_duplicates_refuted"
   ],
   "note": "False: counted before the filters (_refuted). Proved: equal exactly when nothing was dropped."
  },
  {
   "property": "C47",
   "status": "partial",
   "theorems": [
    "C47_tag_partial",
    "C47_not_modified_iff_tag",
    "C47_same_second_refuted"
   ],
   "note": "False: the tag covers second and count only (_refuted). Proved: it determines these for a hash without collisions."
  },
  {
   "property": "C48",
   "status": "partial",
   "theorems": [
    "C48_rfc6811_partial",
    "C48_state_determined",
    "C48_mapped_refuted",
    "C48_as0_refuted",
    "C48_mask_refuted"
   ],
   "note": "Proved for payloads and routes with contiguous masks and without IPv4-mapped addresses, fewer than 2^31-1 payloads; false for mapped prefixes and non-contiguous masks, and AS 0 matches (_refuted)."
  },
  {
   "property": "C49",
   "status": "partial",
   "theorems": [
    "C49_lookup_v4_partial",
    "C49_lookup_v6_partial",
    "C49_long_key_refuted"
   ],
   "note": "Proved for both families, fewer than 2^31-1 insertions of keys whose length fits the family; a longer IPv4 key is not found again (_refuted)."
  },
  {
   "property": "C50",
   "status": "proved",
   "theorems": [
    "C50_digests_order_independent",
    "C50_signed_list_accepted",
    "C50_signature_binds_entries",
    "C50_anchor_name_not_signed",
    "C50_generated_lists_clean"
   ],
   "note": "All permutations, any key pair whose signatures verify; moreover an accepted list has the signed authorisations and times. Trust anchor names and the count are not covered (stated)."
  },
  {
   "property": "C51",
   "status": "partial",
   "theorems": [
    "C51_chains_finite",
    "C51_chains_reach_anchor_partial",
    "C51_submitted_chains_partial",
    "C51_foreign_issuer_refuted",
    "C51_unreadable_file_refuted"
   ],
   "note": "Termination, absence of panics and issuer links while building chains proved for all states; reaching a trust anchor needs non-empty key identifiers and trust anchors without foreign issuer; otherwise a nil file is submitted and panics (_refuted)."
  },
  {
   "property": "C52",
   "status": "partial",
   "theorems": [
    "C52_issuer_valid_partial",
    "C52_manifest_of_other_ca_refuted"
   ],
   "note": "The property is false as stated: the manifest of one CA is honoured for another (_refuted). Proved: an accepted manifest is signed inside its window by an unrevoked certificate of some CA with a chain to a trust anchor."
  },
  {
   "property": "C53",
   "status": "partial",
   "theorems": [
    "C53_value_preserved",
    "C53_empty_indefinite_refuted"
   ],
   "note": "Proved for all BER values below 2^47 bytes without empty indefinite-length values; those are misread (_refuted)."
  },
  {
   "property": "C54",
   "status": "partial",
   "theorems": [
    "C54_named_elsewhere_partial",
    "C54_suppression_refuted"
   ],
   "note": "The property is false as stated: a CA can name another CA's file and so suppress it (_refuted). Proved: that is the only way; an entry of an accepted manifest is looked at exactly once, and as an entry of that manifest unless another accepted object or a starting file names its URI."
  },
  {
   "property": "C55",
   "status": "partial",
   "theorems": [
    "C55_accepted_partial",
    "C55_long_attributes_refuted"
   ],
   "note": "Proved for signed attributes whose encoding is shorter than 128 octets; longer ones are refused (_refuted)."
  },
  {
   "property": "C56",
   "status": "partial",
   "theorems": [
    "C56_no_exit_partial",
    "C56_scheme_refuted",
    "C56_nested_refuted"
   ],
   "note": "False: two kinds of addresses end the process (_refuted). Proved for addresses with the scheme when no file is in the way."
  },
  {
   "property": "C57",
   "status": "partial",
   "theorems": [
    "C57_own_place_partial",
    "C57_whole_cache_refuted",
    "C57_outside_refuted"
   ],
   "note": "Proved for hosts and modules that are proper names; false for '..' (_refuted). No symbolic links."
  },
  {
   "property": "C58",
   "status": "partial",
   "theorems": [
    "C58_own_servers_partial",
    "C58_frozen_refuted"
   ],
   "note": "False: state is kept per rsync module, to which any authority can bind its own address (_refuted). Proved: only addresses bound to the module matter."
  },
  {
   "property": "C59",
   "status": "partial",
   "theorems": [
    "C59_ends",
    "C59_output_partial",
    "C59_no_output_refuted"
   ],
   "note": "Termination proved; output is missing when the maximum of iterations ends the loop (_refuted)."
  },
  {
   "property": "C60",
   "status": "partial",
   "theorems": [
    "C60_downloaded_partial",
    "C60_fallback_refuted"
   ],
   "note": "Proved for HTTP downloads; after the rsync fallback the place is a directory and no download succeeds any more (_refuted)."
  },
  {
   "property": "C61",
   "status": "partial",
   "theorems": [
    "C61_entries_of_valid_roas",
    "C61_trust_anchor_named",
    "C61_entries_held_along_chain_partial",
    "C61_authorised_entries_exported",
    "C61_inherit_twice_refuted"
   ],
   "note": "Chain proved without conditions; holding of the addresses up to the anchor proved where resources are well formed and no inheriting certificate is issued by an inheriting one; false with nested inheritance (_refuted). Converse: authorised entries are exported."
  },
  {
   "property": "C62",
   "status": "partial",
   "theorems": [
    "C62_consumer_reads_entry_partial",
    "C62_wide_as_refuted"
   ],
   "note": "Proved for decoded objects below well-formed trust anchors and AS numbers of 32 bits; false for others (_refuted)."
  },
  {
   "property": "C63",
   "status": "partial",
   "theorems": [
    "C63_judged_by_valid_roas_partial",
    "C63_authorised_routes_valid_partial",
    "C63_origin_refuted"
   ],
   "note": "Both directions proved for decoded objects below well-formed trust anchors (C95 discharges this for octets in a cache); refuted for routes with origin 0, because an AS number beyond 32 bits reads as AS 0."
  },
  {
   "property": "C64",
   "status": "proved",
   "theorems": [
    "C64_ip_resources",
    "C64_as_resources",
    "C64_access_locations",
    "C64_key_identifier",
    "C64_roa",
    "C64_manifest"
   ],
   "note": "For encodings below 2^31 octets; IPv4 entries are returned first; an inherit marker stands alone."
  },
  {
   "property": "C65",
   "status": "partial",
   "theorems": [
    "C65_roa_type_refuted",
    "C65_manifest_type_refuted",
    "C65_any_type_refuted"
   ],
   "note": "False: the content type is never compared (_refuted, for every signer and every content type of at most eleven octets)."
  },
  {
   "property": "C66",
   "status": "partial",
   "theorems": [
    "C66_roa_accepted",
    "C66_manifest_accepted",
    "C66_xml_accepted",
    "C66_strict_refuted"
   ],
   "note": "Proved for ROAs, manifests and XML messages without the strict check; with it the library refuses its own objects (_refuted)."
  },
  {
   "property": "C67",
   "status": "partial",
   "theorems": [
    "C67_manifest_refuted",
    "C67_roa_refuted",
    "C67_roa_family_refuted",
    "C67_xml_refuted",
    "C67_roa_partial",
    "C67_manifest_partial",
    "C67_xml_partial"
   ],
   "note": "False for DecodeROA, DecodeManifest and DecodeXML (_refuted). Proved: exactly which objects make them panic. DecodeCertificate never does: its model is total, x509.ParseCertificate being a function."
  },
  {
   "property": "C68",
   "status": "partial",
   "theorems": [
    "C68_ip_extension",
    "C68_roa_contents",
    "C68_prefix",
    "C68_range",
    "C68_overlong_refuted",
    "C68_family_refuted",
    "C68_range_refuted",
    "C68_ignored_refuted"
   ],
   "note": "False for bit strings longer than the address, unknown families, reversed ranges (_refuted). Proved: a grammar of everything accepted, with the meaning of each production including these exceptions; prefixes and ranges that fit denote the encoded intervals."
  },
  {
   "property": "C69",
   "status": "partial",
   "theorems": [
    "C69_document_read",
    "C69_notification_read",
    "C69_ends",
    "C69_broken_refused",
    "C69_update_partial",
    "C69_broken_notification",
    "C69_broken_snapshot",
    "C69_foreign_notification",
    "C69_foreign_refuted",
    "C69_wrong_kind_refuted",
    "C69_twice_refuted"
   ],
   "note": "Proved for complete documents, documents breaking off inside their element, and foreign notifications; a snapshot or delta document without a root of the right name counts as an empty one, kind, session and serial of a document are not compared, repeated roots deliver twice (_refuted)."
  },
  {
   "property": "C70",
   "status": "proved",
   "theorems": [
    "C70_generalized",
    "C70_utc",
    "C70_instant",
    "C70_order"
   ],
   "note": "Both directions for the two parsers (encoding/asn1 and time.Parse as used by it), the day arithmetic against a calendar counted month by month, and the order of instants."
  },
  {
   "property": "C71",
   "status": "partial",
   "theorems": [
    "C71_as_extension",
    "C71_access",
    "C71_manifest",
    "C71_as_refuted",
    "C71_manifest_refuted"
   ],
   "note": "False for negative AS numbers, reversed ranges, ignored elements, UTCTime, other string types and trailing octets (_refuted). Proved: a grammar of everything accepted, with the meaning of each production."
  },
  {
   "property": "C72",
   "status": "partial",
   "theorems": [
    "C72_roa",
    "C72_manifest",
    "C72_wrapper_refuted"
   ],
   "note": "False as stated: the length of the wrapper around SignedData is not compared with its contents (_refuted). Proved: a grammar of all signed objects accepted, the contents used are the ones written there, and the signature covers the digest of these contents in the sense of C27. Objects shorter than 2^48 (2^46) octets."
  },
  {
   "property": "C73",
   "status": "proved",
   "theorems": [
    "C73_valid_roa",
    "C73_exported"
   ],
   "note": "For every cache of octets, all flags, and all results of the X.509 parser and signature verification: each exported entry comes from a file of the exploration that is a signed ROA, checked with the key of its certificate, which has a chain of verified signatures up to the key written in a locator; a manifest lists the file with its hash. Cached files shorter than 2^46 octets."
  },
  {
   "property": "C74",
   "status": "partial",
   "theorems": [
    "C74_octets_to_resources_partial"
   ],
   "note": "Proved where addresses of certificates are well formed and no inheriting certificate is issued by an inheriting one (C61 is false otherwise)."
  },
  {
   "property": "C75",
   "status": "partial",
   "theorems": [
    "C75_report_exact_partial",
    "C75_report_returns_partial",
    "C75_large_values_refuted",
    "C75_vanished_refuted",
    "C75_manifest_refuted"
   ],
   "note": "Exact for times from 1677 to 2262 and AS numbers of 32 bits, with the cache unchanged since the exploration; refuted outside these bounds, and for manifests of CAs that were invalidated, which stay in the report."
  },
  {
   "property": "C76",
   "status": "partial",
   "theorems": [
    "C76_certificate",
    "C76_critical_refuted"
   ],
   "note": "The contents are proved for all byte strings and for every way the library may refuse further certificates; refuted: unknown critical extensions are passed over (the program never looks at UnhandledCriticalExtensions). crypto/x509 is not in /repo: the model follows the vendored copy, variables cover known differences."
  },
  {
   "property": "C77",
   "status": "partial",
   "theorems": [
    "C77_issued",
    "C77_path_length_refuted"
   ],
   "note": "Authority, key usage and the RSA signature with SHA-256 are proved; other signature algorithms are a variable, and so are the keys for which the vendored copy makes an exception. Refuted: the path length is never looked at."
  },
  {
   "property": "C78",
   "status": "proved",
   "theorems": [
    "C78_valid_roa",
    "C78_exported"
   ],
   "note": "For every cache of octets (files shorter than 2^46 octets), all flags and library versions. Signatures of other algorithms than RSA with SHA-256 are decided by a variable. crypto/x509 itself is modelled after the vendored copy."
  },
  {
   "property": "C79",
   "status": "partial",
   "theorems": [
    "C79_list",
    "C79_signed",
    "C79_signer_refuted",
    "C79_window_refuted"
   ],
   "note": "Contents and signature are proved; refuted: a certificate that is no authority may sign a list, and a list is accepted after its next update."
  },
  {
   "property": "C80",
   "status": "partial",
   "theorems": [
    "C80_run_is_sequence",
    "C80_only_these_files",
    "C80_chain_to_tal",
    "C80_terminates",
    "C80_roas_found_refuted",
    "C80_digest_refuted"
   ],
   "note": "Termination, origin of the files and chain of trust are proved. False: the directory read has the name of the address instead of its local copy, so nothing below the trust anchors is found (proved for every cache); digests on manifests have no effect (_refuted)."
  },
  {
   "property": "C81",
   "status": "partial",
   "theorems": [
    "C81_modules_once",
    "C81_page",
    "C81_address_named",
    "C81_registered",
    "C81_latest_refuted",
    "C81_own_tal_refuted"
   ],
   "note": "Modules, lists and names are exact, and every address shown was registered with its module. False: the address shown need not be the one used for fetching, since an update through a pointer into an array that append has left is lost; and it may come from a certificate below another locator (_refuted)."
  },
  {
   "property": "C82",
   "status": "partial",
   "theorems": [
    "C82_exact_partial",
    "C82_valids",
    "C82_returns_partial",
    "C82_unreadable_time",
    "C82_time",
    "C82_as_octorpki",
    "C82_historical_refuted"
   ],
   "note": "Lines, their order and files are exact; coverage for certificates with plain addresses that do not inherit, and no panic if every prefix decoded. False: manifests are compared with the clock, not with the time given, and a time that cannot be read gives an empty list without a message."
  },
  {
   "property": "C83",
   "status": "partial",
   "theorems": [
    "C83_pairs",
    "C83_place_partial",
    "C83_no_key",
    "C83_order_refuted",
    "C83_equals_refuted"
   ],
   "note": "Pairs are exact; places are independent of the order if no other key occurs in address or place. False for keys that overlap (_refuted); a directory with = in its name is passed over."
  },
  {
   "property": "C84",
   "status": "partial",
   "theorems": [
    "C84_octo_each_once",
    "C84_octo_ends",
    "C84_octo_all_submitted",
    "C84_octo_no_workers_refuted",
    "C84_ctrpki_ends",
    "C84_ctrpki_no_deadlock",
    "C84_ctrpki_submitted_partial",
    "C84_ctrpki_may_submit_none_refuted",
    "C84_ctrpki_chains",
    "C84_chains_again_refuted"
   ],
   "note": "Holds for octorpki with at least one worker; without workers it hangs (_refuted). ctrpki never gets stuck but may end with up to as many chains unsubmitted as it has workers, possibly all of them (_refuted), and submits the chains of earlier locators again (_refuted)."
  },
  {
   "property": "C85",
   "status": "partial",
   "theorems": [
    "C85_ends",
    "C85_nothing_else",
    "C85_apart",
    "C85_covered_partial",
    "C85_covered_in_order",
    "C85_later_parent_refuted",
    "C85_host_only_refuted"
   ],
   "note": "Termination, origin and separation hold for all lists. Coverage is characterised exactly; it fails for an address added after one below it (the counter of an entry that is found is not stored) and for addresses without module (_refuted)."
  },
  {
   "property": "C86",
   "status": "partial",
   "theorems": [
    "C86_state_kept_partial",
    "C86_order_partial",
    "C86_cut_short_partial",
    "C86_next_round_partial",
    "C86_reader_ends",
    "C86_reader_complete",
    "C86_any_text_refuted",
    "C86_usable_map_refuted",
    "C86_any_state",
    "C86_replaced_unicode",
    "C86_reader_sound",
    "C86_loaded"
   ],
   "note": "encoding/json is modelled, not part of the repository. Unicode texts are kept exactly, any others with the bytes replaced that are not UTF-8; addresses that are not Unicode can then collapse into one, and a file containing null leaves a nil map (_refuted). A failing write is only covered as a prefix of the new contents."
  },
  {
   "property": "C87",
   "status": "proved",
   "theorems": [
    "C87_list_text",
    "C87_made_lists",
    "C87_cut_short",
    "C87_any_list",
    "C87_any_cut_short"
   ],
   "note": "encoding/json is modelled, not part of the repository. Exact for Unicode texts (the quantifier of the property); for any other bytes the text carries the list with the bytes replaced that are not UTF-8 (C87_any_list)."
  },
  {
   "property": "C88",
   "status": "partial",
   "theorems": [
    "C88_made",
    "C88_named",
    "C88_accepted",
    "C88_revokes",
    "C88_empty_refuted"
   ],
   "note": "Made, read back, attributed, accepted and effective for every order with a name that is a SEQUENCE, calendar dates, key identifiers of at most 125 octets and numbers of at most 20 octets; the result is shorter than 2^31 octets. Refuted: a list without entries has an empty SEQUENCE where RFC 5280 5.1.2.6 wants none. That the signer makes PKCS #1 signatures of the issuer's key is a hypothesis."
  },
  {
   "property": "C89",
   "status": "partial",
   "theorems": [
    "C89_reported",
    "C89_located_partial",
    "C89_directory_refuted",
    "C89_deletion_refuted",
    "C89_long_line_refuted",
    "C89_short_refuted"
   ],
   "note": "The report is proved for outputs made of lines shorter than 64 KiB and sources that are addresses; the place only for sources whose printed names are relative to all of them (a module, as octorpki passes it, or a trailing slash). Refuted: directories without trailing slash, file names that begin like a deletion, longer lines, sources of fewer than eight octets. What rsync prints and where it puts files is a specification of that program."
  },
  {
   "property": "C90",
   "status": "partial",
   "theorems": [
    "C90_same_exploration",
    "C90_reports_of_files",
    "C90_files_accounted_partial",
    "C90_no_silent_loss",
    "C90_error_type",
    "C90_nil_error_refuted",
    "C90_silent_refuted"
   ],
   "note": "Proved: every file is accepted, or reported itself, or unreadable in a repository not synchronised, or a revocation list reported by a nil error; no certificate stops being valid silently; the type of an error states the reason; reporting changes nothing. The last two ways of not being accepted leave no report that names the file (_refuted)."
  },
  {
   "property": "C91",
   "status": "partial",
   "theorems": [
    "C91_access_partial",
    "C91_access_read",
    "C91_ia5_refuted",
    "C91_policy_partial",
    "C91_no_policy_refuted",
    "C91_critical",
    "C91_certificate",
    "C91_absent",
    "C91_key_identifier",
    "C91_key_identifier_injective",
    "C91_created_locator_refuted"
   ],
   "note": "Proved: addresses in Unicode are written in the form of RFC 5280 and read back, others refused; policies with an ASCII address; criticality; resources and locations of a certificate with these extensions in any order; key identifiers and their injectivity up to collisions of SHA-1. Refuted: addresses outside ASCII are written, without an address an empty list of qualifiers is written, CheckCertificate crashes on a locator made by CreateTAL."
  },
  {
   "property": "C92",
   "status": "partial",
   "theorems": [
    "C92_same_as_cache",
    "C92_run_is_sequence",
    "C92_only_these_files",
    "C92_chain_to_tal",
    "C92_stream_given",
    "C92_terminates",
    "C92_strict_refuted",
    "C92_digest_refuted",
    "C92_expired_refuted",
    "C92_broken_refuted"
   ],
   "note": "Proved: exploration by manifests equals exploration of the corresponding cache with the digest checks switched off; in both modes the validator is given files of the queue and resources of named repositories only, valid certificates and ROAs chain to a locator, streams are given in order and once, and the run ends. Refuted: the strict setting has no effect (for all inputs), so altered files and expired manifests are accepted; a broken stream is taken for a complete one."
  },
  {
   "property": "C93",
   "status": "partial",
   "theorems": [
    "C93_inverse",
    "C93_same_power",
    "C93_decrypts",
    "C93_too_long",
    "C93_blinding",
    "C93_sound",
    "C93_key_pair",
    "C93_roa_accepted",
    "C93_list_signer",
    "C93_length_refuted"
   ],
   "note": "Proved for every key whose modulus is a product of different odd primes: the exponents undo each other, the computation with Chinese remainders equals the plain one for any number of primes, RSAPublicDecrypt gives back what PrivateEncrypt was given, blinding does not change signatures, SignPKCS1v15 makes the signatures that C66 and C88 assume (soundness for any key). Refuted: the result of PrivateEncrypt has as many octets as the modulus. SignPKCS1v15 is a library function, modelled from its documentation and source; negative exponents are outside of the model."
  },
  {
   "property": "C94",
   "status": "partial",
   "theorems": [
    "C94_guarded",
    "C94_locks",
    "C94_progress_partial",
    "C94_waits",
    "C94_no_going_back",
    "C94_stall_refuted",
    "C94_answers_refuted",
    "C94_races_refuted",
    "C94_age_refuted"
   ],
   "note": "Proved for all rounds of the loop, all requests and all schedules: the data under FetchLock, the domain, job, RRDP, information and resource locks and the data of the loop alone are not raced for; locks are released by their holders only and by all of them; the loop comes to the locators and to validation only when the fetching workers have ended (C94_waits); what is served never gets older; if the clients of /resources.json read, the loop can always go on and requests can be answered. Refuted: a client of /resources.json that does not read stops validation for good and blocks later clients; ROAList, ROAsTALsCount, LastComputed and ValidationDuration are raced for; a list is served with the age of another one. The atomic fields and the one-off mode are not modelled; a write to the client is taken to wait for the client (buffers are ignored)."
  },
  {
   "property": "C95",
   "status": "partial",
   "theorems": [
    "C95_generated_partial",
    "C95_told_partial",
    "C95_authorised_partial"
   ],
   "note": "Proved for all caches of octets whose trust anchors list addresses of the two families (without this C45_malformed_anchor_refuted applies): the list is generated, its text is read in one way, and verdicts rest on certified ROAs in the cache, and conversely for entries inside the resources of the ROA's own certificate. Routes with origin 0 are excluded for Valid, since a number beyond 32 bits reads as 0 (C63_origin_refuted); lists below 2^31-1 entries (C49). The consumer reads by the code of gortr's prefixfile; RTR itself is not modelled."
  },
  {
   "property": "C96",
   "status": "partial",
   "theorems": [
    "C96_revoked_partial",
    "C96_chain_partial",
    "C96_exported_partial",
    "C96_made",
    "C96_hidden_refuted",
    "C96_needed_refuted"
   ],
   "note": "Proved for every exploration, from any initial files and in any order: no certificate stays valid (or in the chain of a valid or exported ROA) that is on a list which was taken as a list, is published by the issuer (on its manifest, or named by a certificate it issued), has the right digest and is signed by the issuer's valid certificate. Excepted are certificates taken as trust anchors, and known certificates must not share identifier and serial number (C04_serial_reuse_refuted). A location taken first as something else is not used as a list (C96_hidden_refuted), and no list is needed for validity (C96_needed_refuted)."
  },
  {
   "property": "C97",
   "status": "partial",
   "theorems": [
    "C97_given_partial",
    "C97_client_partial",
    "C97_written",
    "C97_told_partial",
    "C97_incomplete_refuted",
    "C97_empty_refuted",
    "C97_stale_refuted"
   ],
   "note": "Proved for all sequences of validations and all moments: a list that is given is that of the last complete validation (or the initial empty one without -output.wait), the client is up to date if no two lists are made in one second and the hash has no collisions, one-off mode writes the list of the last validation, and what is told about routes rests on the cache of that validation (below plain anchors, as in C95). Refuted: with -output.wait the list of a validation that met new repositories is given out once a state was stable; without it an empty list is given at the start; two lists of one second with as many entries leave the client with the old one."
  },
  {
   "property": "C98",
   "status": "partial",
   "theorems": [
    "C98_accepted_partial",
    "C98_roa_accepted_partial",
    "C98_named_files_found_partial",
    "C98_entries_found_partial",
    "C98_exported_partial",
    "C98_key_taken_refuted"
   ],
   "note": "Proved for every exploration that ends without a crash, from any initial files and with anything else in the cache: files in order up to the anchor of a locator are valid, their ROAs are valid and exported, what they name and list is looked at. Missing: certificates whose issuer inherits resources. Two conditions about others are needed: no other file with the same key identifier (C98_key_taken_refuted: an object whose signature does not verify blocks it) and, for files to be looked at, nobody else naming the location (C54_suppression_refuted)."
  },
  {
   "property": "C99",
   "status": "partial",
   "theorems": [
    "C99_text_read",
    "C99_texts_only",
    "C99_any_octets",
    "C99_documents_read",
    "C99_cut_refused",
    "C99_update_partial",
    "C99_cut_snapshot",
    "C99_encoding_refuted",
    "C99_wellformed_refuted"
   ],
   "note": "Reading of texts, the converse, termination, the trichotomy for arbitrary octets and the refusal of texts cut off inside their element are proved for all octets and all tables of name characters; the update theorem is partial as C69 is (texts without an element of the right name or with several, octets that are no XML outside it). Documents in other encodings than UTF-8 count as empty and texts that are not well-formed are read (_refuted)."
  },
  {
   "property": "C100",
   "status": "partial",
   "theorems": [
    "C100_messages_decoded",
    "C100_same_accepted",
    "C100_inner_returns",
    "C100_inner_exact",
    "C100_written_read",
    "C100_inside_refuted",
    "C100_namespace_refuted",
    "C100_attributes_refuted",
    "C100_formats"
   ],
   "note": "Decoding is proved equivalent to the specification for all octets, all message types and all tables of name characters; DecodeInner returns for all octets; written messages are read back for values of allowed characters and a well-formed inside. Name spaces declared on the message, prefixes named like attributes, an inside that closes the message and octets that are no text are _refuted. Missing: the message that DecodeXML returns along with an error; white space beyond ASCII around the version."
  },
  {
   "property": "C101",
   "status": "partial",
   "theorems": [
    "C101_download",
    "C101_documents",
    "C101_bounded",
    "C101_large_last",
    "C101_large_text",
    "C101_failover",
    "C101_pool",
    "C101_asked_partial",
    "C101_ends",
    "C101_texts",
    "C101_callback_text",
    "C101_snapshot_instead_refuted",
    "C101_tal",
    "C101_tal_limit_refuted"
   ],
   "note": "All parts for all limits, answers, documents, callbacks and stored states, with the error texts of the callback and of bodies that break off assumed to differ from net/http's text for large bodies (proved for octorpki's callback). The addresses asked are stated for stored serials below 2^63-1 and notifications with serials of 64 bits (_partial). A snapshot after a failed delta and a limit for certificates of TALs are _refuted. Missing: answers that change during an update, redirects."
  },
  {
   "property": "C102",
   "status": "partial",
   "theorems": [
    "C102_origin",
    "C102_kept",
    "C102_read",
    "C102_arrives_partial",
    "C102_arrives_delta_partial",
    "C102_told_partial"
   ],
   "note": "Origin of every file: for all sequences of RRDP updates, TAL downloads and rsync runs, all answers, errors and starting states. That published elements are read: for updates from a snapshot or from deltas that end without error, stored serials below 2^63-1, addresses without a second rsync:// and whose place no later element has (_partial). What a consumer is told: below plain anchors, as in C95 (_partial). rsync is assumed to write only below the directory it is given. Missing: updates that run at the same time, links copied by rsync."
  },
  {
   "property": "C103",
   "status": "partial",
   "theorems": [
    "C103_reports",
    "C103_told",
    "C103_text_names",
    "C103_own_certificate",
    "C103_digest",
    "C103_resources",
    "C103_conflict",
    "C103_early",
    "C103_names",
    "C103_end_refuted",
    "C103_rdi_refuted",
    "C103_reason_refuted"
   ],
   "note": "C103_reports, _told, _text_names, _own_certificate, _digest, _conflict, _names, _resources and _early hold in full. Three parts are false for this code: C103_end_refuted (the beginning of validity is printed as its end), C103_rdi_refuted (AS numbers are printed in the place of routing domain identifiers), C103_reason_refuted (an altered file and a manifest out of date give the same report)."
  },
  {
   "property": "C104",
   "status": "partial",
   "theorems": [
    "C104_alone",
    "C104_others",
    "C104_same",
    "C104_last",
    "C104_read",
    "C104_accepted",
    "C104_any_order",
    "C104_moments",
    "C104_octets",
    "C104_ends",
    "C104_success",
    "C104_fatal",
    "C104_stays",
    "C104_hosts",
    "C104_hosts_end",
    "C104_whole_refuted"
   ],
   "note": "C104_alone, _others, _same, _last, _read, _accepted, _any_order, _moments, _octets, _ends, _success, _fatal, _stays, _hosts and _hosts_end hold in full. One part is false for this code: C104_whole_refuted (two fetches bound to the same host with different octets for one address can leave a mixture, although both succeed)."
  }
 ]
}