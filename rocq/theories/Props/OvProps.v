(** C48, C49, C63: origin validation against the exported list. *)
From Coq Require Import Lia String Permutation.
From Verif.Model Require Import Base NetIP CertRes Roa Str Tal Validator TalText NetText Output Patricia Ov.
From Verif.Spec Require Import Addr Resources Bits Canon Trust OutputSpec OvSpec.
From Verif.Proofs Require Import NetIPProofs OutputProofs ExportProofs ListProofs Witness ValidatorWitness OvProofs JudgeProofs.
From Verif.Props Require Import OutputProps.

(** C49. Insertions into the tree neither panic nor lose an update through a
    reallocated node, and a lookup yields the tags of exactly the keys that are a
    prefix of the query, shortest first and in order of insertion; below 2^31-1
    insertions of addresses whose length fits the family. *)
Theorem C49_lookup_v4_partial : forall l, (forall e, In e l -> fits4 (fst e)) -> 2 + 2 * Z.of_nat (length l) < 2 ^ 32 ->
  exists t, inserted add4 new4 l = TOk t /\ forall a, fits4 a -> find4 t a = TOk (lookup string4 l (string4 a)).
Proof. exact store4. Qed.
Print Assumptions C49_lookup_v4_partial.

Theorem C49_lookup_v6_partial : forall l, (forall e, In e l -> fits6 (fst e)) -> 2 + 2 * Z.of_nat (length l) < 2 ^ 32 ->
  exists t, inserted add6 new6 l = TOk t /\ forall a, fits6 a -> find6 t a = TOk (lookup string6 l (string6 a)).
Proof. exact store6. Qed.
Print Assumptions C49_lookup_v6_partial.

Definition w_a (a b c d p : Z) : paddr Z := mkPA (((a * 256 + b) * 256 + c) * 256 + d) p.
Definition w_keys : list (paddr Z * Z) :=
  [(w_a 10 1 0 0 16, 0); (w_a 10 0 0 0 8, 1); (w_a 10 1 0 0 16, 2); (w_a 0 0 0 0 0, 3); (w_a 11 0 0 0 8, 4);
   (w_a 10 1 2 3 32, 5); (w_a 10 1 2 0 24, 6)].
Example C49_example : (forall e, In e w_keys -> fits4 (fst e)) /\
  lookup string4 w_keys (string4 (w_a 10 1 2 3 32)) = [3; 1; 0; 2; 6; 5] /\
  lookup string4 w_keys (string4 (w_a 10 1 3 0 24)) = [3; 1; 0; 2].
Proof.
  split; [|vm_compute; split; reflexivity].
  intros e I. repeat (destruct I as [<-|I]; [split; cbn; lia|]). destruct I.
Qed.

Definition w_a6 (h p : Z) : paddr (Z * Z) := mkPA (h * 2 ^ 48, 0) p.
Example C49_example_v6 : lookup string6 [(w_a6 8193 16, 0); (w_a6 8192 3, 1); (w_a6 8193 64, 2); (w_a6 8194 16, 3)]
  (string6 (w_a6 8193 128)) = [1; 0; 2].
Proof. vm_compute. reflexivity. Qed.

(** C49 fails for a length beyond the family's: nothing is found under an
    IPv4 key of length 104, even by the same key. *)
Theorem C49_long_key_refuted : exists a t, add4 new4 a 0 = TOk t /\ find4 t a = TOk [].
Proof.
  exists (w_a 10 0 0 0 104). eexists. split; [vm_compute; reflexivity|]. vm_compute. reflexivity.
Qed.
Print Assumptions C49_long_key_refuted.

(** C48. RFC 6811 for every list of payloads whose prefixes are proper (or
    unreadable) and every route with a proper prefix; all covering payloads are
    reported.  A proper prefix has a contiguous mask and is not IPv4-mapped. *)
Theorem C48_rfc6811_partial : forall l, (forall v, In v l -> proper (o_prefix v)) -> 2 + 2 * Z.of_nat (length l) < 2 ^ 32 ->
  exists ov, new_ov l = TOk ov /\ forall rt ip p, prefix_is (rt_prefix rt) ip p ->
    exists m st, ov_validate ov rt = TOk (m, st, false) /\ rfc6811 l rt st /\ all_covering l rt m.
Proof. exact ov_rfc6811. Qed.
Print Assumptions C48_rfc6811_partial.

Definition w_net (ip : bytes) (p : Z) : option ipnet := Some (mkNet ip (cidr_mask p (addr_bits ip))).
Definition w_vrps : list oroa :=
  [mkORoa (w_net (ip4 10 0 0 0) 8) 16 65001; mkORoa (w_net (ip4 10 1 0 0) 16) 24 65002; mkORoa None 8 65003;
   mkORoa (w_net (ip6 0) 32) 48 65001].
Definition judge (l : list oroa) (rt : oroute) : tres (list oroa * vstate * bool) :=
  tbind (new_ov l) (fun ov => ov_validate ov rt).

Example C48_example : (forall v, In v w_vrps -> proper (o_prefix v)) /\
  judge w_vrps (mkRoute (w_net (ip4 10 1 2 0) 24) 65002) = TOk ([nth 0 w_vrps (mkORoa None 0 0); nth 1 w_vrps (mkORoa None 0 0)], Valid, false) /\
  judge w_vrps (mkRoute (w_net (ip4 10 2 0 0) 24) 65001) = TOk ([nth 0 w_vrps (mkORoa None 0 0)], Invalid, false) /\
  judge w_vrps (mkRoute (w_net (ip4 11 0 0 0) 24) 65001) = TOk ([], NotFound, false) /\
  judge w_vrps (mkRoute (w_net (ip6 0) 48) 65001) = TOk ([nth 3 w_vrps (mkORoa None 0 0)], Valid, false).
Proof.
  split; [|vm_compute; repeat split].
  intros v I. repeat (destruct I as [<-|I]; [|]); try destruct I; cbn [o_prefix]; try (now left); right;
    do 2 eexists; split; try (split; [|reflexivity]); try plain; vm_compute; split; discriminate.
Qed.

(** The state is a function of list and route. *)
Theorem C48_state_determined : forall l rt a b, rfc6811 l rt a -> rfc6811 l rt b -> a = b.
Proof. exact state_determined. Qed.
Print Assumptions C48_state_determined.

(** C48 fails for IPv4-mapped IPv6 prefixes: a payload does not match its own
    route, and an IPv4 payload makes an IPv6 route Invalid. *)
Theorem C48_mapped_refuted :
  (exists v, judge [v] (mkRoute (o_prefix v) (o_asn v)) = TOk ([], NotFound, false) /\
     o_prefix v = Some (mkNet (mapped 10 0 0 0) (cidr_mask 104 128)) /\ o_maxlen v = 128) /\
  (exists v, judge [v] (mkRoute (Some (mkNet (mapped 10 1 0 0) (cidr_mask 112 128))) 65000) = TOk ([v], Invalid, false) /\
     o_prefix v = Some (mkNet (ip4 10 0 0 0) (cidr_mask 8 32))).
Proof.
  split.
  - exists (mkORoa (Some (mkNet (mapped 10 0 0 0) (cidr_mask 104 128))) 128 65000). vm_compute. repeat split.
  - exists (mkORoa (Some (mkNet (ip4 10 0 0 0) (cidr_mask 8 32))) 8 65000). vm_compute. repeat split.
Qed.
Print Assumptions C48_mapped_refuted.

(** C48, RFC 7607 and RFC 6483 section 4: a payload for AS 0 makes routes with
    origin 0 Valid. *)
Theorem C48_as0_refuted : exists v, o_asn v = 0 /\ judge [v] (mkRoute (o_prefix v) 0) = TOk ([v], Valid, false).
Proof. exists (mkORoa (w_net (ip4 10 0 0 0) 8) 8 0). vm_compute. split; reflexivity. Qed.
Print Assumptions C48_as0_refuted.

(** C48: with a mask that is not contiguous a payload covers everything. *)
Theorem C48_mask_refuted : exists v, o_prefix v = Some (mkNet (ip4 10 0 0 0) [255; 0; 255; 0]) /\
  judge [v] (mkRoute (w_net (ip4 192 0 2 0) 24) 65000) = TOk ([v], Invalid, false).
Proof. exists (mkORoa (Some (mkNet (ip4 10 0 0 0) [255; 0; 255; 0])) 8 65001). vm_compute. split; reflexivity. Qed.
Print Assumptions C48_mask_refuted.

Section Props.
Variable sig_ok : cert -> cert -> bool.
Variable crl_sig_ok : cert -> crl -> bool.
Variable dec_tal : bytes -> option tal.
Variable dec_cert : bytes -> option cert.
Variable dec_roa : bytes -> option roa.
Variable dec_mft : bytes -> option mft.
Variable dec_crl : bytes -> option crl.
Variable hex_sha1 : bytes -> bytes.
Notation run := (run sig_ok crl_sig_ok dec_tal dec_cert dec_roa dec_mft dec_crl hex_sha1).
Notation anchor := (given_as_anchor dec_cert).

(** C63. A consumer that judges a route by a generated list reports Valid only
    if an entry of a valid ROA covers it, with the route's AS (unless that is 0)
    and a sufficient max length, and reports Invalid only if an entry of a valid
    ROA covers it. *)
Theorem C63_judged_by_valid_roas_partial : forall rs tals filt names paths now d L, produced run rs tals ->
  (forall q, In q rs -> decoded_state (anchor (run_ops q)) (run_state q)) ->
  generate_list filt names paths tals now d = Ret L -> 2 + 2 * Z.of_nat (length (l_data L)) < 2 ^ 32 ->
  exists ov, new_ov (map as_oroa (l_data L)) = TOk ov /\
    forall rt ip p, prefix_is (rt_prefix rt) ip p -> exists m st, ov_validate ov rt = TOk (m, st, false) /\
      (st <> NotFound -> exists q x e, In q rs /\ valid_roa (run_state q) x /\ In e (roa_entries x) /\ entry_covers e ip p) /\
      (st = Valid -> rt_asn rt <> 0 -> exists q x e, In q rs /\ valid_roa (run_state q) x /\ In e (roa_entries x) /\
         entry_covers e ip p /\ p <= re_maxlen e /\ roa_asn x = rt_asn rt).
Proof. exact (judged_by_valid sig_ok crl_sig_ok dec_tal dec_cert dec_roa dec_mft dec_crl hex_sha1). Qed.

(** Conversely a route authorised by an entry of a valid ROA inside its
    certificate's own resources is Valid, unless the filter is on and the entry's
    prefix is too long. *)
Theorem C63_authorised_routes_valid_partial : forall rs tals filt names paths now d L, produced run rs tals ->
  (forall q, In q rs -> decoded_state (anchor (run_ops q)) (run_state q)) ->
  generate_list filt names paths tals now d = Ret L -> 2 + 2 * Z.of_nat (length (l_data L)) < 2 ^ 32 ->
  forall q x ip0 p0 ml, In q rs -> valid_roa (run_state q) x ->
  let e := mkEntry (mkNet ip0 (cidr_mask p0 (addr_bits ip0))) ml in
  In e (roa_entries x) -> plain_addr ip0 -> 0 <= p0 <= addr_bits ip0 -> p0 <= ml <= addr_bits ip0 ->
  0 <= roa_asn x < 2 ^ 32 ->
  wf_list (c_ips (roa_cert x)) -> (forall fam, ~ inherited (c_ips (roa_cert x)) fam) ->
  (forall e, In e (roa_entries x) -> exists fam lo hi, entry_denotes e fam lo hi /\ plain_bounds fam lo hi) ->
  covered (c_ips (roa_cert x)) (length ip0) (first_addr (addr_bits ip0) p0 (addr_val ip0)) (last_addr (addr_bits ip0) p0 (addr_val ip0)) ->
  filt = false \/ p0 <= longest ip0 ->
  exists ov, new_ov (map as_oroa (l_data L)) = TOk ov /\
    forall ip p, plain_addr ip -> p <= addr_bits ip -> length ip0 = length ip -> p0 <= p <= ml ->
      leading_equal (addr_bits ip0) p0 (addr_val ip0) (addr_val ip) ->
      exists m, ov_validate ov (mkRoute (Some (mkNet ip (cidr_mask p (addr_bits ip)))) (roa_asn x)) = TOk (m, Valid, false).
Proof. exact (authorised_is_valid sig_ok crl_sig_ok dec_tal dec_cert dec_roa dec_mft dec_crl hex_sha1). Qed.
End Props.
Print Assumptions C63_judged_by_valid_roas_partial.
Print Assumptions C63_authorised_routes_valid_partial.

(** The list of [C61_example], with one entry for 10.1.3.0/24 and AS15. *)
Example C63_example : exists L, generate_list true [str "ta"] [str "ta.tal"] [[w_roa]] 100 60 = Ret L /\
  2 + 2 * Z.of_nat (length (l_data L)) < 2 ^ 32 /\
  let v := mkORoa (w_net (ip4 10 1 3 0) 24) 24 15 in
  map as_oroa (l_data L) = [v] /\
  judge (map as_oroa (l_data L)) (mkRoute (w_net (ip4 10 1 3 0) 24) 15) = TOk ([v], Valid, false) /\
  judge (map as_oroa (l_data L)) (mkRoute (w_net (ip4 10 1 3 128) 25) 15) = TOk ([v], Invalid, false) /\
  judge (map as_oroa (l_data L)) (mkRoute (w_net (ip4 10 1 3 0) 24) 16) = TOk ([v], Invalid, false) /\
  judge (map as_oroa (l_data L)) (mkRoute (w_net (ip4 10 1 4 0) 24) 15) = TOk ([], NotFound, false).
Proof. eexists. split; [vm_compute; reflexivity|]. split; [reflexivity|]. cbv zeta. repeat split; vm_compute; reflexivity. Qed.

(** C63: routes with origin 0 are reported Valid by an entry for AS 2^32, which
    the consumer reads as AS 0. *)
Definition w_far_roa := mkRoa (mkc (str "X") (str "R") 4 [pfx (ip4 10 1 0 0) 16] []) (2 ^ 32)
  [mkEntry (mkNet (ip4 10 1 0 0) (cidr_mask 16 32)) 16] true.
Definition w_far : list op := [DoCert w_root true; DoRoa None w_far_roa].
Theorem C63_origin_refuted : exists L m, w_produced [(w_far, 50, w_state w_far)] [[w_far_roa]] /\
  (forall x, valid_roa (w_state w_far) x -> roa_asn x = 2 ^ 32) /\
  generate_list true [str "ta"] [str "ta.tal"] [[w_far_roa]] 100 60 = Ret L /\
  judge (map as_oroa (l_data L)) (mkRoute (w_net (ip4 10 1 0 0) 16) 0) = TOk (m, Valid, false).
Proof.
  assert (P : w_produced [(w_far, 50, w_state w_far)] [[w_far_roa]]) by one_roa.
  eexists _, _. split; [exact P|]. split.
  - intros x V. apply roa_in_heap in V. assert (heap_roas (w_state w_far) = [w_far_roa]) as E by (vm_compute; reflexivity).
    rewrite E in V. destruct V as [<-|[]]. reflexivity.
  - split; [vm_compute; reflexivity|vm_compute; reflexivity].
Qed.
Print Assumptions C63_origin_refuted.
