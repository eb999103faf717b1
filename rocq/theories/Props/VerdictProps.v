(** C95: what a consumer is told rests on signed octets in the cache. *)
From Coq Require Import List ZArith Lia Bool String.
From Verif.Model Require Import Base Str NetIP CertRes Roa Ber Asn1 GoTime Der Tal Validator Explore ObjDer TalText TalDer FileDecoders NetText Json Output StateFile Patricia Ov X509.
From Verif.Spec Require Import Addr Resources Bits Canon IpExtSpec ContentSpec SignedSpec Trust Discovery CtSpec OutputSpec OvSpec EndSpec JsonSpec StateSpec X509Spec ChainSpec VerdictSpec.
From Verif.Proofs Require Import EndThm VerdictThm ObjWitness ExploreWitness EndWitness X509Witness VerdictWitness.
Import ListNotations.
Open Scope Z_scope.

Section Props.
Variable sha256 : bytes -> bytes.
Hypothesis sha_len : forall x, List.length (sha256 x) = 32%nat.
Variable all_versions keep : bool.
Variable points : list extension -> list bytes.
Variable more : bytes -> bool.
Variable other_sig : list Z * bytes -> bytes -> bytes -> bytes -> bool.
Variable excused : bytes -> bool.
Variable strict : bool.
Variable crl_sig_ok : cert -> crl -> bool.
Variable dec_crl : bytes -> option crl.
Variable hex_sha1 : bytes -> bytes.
Variable disk : bytes -> option bytes.
Variable synced : bytes -> bool.
Variable clock : nat -> Z * Z.
Variable strict_manifests : bool.
Variable strict_hash : bool.
Variable add_invalid : bool.
Notation x509 := (x509_cert all_versions keep points more).
Notation signed := (x509_signed all_versions keep sha256 other_sig excused).
Notation dec_cert := (file_cert x509).
Notation explored_all := (explored_all sha256 x509 strict signed crl_sig_ok dec_crl hex_sha1 disk synced clock
  strict_manifests strict_hash add_invalid).
Hypothesis cache : octet_cache disk.
Notation rests := (rests all_versions keep sha256 other_sig excused hex_sha1 disk).

(** C95, below plain anchors. The generation of the list returns. *)
Theorem C95_generated_partial : forall xs tals filt names paths now dur, explored_all xs tals ->
  (forall q, In q xs -> plain_anchors disk dec_cert q) -> exists L, generate_list filt names paths tals now dur = Ret L.
Proof. exact (generated_octets sha256 sha_len all_versions keep points more other_sig excused strict crl_sig_ok dec_crl hex_sha1 disk synced clock strict_manifests strict_hash add_invalid cache). Qed.

(** Whoever reads the text that is written or served can read it, and what it is
    told about a route rests on the octets of a ROA in the cache that is
    certified up to the key of a locator: a covering entry for Invalid; one with
    the origin and a sufficient length too for Valid, unless the origin is 0.
    [L'] is the generated list, signed or not. *)
Theorem C95_told_partial : forall xs tals filt names paths now dur L L', explored_all xs tals ->
  (forall q, In q xs -> plain_anchors disk dec_cert q) -> generate_list filt names paths tals now dur = Ret L ->
  l_data L' = l_data L -> byte_list L' -> 2 + 2 * Z.of_nat (List.length (l_data L)) < 2 ^ 32 ->
  (exists v l, jdocument 3 v (output_text L') /\ jdocument 3 v (served_text L') /\ reads_as v l) /\
  forall n v l, Z.of_nat n <= 10000 -> jdocument n v (output_text L') \/ jdocument n v (served_text L') -> reads_as v l ->
  exists ov, new_ov l = TOk ov /\
    forall rt ip p, prefix_is (rt_prefix rt) ip p -> exists m st, ov_validate ov rt = TOk (m, st, false) /\
      (st <> NotFound -> exists e asn, rests xs e asn /\ entry_covers e ip p) /\
      (st = Valid -> rt_asn rt <> 0 -> exists e, rests xs e (rt_asn rt) /\ entry_covers e ip p /\ p <= re_maxlen e).
Proof. exact (told sha256 sha_len all_versions keep points more other_sig excused strict crl_sig_ok dec_crl hex_sha1 disk synced clock strict_manifests strict_hash add_invalid cache). Qed.

(** Conversely it is told that a route is Valid which a valid ROA authorises
    within the resources of its own certificate. *)
Theorem C95_authorised_partial : forall xs tals filt names paths now dur L L', explored_all xs tals ->
  (forall q, In q xs -> plain_anchors disk dec_cert q) -> generate_list filt names paths tals now dur = Ret L ->
  l_data L' = l_data L -> byte_list L' -> 2 + 2 * Z.of_nat (List.length (l_data L)) < 2 ^ 32 ->
  forall q x ip0 p0 ml, In q xs -> valid_roa (m_v (x_mgr q)) x ->
  In (mkEntry (mkNet ip0 (cidr_mask p0 (addr_bits ip0))) ml) (roa_entries x) ->
  plain_addr ip0 -> 0 <= p0 <= addr_bits ip0 -> p0 <= ml <= addr_bits ip0 -> 0 <= roa_asn x < 2 ^ 32 ->
  wf_list (c_ips (roa_cert x)) -> (forall fam, ~ inherited (c_ips (roa_cert x)) fam) ->
  (forall e, In e (roa_entries x) -> exists fam lo hi, entry_denotes e fam lo hi /\ plain_bounds fam lo hi) ->
  covered (c_ips (roa_cert x)) (List.length ip0) (first_addr (addr_bits ip0) p0 (addr_val ip0)) (last_addr (addr_bits ip0) p0 (addr_val ip0)) ->
  filt = false \/ p0 <= longest ip0 ->
  forall n v l, Z.of_nat n <= 10000 -> jdocument n v (output_text L') \/ jdocument n v (served_text L') -> reads_as v l ->
  exists ov, new_ov l = TOk ov /\
    forall ip p, plain_addr ip -> p <= addr_bits ip -> List.length ip0 = List.length ip -> p0 <= p <= ml ->
      leading_equal (addr_bits ip0) p0 (addr_val ip0) (addr_val ip) ->
      exists m, ov_validate ov (mkRoute (Some (mkNet ip (cidr_mask p (addr_bits ip)))) (roa_asn x)) = TOk (m, Valid, false).
Proof. exact (told_all sha256 sha_len all_versions keep points more other_sig excused strict crl_sig_ok dec_crl hex_sha1 disk synced clock strict_manifests strict_hash add_invalid cache). Qed.
End Props.
Print Assumptions C95_generated_partial.
Print Assumptions C95_told_partial.
Print Assumptions C95_authorised_partial.

(** The repository of [C78_example]. *)
Example C95_example :
  (forall x, List.length (sha0 x) = 32%nat) /\ octet_cache w_disk /\
  explored_all sha0 w_x509 false w_signed w_crl_signed (x509_crl w_no) (fun x => x) w_disk (fun _ => true) (fun _ => (e_now, e_now))
    true true false [w_expl] [w_valid_roas] /\
  (forall q, In q [w_expl] -> plain_anchors w_disk (file_cert w_x509) q) /\
  exists L r, generate_list true [str "ta"] [str "t.tal"] [w_valid_roas] 100 60 = Ret L /\ byte_list L /\
    l_data L = [r] /\ j_prefix r = str "10.1.0.0/16" /\ j_asn r = str "AS65000" /\ 2 + 2 * Z.of_nat (List.length (l_data L)) < 2 ^ 32.
Proof.
  split; [intros x; reflexivity|]. split; [exact w_cache|]. split; [exact w_all|]. split; [intros q [<-|[]]; exact w_anchors|].
  destruct (proj2 (proj2 w_found)) as (L & r & G & D & P & A). exists L, r. split; [exact G|]. split; [exact (w_bytes L G r D P A)|].
  split; [exact D|]. split; [exact P|]. split; [exact A|]. rewrite D. reflexivity.
Qed.
