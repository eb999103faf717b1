(** What a consumer of the exported text is told. *)
From Coq Require Import List ZArith String.
From Verif.Model Require Import Base CertRes Roa Str Validator Explore Json Output StateFile Ov.
From Verif.Spec Require Import Resources Trust Discovery EndSpec StateSpec ChainSpec.
Import ListNotations.
Open Scope Z_scope.

(** The certificates read as trust anchors list prefixes and ranges of the two
    families, or inherit. *)
Definition plain_anchors (disk : bytes -> option bytes) (dec_cert : bytes -> option cert) (q : exploration) : Prop :=
  forall f c, In f (x_files q) -> f_type f = TCer -> fd_trust (f_desc f) = true -> contents disk dec_cert f c ->
    valid_cert (m_v (x_mgr q)) c -> wf_list (c_ips c).

(** The consumer reads the document [v] as the entries [l]: it takes prefix,
    length and number of each element of "roas". *)
Definition reads_as (v : json) (l : list oroa) : Prop :=
  exists es, has v "roas" (JArr es) /\ Forall2 (fun e o => exists r, shows_entry r e /\ o = as_oroa r) es l.

(** [rests ... xs e asn]: the entry is in a ROA of the cache for [asn], certified
    up to the key of a locator at the time of its exploration. *)
Definition rests (all_versions keep : bool) (sha256 : bytes -> bytes) (other_sig : list Z * bytes -> bytes -> bytes -> bytes -> bool)
    (excused : bytes -> bool) (hex_sha1 : bytes -> bytes) (disk : bytes -> option bytes)
    (xs : list exploration) (e : roa_entry) (asn : Z) : Prop :=
  exists q f raw d entries, In q xs /\ In f (x_files q) /\ f_type f = TRoa /\ Discovery.holds disk f raw d /\
    certified_roa all_versions keep sha256 other_sig excused (found_in disk (x_files q)) (anchored hex_sha1 disk (x_files q))
      (x_now q) d asn entries /\ In e entries.
