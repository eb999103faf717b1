(** From the octets in the cache to the exported list. *)
From Coq Require Import List ZArith.
From Verif.Model Require Import Base NetIP CertRes Str Ber GoTime Der Roa Tal Validator ObjDer Explore.
From Verif.Spec Require Import Addr Resources B64 Bits IpExtSpec TimeSpec ContentSpec SignedSpec TalSpec Trust Discovery.
Import ListNotations.
Open Scope Z_scope.

Section Octets.
Variable sha256 : bytes -> bytes.
(** Certificates from their octets. *)
Variable dec_cert : bytes -> option cert.

(** [d] is a signed object with a ROA for [asn] and [entries]; the embedded
    certificate is [c] and the signature was made with its key. *)
Definition signed_roa (d : bytes) (asn : Z) (entries : list roa_entry) (c : cert) : Prop :=
  exists o content cert signers n p, signed_object d o content cert signers /\
    roa_octets content asn entries /\ dec_cert cert = Some c /\
    c_key c = RSAPtr n (Zpos p) /\ signature_checked sha256 signers content n p.

(** [d] is a signed object with a manifest which lists [name] with the hash
    [h]; if [must], its signature was made with the key of the certificate
    embedded in it. *)
Definition manifest_lists (must : Prop) (d : bytes) (name h : bytes) : Prop :=
  exists o inside content cert signers k this next alg files hash c,
    signed_object d o inside cert signers /\ ber2der inside = BOk content /\
    manifest_octets content k this next alg files /\ In (name, hash) files /\ bs_bytes hash = h /\
    dec_cert cert = Some c /\
    (must -> exists n p, c_key c = RSAPtr n (Zpos p) /\ signature_checked sha256 signers content n p).

Variable hex_sha1 : bytes -> bytes.
Variable disk : bytes -> option bytes.

(** [c] is in a file among [P] that stands for the location named by a trust
    anchor locator among [P], and its key is the RSA key written there. *)
Definition locator_names (P : list pkifile) (c : cert) : Prop :=
  exists f p raw t key d b n e, In f P /\ f_type f = TCer /\ contents disk dec_cert f c /\
    In p P /\ f_type p = TTal /\ disk (compute_path p) = Some raw /\
    tal_read raw (t_uris t) key /\ b64_text (filter (fun x => negb ((x =? 10) || (x =? 13))) key) d /\
    key_info [1; 2; 840; 113549; 1; 1; 1] d b /\ rsa_key (bs_bytes b) n e /\
    get_rsync_uri hex_sha1 t = f_path f /\ c_key c = RSAPtr n e.
End Octets.

(** The exploration of one trust anchor locator: time, initial files, files
    looked at, resulting state. *)
Record exploration := mkExpl { x_now : Z; x_init : list fdesc; x_files : list pkifile; x_mgr : mgr }.

(** Initial files as octorpki.go:1427-1430 makes them. *)
Definition only_locators (l : list fdesc) : Prop :=
  forall x, In x l -> fd_type x = TTal /\ fd_trust x = false.

(** The cache contains octets, and files of bounded size even after conversion
    to DER. *)
Definition octet_cache (disk : bytes -> option bytes) : Prop :=
  forall k raw, disk k = Some raw -> bytes_ok raw = true /\
    forall d, ber2der raw = BOk d -> Z.of_nat (length d) < 2 ^ 46.

(** Certificates whose addresses are plain; the ones read as trust anchors do
    not inherit, and at most every other one of a chain does. *)
Definition plain_certs (disk : bytes -> option bytes) (dec_cert : bytes -> option cert) (q : exploration) : Prop :=
  let v := m_v (x_mgr q) in
  (forall c, valid_cert v c -> Forall wf_claim (c_ips c)) /\
  (forall f c fam, In f (x_files q) -> f_type f = TCer -> fd_trust (f_desc f) = true -> contents disk dec_cert f c ->
     valid_cert v c -> ~ inherited (c_ips c) fam) /\
  (forall c p fam, valid_cert v c -> valid_cert v p -> c_aki c = c_ski p ->
     inherited (c_ips c) fam -> ~ inherited (c_ips p) fam).

(** Certificates found through a trust anchor locator. *)
Definition under_locator (disk : bytes -> option bytes) (dec_cert : bytes -> option cert) (P : list pkifile) (c : cert) : Prop :=
  exists f p, In f P /\ f_type f = TCer /\ contents disk dec_cert f c /\
    f_parent f = Some p /\ In p P /\ f_type p = TTal.
