(** Certificates as octets: what is read from one, when one may issue another,
    and chains of them. *)
From Coq Require Import List ZArith Bool.
From Verif.Model Require Import Base Str CertRes Roa GoTime Der Tal Validator ObjDer X509 Explore.
From Verif.Spec Require Import Addr Bits BerSpec IpExtSpec TimeSpec ContentSpec SignedSpec B64 TalSpec X509Spec Discovery EndSpec.
Import ListNotations.
Open Scope Z_scope.

Section Chains.
(** See [Model.X509]. *)
Variable all_versions : bool.
Variable keep : bool.
Variable sha256 : bytes -> bytes.
Variable other_sig : list Z * bytes -> bytes -> bytes -> bytes -> bool.
Variable excused : bytes -> bool.

(** The extensions that count: those of a certificate of version 3, which is
    coded as 2. *)
Definition counted (x : xcert) (l : list extension) : Prop :=
  (all_versions = true \/ xc_version x = 2) /\ l = xc_exts x \/ (all_versions = false /\ xc_version x <> 2) /\ l = [].

(** The octets [d] are a certificate [x] with the contents of [c]. *)
Definition certificate_read (d : bytes) (x : xcert) (c : cert) : Prop :=
  exists l, certificate_octets d x /\ counted x l /\
    c_body c = d /\ c_serial c = xc_serial x /\
    c_not_before c = instant (xc_before x) /\ c_not_after c = instant (xc_after x) /\
    stated subject_key_id key_id_octets [] l (c_ski c) /\ authority_stated keep l (c_aki c) /\
    stated addresses_id ip_extension [] l (c_ips c) /\
    stated numbers_id (fun d a => exists rdi, as_extension d a rdi) [] l (c_asns c) /\
    stated access_id access_stated [] l (c_sia c) /\
    ((c_alg c = 1 /\ exists n e, c_key c = RSAPtr n e /\ rsa_certificate x n e) \/
     (c_alg c <> 1 /\ fst (xc_key_alg x) <> rsa_id /\ exists k, aligned (xc_key x) k /\ c_key c = OtherKey k)).

(** The certificate says to be an authority; of one of version 1 or 2 nothing is
    demanded. *)
Definition says_authority (y : xcert) : Prop :=
  exists l b, counted y l /\ stated basic_id basic_octets None l b /\ (b = Some true \/ b = None /\ xc_version y <> 2).
(** Its key is for signing certificates, or for no particular use. *)
Definition signs_certificates (y : xcert) : Prop :=
  exists l u, counted y l /\ stated key_usage_id usage_octets [] l u /\
    (Forall (fun k => k = false) u \/ nth 5 u false = true).
(** The certificate [x] is signed with the key of [y], which may issue it. *)
Definition issued (y x : xcert) : Prop :=
  (says_authority y \/ excused (xc_spki x) = true) /\ signs_certificates y /\
  signed_by sha256 other_sig y (xc_alg x) (xc_tbs x) (xc_sig x).

(** A path length in BasicConstraints *)
Definition path_octets (d : bytes) (k : Z) : Prop :=
  exists e e1 e2 junk rest b c, d = e ++ rest /\ coded 48 (e1 ++ e2 ++ junk) e /\ flag e1 b /\ coded 2 c e2 /\ int_coded c k.
(** The extensions that the decoder knows are under id-ce and id-pe. *)
Definition known_extension (o : list Z) : Prop :=
  (exists k, o = [2; 5; 29; k]) \/ (exists k, o = [1; 3; 6; 1; 5; 5; 7; 1; k]).

Definition in_time (x : xcert) (now : Z) : Prop := instant (xc_before x) <= now <= instant (xc_after x).
(** The authority key of [x] is the subject key of [y]. *)
Definition points_to (x y : xcert) : Prop :=
  exists lx ly k, counted x lx /\ counted y ly /\
    authority_stated keep lx k /\ stated subject_key_id key_id_octets [] ly k.

(** Certificates in force from an anchor on, all among [found]. *)
Inductive certified (found : bytes -> Prop) (anchor : bytes -> xcert -> Prop) (now : Z) : bytes -> xcert -> Prop :=
| certified_anchor d x : found d -> certificate_octets d x -> in_time x now -> anchor d x ->
    certified found anchor now d x
| certified_link d x p y : found d -> certificate_octets d x -> in_time x now ->
    points_to x y -> issued y x -> certified found anchor now p y -> certified found anchor now d x.

(** [d] is a certificate in a file among [P], or in a signed object there. *)
Definition found_in (disk : bytes -> option bytes) (P : list pkifile) (d : bytes) : Prop :=
  exists f raw o, In f P /\ holds disk f raw o /\
    (f_type f = TCer /\ o = d \/
     (f_type f = TRoa \/ f_type f = TMft) /\ exists ot content signers, signed_object o ot content d signers).

(** The certificate [x], which is [d], is in a file that stands for the location
    in a locator and has the RSA key of that locator. *)
Definition anchored (hex_sha1 : bytes -> bytes) (disk : bytes -> option bytes) (P : list pkifile) (d : bytes) (x : xcert) : Prop :=
  exists f p raw rawp t key k b n e, In f P /\ f_type f = TCer /\ holds disk f raw d /\
    In p P /\ f_type p = TTal /\ disk (compute_path p) = Some rawp /\
    tal_read rawp (t_uris t) key /\ b64_text (filter (fun x => negb ((x =? 10) || (x =? 13))) key) k /\
    key_info rsa_id k b /\ rsa_key (bs_bytes b) n e /\ get_rsync_uri hex_sha1 t = f_path f /\
    rsa_certificate x n e.

(** [d] is a signed object with a ROA for [asn] and [entries], signed with the
    RSA key of the certificate inside it, which is certified. *)
Definition certified_roa (found : bytes -> Prop) (anchor : bytes -> xcert -> Prop) (now : Z)
  (d : bytes) (asn : Z) (entries : list roa_entry) : Prop :=
  exists o content cert signers x n e, signed_object d o content cert signers /\
    roa_octets content asn entries /\
    certified found anchor now cert x /\ rsa_certificate x n (Zpos e) /\
    signature_checked sha256 signers content n e.
End Chains.
