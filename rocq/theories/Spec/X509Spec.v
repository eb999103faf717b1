(** A grammar, independent of the decoder, of the octets of certificates and
    revocation lists (RFC 5280, sections 4.1, 4.2 and 5.1) as they are accepted,
    and what it means that one is signed with the key of another (RFC 8017,
    section 8.2). *)
From Coq Require Import List ZArith Bool.
From Verif.Model Require Import Base CertRes GoTime Der Tal Validator X509.
From Verif.Spec Require Import Addr Bits BerSpec IpExtSpec TimeSpec ContentSpec SignedSpec TalSpec.
Import ListNotations.
Open Scope Z_scope.

(** AlgorithmIdentifier: algorithm, octets of the parameters *)
Inductive algorithm : bytes -> list Z * bytes -> Prop :=
| algorithm_one e e1 e2 junk c o : coded 48 (e1 ++ e2 ++ junk) e -> coded 6 c e1 -> oid_coded c o ->
    (some_value e2 \/ e2 = [] /\ junk = []) -> algorithm e (o, e2).

(** BOOLEAN, or nothing for FALSE *)
Inductive flag : bytes -> bool -> Prop :=
| flag_true e : coded 1 [255] e -> flag e true
| flag_false e : coded 1 [0] e -> flag e false
| flag_absent : flag [] false.

(** Extension *)
Inductive extension_octets : bytes -> extension -> Prop :=
| extension_one e e1 e2 e3 junk c o k d : coded 48 (e1 ++ e2 ++ e3 ++ junk) e -> coded 6 c e1 -> oid_coded c o ->
    flag e2 k -> coded 4 d e3 -> extension_octets e (mkExt o k d).
(** Extensions inside the context-specific tag [k], or nothing.  The length of
    the wrapper is not compared with what is inside. *)
Inductive wrapped_extensions (k : Z) : bytes -> list extension -> Prop :=
| wrapped_none : wrapped_extensions k [] []
| wrapped_some lw n es e l : der_len n lw -> 0 < n -> coded 48 (concat es) e -> Forall2 extension_octets es l ->
    wrapped_extensions k (160 + k :: lw ++ e) l.

(** Validity *)
Inductive validity : bytes -> gotime -> gotime -> Prop :=
| validity_one e e1 e2 junk t1 t2 : coded 48 (e1 ++ e2 ++ junk) e -> time_value e1 t1 -> time_value e2 t2 ->
    validity e t1 t2.

(** SubjectPublicKeyInfo: algorithm and key *)
Inductive subject_key : bytes -> list Z * bytes -> bitstring -> Prop :=
| key_one e e1 e2 junk a c b : coded 48 (e1 ++ e2 ++ junk) e -> algorithm e1 a -> coded 3 c e2 -> bits_coded c b ->
    subject_key e a b.

(** Version inside the context-specific tag 0; nothing for 0, which is
    version 1 *)
Inductive version_octets : bytes -> Z -> Prop :=
| version_absent : version_octets [] 0
| version_given lw n c e v : der_len n lw -> 0 < n -> coded 2 c e -> int_coded c v ->
    version_octets (160 :: lw ++ e) v.

(** A unique identifier: a BIT STRING with the context-specific tag [k] *)
Definition unique_id (k : Z) (e : bytes) : Prop := e = [] \/ exists c b, coded (128 + k) c e /\ bits_coded c b.

(** TBSCertificate *)
Inductive tbs_octets : bytes -> xcert -> Prop :=
| tbs_one ev es ea ei et eu ek e1 e2 ex junk c v serial alg iss t1 t2 sub kalg key exts sig tbs :
    coded 48 (ev ++ es ++ ea ++ ei ++ et ++ eu ++ ek ++ e1 ++ e2 ++ ex ++ junk) tbs ->
    version_octets ev v -> coded 2 c es -> number_coded c serial -> algorithm ea alg -> ei = iss -> some_value ei ->
    validity et t1 t2 -> eu = sub -> some_value eu -> subject_key ek kalg key -> unique_id 1 e1 -> unique_id 2 e2 ->
    wrapped_extensions 3 ex exts ->
    tbs_octets tbs (mkX tbs v serial alg iss t1 t2 sub ek kalg key exts sig).
(** Certificate: nothing follows it. *)
Inductive certificate_octets : bytes -> xcert -> Prop :=
| certificate_one e1 e2 e3 junk d alg c x :
    coded 48 (e1 ++ e2 ++ e3 ++ junk) d -> tbs_octets e1 x -> algorithm e2 alg -> coded 3 c e3 -> bits_coded c (xc_sig x) ->
    certificate_octets d x.

(** ** What the extensions state *)
(** [e] is the last extension with the identifier [id]. *)
Definition last_one (id : list Z) (l : list extension) (e : extension) : Prop :=
  exists l1 l2, l = l1 ++ e :: l2 /\ e_id e = id /\ forall x, In x l2 -> e_id x <> id.
Definition none_of (id : list Z) (l : list extension) : Prop := forall x, In x l -> e_id x <> id.
(** The last extension [id] states [a] by [P], or there is none and [a] is
    [z]. *)
Definition stated {A} (id : list Z) (P : bytes -> A -> Prop) (z : A) (l : list extension) (a : A) : Prop :=
  none_of id l /\ a = z \/ exists e, last_one id l e /\ P (e_value e) a.

Definition subject_key_id : list Z := [2; 5; 29; 14].
Definition key_usage_id : list Z := [2; 5; 29; 15].
Definition basic_id : list Z := [2; 5; 29; 19].
Definition authority_key_id : list Z := [2; 5; 29; 35].
Definition addresses_id : list Z := [1; 3; 6; 1; 5; 5; 7; 1; 7].
Definition numbers_id : list Z := [1; 3; 6; 1; 5; 5; 7; 1; 8].
Definition access_id : list Z := [1; 3; 6; 1; 5; 5; 7; 1; 11].

(** SubjectKeyIdentifier *)
Definition key_id_octets (d k : bytes) : Prop := exists e rest, d = e ++ rest /\ coded 4 k e.
(** AuthorityKeyIdentifier: an OCTET STRING with the context-specific tag 0
    first, or no key *)
Definition authority_octets (d k : bytes) : Prop :=
  exists e e1 junk rest, d = e ++ rest /\ coded 48 (e1 ++ junk) e /\ (coded 128 k e1 \/ e1 = [] /\ k = []).
(** The [i]-th bit of a BIT STRING; bits beyond its end are 0. *)
Definition has_bit (b : bitstring) (i : Z) : Prop :=
  0 <= i < bs_len b /\ Z.testbit (bits_val b) (bs_len b - 1 - i) = true.
Definition usage_octets (d : bytes) (u : list bool) : Prop :=
  exists e rest c b, d = e ++ rest /\ coded 3 c e /\ bits_coded c b /\
    length u = 9%nat /\ forall i, (i < 9)%nat -> nth i u false = true <-> has_bit b (Z.of_nat i).
(** BasicConstraints: is it an authority? *)
Definition basic_octets (d : bytes) (ca : option bool) : Prop :=
  exists e e1 junk rest k, d = e ++ rest /\ coded 48 (e1 ++ junk) e /\ flag e1 k /\ ca = Some k.

(** The authority key: the last one given, where a later extension without key
    changes nothing if [keep]. *)
Definition authority_stated (keep : bool) (l : list extension) (k : bytes) : Prop :=
  (none_of authority_key_id l /\ k = []) \/
  (exists l1 e l2, l = l1 ++ e :: l2 /\ e_id e = authority_key_id /\ authority_octets (e_value e) k /\
     forall x, In x l2 -> e_id x = authority_key_id -> keep = true /\ authority_octets (e_value x) []).

(** What an access method is for. *)
Definition access_methods : list (list Z * sia_method) :=
  [([1; 3; 6; 1; 5; 5; 7; 48; 5], SiaRepo); ([1; 3; 6; 1; 5; 5; 7; 48; 10], SiaManifest);
   ([1; 3; 6; 1; 5; 5; 7; 48; 13], SiaNotify)].
Definition access_meaning (a : list Z * bytes) (m : sia_method * bytes) : Prop :=
  snd m = snd a /\ (In (fst a, fst m) access_methods \/ (forall k, ~ In (fst a, k) access_methods) /\ fst m = SiaOther).
Definition access_stated (d : bytes) (l : list (sia_method * bytes)) : Prop :=
  exists l0, access_octets d l0 /\ Forall2 access_meaning l0 l.

(** ** Keys *)
(** The bits of a BIT STRING as a number, in as many octets. *)
Definition aligned (b : bitstring) (l : bytes) : Prop :=
  bytes_ok l = true /\ length l = length (bs_bytes b) /\ addr_val l = bits_val b.
Definition rsa_id : list Z := [1; 2; 840; 113549; 1; 1; 1].
Definition null_value : bytes := [5; 0].
Definition rsa_certificate (x : xcert) (n e : Z) : Prop :=
  exists l, fst (xc_key_alg x) = rsa_id /\ snd (xc_key_alg x) = null_value /\
    aligned (xc_key x) l /\ rsa_key l n e /\ 0 < n /\ 0 < e.

(** ** Signatures *)
(** RSASSA-PKCS1-v1_5 with SHA-256 (RFC 8017, sections 8.2.2 and 9.2): the
    signature is as long as the modulus and, raised to the exponent, is
    0x00 01 FF .. FF 00, then the digest with its name. *)
Definition sha256_info : bytes := [48; 49; 48; 13; 6; 9; 96; 134; 72; 1; 101; 3; 4; 2; 1; 5; 0; 4; 32].
Definition pkcs1_signature (n e : Z) (digest sig : bytes) : Prop :=
  exists ps, Forall (fun x => x = 255) ps /\ (8 <= length ps)%nat /\
    let em := [0; 1] ++ ps ++ [0] ++ sha256_info ++ digest in
    length sig = length em /\ 256 ^ (Z.of_nat (length em) - 1) <= n < 256 ^ Z.of_nat (length em) /\
    addr_val sig ^ e mod n = addr_val em.
Definition sha256_rsa_id : list Z := [1; 2; 840; 113549; 1; 1; 11].

Section Signed.
Variable sha256 : bytes -> bytes.
Variable other_sig : list Z * bytes -> bytes -> bytes -> bytes -> bool.
(** [sig] signs [signed] with the key of [x]; of other algorithms [other_sig]
    decides. *)
Definition signed_by (x : xcert) (alg : list Z * bytes) (signed : bytes) (sig : bitstring) : Prop :=
  exists l, aligned sig l /\
    ((fst alg = sha256_rsa_id /\ exists n e, rsa_certificate x n e /\ pkcs1_signature n e (sha256 signed) l) \/
     (fst alg <> sha256_rsa_id /\ other_sig alg (xc_spki x) signed l = true)).
End Signed.

(** ** Revocation lists *)
Inductive entry_octets : bytes -> Z -> Prop :=
| entry_one e e1 e2 e3 junk c n t es l : coded 48 (e1 ++ e2 ++ e3 ++ junk) e -> coded 2 c e1 -> number_coded c n ->
    time_value e2 t -> (coded 48 (concat es) e3 /\ Forall2 extension_octets es l \/ e3 = []) -> entry_octets e n.
Inductive tbs_list_octets : bytes -> xcrl -> Prop :=
| tbs_list_one ev ea ei et eu er ex junk cv v alg0 alg t1 t2 es rev exts sig tbs :
    coded 48 (ev ++ ea ++ ei ++ et ++ eu ++ er ++ ex ++ junk) tbs ->
    (coded 2 cv ev /\ int_coded cv v \/ ev = []) -> algorithm ea alg0 -> some_value ei -> time_value et t1 ->
    (time_value eu t2 \/ eu = []) ->
    (coded 48 (concat es) er \/ er = [] /\ es = []) -> Forall2 entry_octets es rev ->
    wrapped_extensions 0 ex exts ->
    tbs_list_octets tbs (mkXL tbs alg t1 t2 rev exts sig).
Inductive list_octets : bytes -> xcrl -> Prop :=
| list_one e1 e2 e3 junk d c x :
    coded 48 (e1 ++ e2 ++ e3 ++ junk) d -> tbs_list_octets e1 x -> algorithm e2 (xl_alg x) -> coded 3 c e3 ->
    bits_coded c (xl_sig x) -> list_octets d x.
