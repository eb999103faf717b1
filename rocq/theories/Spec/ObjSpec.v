(** Specification vocabulary for octets of certificates' extensions and signed
    objects. *)
From Coq Require Import List ZArith Bool.
From Verif.Model Require Import Base NetIP CertRes Roa GoTime Der Asn1 Tal Validator ObjDer.
From Verif.Spec Require Import Addr Resources Bits Canon BerSpec CmsSpec.
Import ListNotations.
Open Scope Z_scope.

(** Integers of 64 bits with a sign. *)
Definition int64 (n : Z) : Prop := - 2 ^ 63 <= n < 2 ^ 63.

(** An object identifier: the first arc is 0, 1 or 2, the second below 40
    unless the first is 2; arcs below 2^31. *)
Definition object_id (l : list Z) : Prop :=
  match l with
  | a :: b :: r => ((0 <= a < 2 /\ 0 <= b < 40) \/ (a = 2 /\ 0 <= b /\ 80 + b < 2 ^ 31)) /\
                   Forall (fun n => 0 <= n < 2 ^ 31) r
  | _ => False
  end.

(** A date of the calendar with a four-digit year and an offset below 25
    hours. *)
Definition month_days (y m : Z) : Z :=
  if m =? 2 then
    (if (y mod 4 =? 0) && (negb (y mod 100 =? 0) || (y mod 400 =? 0)) then 29 else 28)
  else if existsb (Z.eqb m) [4; 6; 9; 11] then 30 else 31.
Definition calendar (t : gotime) : Prop :=
  0 <= tm_year t <= 9999 /\ 1 <= tm_month t <= 12 /\ 1 <= tm_day t <= month_days (tm_year t) (tm_month t) /\
  0 <= tm_hour t < 24 /\ 0 <= tm_min t < 60 /\ 0 <= tm_sec t < 60 /\ Z.abs (tm_off t) < 1500.

(** A list of AS resources: numbers of 64 bits, and inherit only alone. *)
Definition as_list (l : list asinfo) : Prop :=
  Forall (fun a => match a with ASRange x y => int64 x /\ int64 y | ASNum x => int64 x | ASNull => True end) l /\
  (~ In ASNull l \/ l = [ASNull]).

(** ROA entries: prefixes without host bits, maximal lengths of 64 bits. *)
Definition entries_ok (l : list roa_entry) : Prop :=
  Forall (fun e => (exists m, canonical_entry e m) /\ re_maxlen e < 2 ^ 63) l.
(** The IPv4 entries first. *)
Definition by_family (l : list roa_entry) : list roa_entry :=
  filter (fun e => Nat.eqb (length (nip (re_net e))) 4) l ++
  filter (fun e => Nat.eqb (length (nip (re_net e))) 16) l.

(** A manifest: a number, dates, ASCII names and well-formed hashes. *)
Definition mft_ok (m : mft_content) : Prop :=
  mc_number m <> None /\ calendar (mc_this m) /\ calendar (mc_next m) /\ object_id (mc_alg m) /\
  Forall (fun f => Forall (fun b => 0 <= b < 128) (fst f) /\ wf_bits (snd f)) (mc_files m).

(** A hash function with 32 octets of output. *)
Definition hash32 (sha256 : bytes -> bytes) : Prop :=
  forall b, length (sha256 b) = 32%nat /\ bytes_ok (sha256 b) = true.

(** The private key belongs to the public key: what it signs verifies. *)
Definition key_pair (rsa_sign : bytes -> option bytes) (n e : Z) : Prop :=
  0 < n /\ 0 < e /\
  forall h, length h = 32%nat -> bytes_ok h = true ->
    exists sig, rsa_sign (digest_info h) = Some sig /\ rsa_signs n e sig h.

(** A SEQUENCE in DER, as a certificate is. *)
Definition sequence (b : bytes) : Prop := exists ts, der (Cons [48] ts) b.

(** The content type a signed object declares. *)
Definition content_type (d : bytes) : option (list Z) :=
  match decode_cms d with
  | Some c => read_as t_encap (fun v => opt_map en_oid (encap_of v)) (r_full (sd_encap (co_data c)))
  | None => None
  end.

(** The AlgorithmIdentifiers of RFC 8017, appendix C. *)
Definition rsa_encryption : bytes := [48; 13; 6; 9; 42; 134; 72; 134; 247; 13; 1; 1; 1; 5; 0].
Definition sha256_with_rsa : bytes := [48; 13; 6; 9; 42; 134; 72; 134; 247; 13; 1; 1; 11; 5; 0].

(** A usable signer: hash function, key pair, certificate with that key. *)
Definition signer_ready (sha256 : bytes -> bytes) (rsa_sign : bytes -> option bytes)
  (x509_parse : bytes -> option (cert * list (list Z * bytes)))
  (n e : Z) (certificate ski : bytes) (time : gotime) (ee : cert) : Prop :=
  hash32 sha256 /\ key_pair rsa_sign n e /\ sequence certificate /\ Z.of_nat (length certificate) < 2 ^ 31 /\
  ski <> [] /\ calendar time /\ decode_certificate x509_parse certificate = Some ee /\ c_key ee = RSAPtr n e.

(** From the encoded content to the octets of the signed object: EncodeCMS,
    Sign, Marshal. *)
Definition signed_as (sha256 : bytes -> bytes) (rsa_sign : bytes -> option bytes)
  (certificate ski : bytes) (time : gotime) (o : list Z) (content d : bytes) : Prop :=
  exists ec c c', econtent o content = Some ec /\ encode_cms certificate ec time = Some c /\
    sign sha256 rsa_sign c ski content certificate = Ret (Some c') /\ marshal_cms c' = Some d.
