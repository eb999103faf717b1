(** What the report on valid objects must say. *)
From Coq Require Import List ZArith.
From Verif.Model Require Import Base NetIP CertRes Str Roa Tal Validator Explore NetText Output Report.
From Verif.Spec Require Import Trust Discovery CtSpec.
Import ListNotations.
Open Scope Z_scope.

(** AS numbers of 32 bits are shown as they are. *)
Definition in32 (n : Z) : Prop := 0 <= n < 2 ^ 32.
Inductive shows_asn : asinfo -> out_asn -> Prop :=
| sa_num : forall n m, (in32 n -> m = n) -> shows_asn (ASNum n) (OAsn m)
| sa_range : forall a b x y, (in32 a -> x = a) -> (in32 b -> y = b) -> shows_asn (ASRange a b) (OAsnRange x y)
| sa_inherit : shows_asn ASNull OAsnInherit.

Inductive shows_ip : ipinfo -> out_ip -> Prop :=
| si_net : forall n, shows_ip (INet (Some n)) (OPrefix (ipnet_text n))
| si_nil : forall t, shows_ip (INet None) (OPrefix t)
| si_range : forall a b, shows_ip (IRange a b) (OIpRange (ip_text a) (ip_text b))
| si_inherit : forall f, shows_ip (INull f) (OIpInherit f).

(** Times from 1677 to 2262 are shown as they are. *)
Definition shows_time (t s : Z) : Prop := - 9223372036 <= t <= 9223372036 -> s = t.

(** Manifest [m] is reported valid. *)
Definition valid_mft (v : validator) (m : mft) : Prop :=
  exists a r, v_validmft v (c_ski (mft_cert m)) = Some a /\ nth_error (v_heap v) a = Some r /\ r_obj r = OMft m.

(** Kinds of objects *)
Inductive kind := Certificate | Authorisation | Manifest.
Definition kind_of (e : out_res) : kind :=
  match o_kind e with KCert _ _ _ => Certificate | KRoa _ _ => Authorisation | KMft _ _ _ => Manifest end.

Section Report.
Variable disk : bytes -> option bytes.
Variable sha256 : bytes -> bytes.
Variable dec_cert : bytes -> option cert.
Variable dec_roa : bytes -> option roa.
Variable dec_mft : bytes -> option mft.

(** The fields every kind of object has: identifiers and validity of the
    certificate [c], place and digest of the file [f] with octets [raw]. *)
Definition about (ta : bytes) (c : cert) (f : pkifile) (raw : bytes) (e : out_res) : Prop :=
  o_ski e = hexs (c_ski c) /\ o_aki e = hexs (c_aki c) /\ o_serial e = dec (c_serial c) /\
  o_path e = compute_path f /\ o_hash e = hexs (sha256 raw) /\ o_ta e = ta /\
  shows_time (c_not_before c) (o_from e) /\ shows_time (c_not_after c) (o_to e).

Definition cert_entry (ta : bytes) (P : list pkifile) (c : cert) (e : out_res) : Prop :=
  exists f raw d, In f P /\ f_type f = TCer /\ Discovery.holds disk f raw d /\ dec_cert d = Some c /\ about ta c f raw e /\
    exists asns ips, o_kind e = KCert (map snd (c_sia c)) asns ips /\
      Forall2 shows_asn (c_asns c) asns /\ Forall2 shows_ip (c_ips c) ips.
(** The entries shown are those of the exported list. *)
Definition roa_entry (ta : bytes) (P : list pkifile) (x : roa) (e : out_res) : Prop :=
  exists f raw d, In f P /\ f_type f = TRoa /\ Discovery.holds disk f raw d /\ dec_roa d = Some x /\ about ta (roa_cert x) f raw e /\
    exists asn l, o_kind e = KRoa asn (map (fun z => (ipnet_text (re_net z), re_maxlen z)) l) /\
      (in32 (roa_asn x) -> asn = roa_asn x) /\
      export_roa ta x = Ret (map (fun z => mkJ (ipnet_text (re_net z)) (re_maxlen z mod 256) ([65; 83] ++ dec (roa_asn x)) ta) l).
Definition mft_entry (ta : bytes) (P : list pkifile) (m : mft) (e : out_res) : Prop :=
  exists f raw d, In f P /\ f_type f = TMft /\ Discovery.holds disk f raw d /\ dec_mft d = Some m /\ about ta (mft_cert m) f raw e /\
    exists this next, o_kind e = KMft (map fst (mft_files m)) this next /\
      shows_time (mft_this m) this /\ shows_time (mft_next m) next.

(** [l] has exactly one entry for each certificate reported valid and read from
    a file of its own, each ROA and each manifest reported valid; and nothing
    else. *)
Definition report_of (ta : bytes) (P : list pkifile) (v : validator) (l : list out_res) : Prop :=
  NoDup (map (fun e => (kind_of e, o_ski e)) l) /\
  (forall e, In e l ->
     (exists c, valid_cert v c /\ cert_entry ta P c e) \/
     (exists x, valid_roa v x /\ roa_entry ta P x e) \/
     (exists m, valid_mft v m /\ mft_entry ta P m e)) /\
  (forall c f, file_of v c (Some f) -> f_type f = TCer -> exists e, In e l /\ cert_entry ta P c e) /\
  (forall x, valid_roa v x -> exists e, In e l /\ roa_entry ta P x e) /\
  (forall m, valid_mft v m -> exists e, In e l /\ mft_entry ta P m e).
End Report.
