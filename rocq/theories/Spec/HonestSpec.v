(** Vocabulary for what a correctly run certification authority publishes, and
    for what others could do to it. *)
From Coq Require Import String.
From Coq Require Import List ZArith.
From Verif.Model Require Import Base NetIP CertRes Roa Str Tal Validator Explore.
From Verif.Spec Require Import Trust Discovery Addr Resources.
Import ListNotations.
Open Scope Z_scope.

(** The resources of [c] are inherited or contained in those of its issuer
    [pc], which names them itself. *)
Definition within (pc c : cert) : Prop :=
  wf_list (c_ips pc) /\ Forall wf_claim (c_ips c) /\ Forall as_claim (c_asns c) /\
  (forall i fam lo hi, In i (c_ips c) -> denotes i fam lo hi ->
     covered (c_ips pc) fam lo hi /\ ~ inherited (c_ips pc) fam) /\
  (forall i lo hi, In i (c_asns c) -> as_denotes i lo hi ->
     as_covered (c_asns pc) lo hi /\ ~ In ASNull (c_asns pc)).

(** No entry of the manifest has a name with a parent directory in it. *)
Definition plain_names (m : mft) : Prop :=
  forall n h, In (n, h) (mft_files m) ->
    ~ (exists a b, n = a ++ str "../"%string ++ b) /\ ~ (exists a b, n = a ++ str "..\"%string ++ b).

(** The ROA authorises prefixes of its certificate, with maximum lengths that
    make sense. *)
Definition sound_roa (x : roa) : Prop :=
  wf_list (c_ips (roa_cert x)) /\ (forall fam, ~ inherited (c_ips (roa_cert x)) fam) /\ roa_inner x = true /\
  forall e, In e (roa_entries x) -> exists ip p,
    re_net e = mkNet ip (cidr_mask p (addr_bits ip)) /\ plain_addr ip /\ 0 <= p <= addr_bits ip /\
    p <= re_maxlen e <= addr_bits ip /\
    let lo := first_addr (addr_bits ip) p (addr_val ip) in
    let hi := last_addr (addr_bits ip) p (addr_val ip) in
    plain_bounds (length ip) lo hi /\ covered (c_ips (roa_cert x)) (length ip) lo hi.

Section Honest.
Variable sig_ok : cert -> cert -> bool.
Variable crl_sig_ok : cert -> crl -> bool.
Variable dec_tal : bytes -> option tal.
Variable dec_cert : bytes -> option cert.
Variable dec_roa : bytes -> option roa.
Variable dec_mft : bytes -> option mft.
Variable dec_crl : bytes -> option crl.
Variable hex_sha1 : bytes -> bytes.
Variable disk : bytes -> option bytes.
Variable sha256 : bytes -> bytes.
Variable clock : nat -> Z * Z.
Variable strict_manifests : bool.
Variable strict_hash : bool.
(** The files looked at, in order, and the time of the validation. *)
Variable P : list pkifile.
Variable now : Z.

(** The file holds the certificate [c], alone or in a signed object. *)
Definition bears (f : pkifile) (c : cert) : Prop :=
  match f_type f with
  | TCer => contents disk dec_cert f c
  | TRoa => exists r, contents disk dec_roa f r /\ roa_cert r = c
  | TMft => exists m, contents disk dec_mft f m /\ mft_cert m = c /\ plain_names m
  | _ => False
  end.

(** One of the files holds a certificate whose key made the list. *)
Definition effective (l : crl) : Prop :=
  exists g ca, In g P /\ bears g ca /\ c_ski ca = crl_aki (crl_exts l) [] /\ crl_sig_ok ca l = true.

(** The file and its certificate [c] are in order and nothing speaks against
    them: no other file has a certificate with the same key identifier, no list
    has its serial number, and what its manifest lists is there and in time. *)
Record clear (f : pkifile) (c : cert) : Prop := {
  cl_copy : good_copy disk sha256 f;
  cl_window : in_window c now;
  cl_key : forall f' c', In f' P -> bears f' c' -> c_ski c' = c_ski c -> f' = f;
  cl_listed : forall f' l n, In f' P -> f_type f' = TCrl -> contents disk dec_crl f' l -> effective l ->
    In n (crl_serials l) -> crl_aki (crl_exts l) [] ++ dec n <> c_aki c ++ dec (c_serial c);
  cl_entries : forall i f' p, nth_error P i = Some f' -> listed f' p f ->
    (strict_manifests = true -> good_copy disk sha256 f') /\
    (strict_hash = true -> forall m, contents disk dec_mft p m -> mft_current (clock (S i)) m) }.

(** [f] was found through the certificate file [g]: it is named by it, or
    listed by its manifest. *)
Definition under (f g : pkifile) : Prop :=
  (f_parent f = Some g /\ f_type g = TCer) \/ exists p, listed f p g.

(** [honest f c]: the file [f] was looked at and holds the certificate [c], in
    a chain of files in order up to a trust anchor that its locator names. *)
Inductive honest : pkifile -> cert -> Prop :=
| hon_anchor f p c n e :
    In f P -> f_type f = TCer -> bears f c -> f_parent f = Some p -> f_type p = TTal ->
    (** every locator for this location has the key of the certificate *)
    (forall q t, In q P -> f_type q = TTal -> contents disk dec_tal q t -> get_rsync_uri hex_sha1 t = f_path f ->
       t_alg t = alg_rsa /\ t_key t = RSAPtr n e) ->
    c_alg c = alg_rsa -> c_key c = RSAPtr n e ->
    (** no certificate passes for the issuer of the anchor *)
    (forall f' c', In f' P -> bears f' c' -> c_ski c' = c_aki c -> f' = f) ->
    clear f c -> honest f c
| hon_issued f c g pc :
    In f P -> bears f c -> under f g -> honest g pc ->
    c_aki c = c_ski pc -> sig_ok pc c = true -> within pc c ->
    clear f c -> honest f c.

(** The location of [x], named in file [p], is not named otherwise: whatever
    was looked at there was found in [p] and described as [x]. *)
Definition undisputed (p : pkifile) (x : fdesc) : Prop :=
  forall f, In f P -> compute_path f = compute_path (PFile O x (Some p)) -> f_parent f = Some p /\ f_desc f = x.
End Honest.
