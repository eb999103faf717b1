(** Vocabulary for certificate transparency: the chain of files of a valid
    certificate. *)
From Verif.Model Require Import Base Str Tal Validator.
From Verif.Spec Require Import Trust.

(** The file of the valid certificate [c]. *)
Definition file_of (v : validator) (c : cert) (f : option pkifile) : Prop :=
  exists a r, v_valid v (c_ski c) = Some a /\ nth_error (v_heap v) a = Some r /\ r_obj r = OCert c /\ r_file r = f.

Section Chains.
Variable sig_ok : cert -> cert -> bool.
Variable anchor : cert -> Prop.
Variable X : Type.
Variable item : cert -> X -> Prop.

(** [to_anchor c l]: [l] are the items from [c] up to a trust anchor, issuer by
    issuer; that of a trust anchor naming itself as issuer comes twice. *)
Inductive to_anchor : cert -> list X -> Prop :=
| ta_anchor c x : item c x -> anchor c -> c_aki c = [] -> to_anchor c [x]
| ta_self c x : item c x -> anchor c -> c_aki c = c_ski c -> to_anchor c [x; x]
| ta_link c p x l : item c x -> c_aki c = c_ski p -> sig_ok p c = true -> to_anchor p l -> to_anchor c (x :: l).
End Chains.

(** [follows v seen c l]: [l] are the files from [c] upwards, issuer by issuer,
    until there is no issuer, an unknown one (no file), or one of [seen] or met
    before. *)
Inductive follows (v : validator) : list bytes -> cert -> list (option pkifile) -> Prop :=
| fo_end seen c f : file_of v c f -> c_aki c = [] -> follows v seen c [f]
| fo_unknown seen c f : file_of v c f -> c_aki c <> [] -> v_valid v (c_aki c) = None -> follows v seen c [f; None]
| fo_again seen c p f g : file_of v c f -> c_aki c <> [] -> c_aki c = c_ski p -> file_of v p g ->
    In (c_ski p) (c_ski c :: seen) -> follows v seen c [f; g]
| fo_link seen c p f l : file_of v c f -> c_aki c <> [] -> c_aki c = c_ski p ->
    ~ In (c_ski p) (c_ski c :: seen) -> follows v (c_ski c :: seen) p l -> follows v seen c (f :: l).

(** Key identifiers as RFC 6487 4.8.2 and 4.8.3 have them: present, and a trust
    anchor's issuer is absent or itself. *)
Definition rfc_key_ids (anchor : cert -> Prop) (v : validator) : Prop :=
  (forall c, valid_cert v c -> c_ski c <> []) /\
  (forall c, valid_cert v c -> anchor c -> c_aki c = [] \/ c_aki c = c_ski c).

(** ** The origin of files *)
Section Brings.
Variable dec_cert : bytes -> option cert.
Variable dec_roa : bytes -> option roa.
Variable dec_mft : bytes -> option mft.
Variable cms_certs : bytes -> option bytes.

(** The data [d] of the file [f] contains the certificate [c]. *)
Definition brings (f : pkifile) (d : bytes) (c : cert) : Prop :=
  match f_type f with
  | TCer => dec_cert d = Some c
  | TRoa => exists x, dec_roa d = Some x /\ roa_cert x = c
  | TMft => exists m, dec_mft d = Some m /\ mft_cert m = c
  | _ => False
  end.

(** [b] is the certificate [c] as found in a file handed to the validator: the
    file itself or the certificate inside a signed object. *)
Definition encoded (ops : list op) (c : cert) (b : bytes) : Prop :=
  exists f d, In (DoResource f d) ops /\ brings f d c /\
    match f_type f with TCer => b = d | _ => cms_certs d = Some b end.
End Brings.

(** What a program that only reads files does. *)
Definition reads_files (o : op) : Prop :=
  match o with DoResource _ _ | DoInvalidate _ => True | _ => False end.
