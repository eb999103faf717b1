(** The decoders of pki.go:277-371 AddResource on the octets of a file.

    The crash of a decoder counts as a failure to decode here; the programs
    stop on it, so that their complete runs are runs of this model. *)
From Verif.Model Require Import Base NetIP CertRes Roa Str Tal Validator Der ObjDer TalText TalDer.

Section Files.
  Variable sha256 : bytes -> bytes.
  Variable x509_parse : bytes -> option (cert * list (list Z * bytes)).
  (** octorpki.go:59, 1056: -strict.cms *)
  Variable strict : bool.

  (** pki.go:281, tal.go:189-263 DecodeTAL *)
  Definition file_tal (d : bytes) : option tal := decode_tal read_spki d.
  (** pki.go:295, cert.go:889-923 DecodeCertificate *)
  Definition file_cert (d : bytes) : option cert := decode_certificate x509_parse d.
  (** pki.go:323, roa.go:258-328 DecodeROA *)
  Definition file_roa (d : bytes) : option roa :=
    match decode_roa sha256 x509_parse strict d with
    | Ret (Some (r, _)) => Some r
    | _ => None
    end.
  (** pki.go:336, manifest.go:71-130 DecodeManifest *)
  Definition file_mft (d : bytes) : option mft :=
    match decode_mft sha256 x509_parse strict d with
    | Ret (Some (m, _)) => Some m
    | _ => None
    end.
End Files.
