(** The key in a trust anchor locator, octet by octet: validator/lib/tal.go on
    encoding/asn1. *)
From Verif.Model Require Import Base Str NetIP CertRes Tal TalText Asn1 Der Cms ObjDer.

(** crypto/rsa PublicKey: modulus and exponent (an int of 64 bits) *)
Definition t_rsa_key : gotype := GStruct false [(p0, GBig); (p0, GInt)].
(** tal.go:150-157, the type for writing *)
Definition t_spki : gotype := GStruct false [(p0, GStruct false [(p0, GOid); (p0, GRaw)]); (p0, GBits)].
(** tal.go:231-236, the type for reading *)
Definition t_spki_read : gotype := GStruct false [(p0, GStruct false [(p0, GOid)]); (p0, GBits)].
(** tal.go:17 RSA *)
Definition oid_rsa : list Z := [1; 2; 840; 113549; 1; 1; 1].

(** tal.go:129-136 BundleRSAPublicKey, 158-171 of EncodeTALSize.  The length in
    bits of the bit string is left 0.  Neither Marshal fails. *)
Definition key_octets (n e : Z) : bytes := odefault [] (marshal t_rsa_key (VStruct [] [VBig (Some n); VInt e])).
Definition spki_octets (n e : Z) : bytes :=
  odefault [] (marshal t_spki (VStruct [] [VStruct [] [VOid oid_rsa; VRaw (mkRaw 0 false 5 [] [])];
                                           VBits (mkBits (key_octets n e) 0)])).

(** tal.go:238-262: the key of a TAL *)
Definition read_spki (d : bytes) : option pubkey :=
  match unmarshal t_spki_read d with
  | Some (VStruct _ [VStruct _ [VOid o]; VBits b], _) =>
      if oid_eqb o oid_rsa then
        match unmarshal t_rsa_key (bs_bytes b) with
        | Some (VStruct _ [VBig (Some n); VInt e], _) => Some (RSAPtr n e)
        | _ => None
        end
      else Some (OtherKey (bs_bytes b))
  | _ => None
  end.
