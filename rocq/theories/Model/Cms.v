(** Signed objects: validator/lib/cms.go. *)
From Verif.Model Require Import Base Str Tal Ber Asn1.

(** cms.go:27-30 Attribute.  A value is its FullBytes and its Bytes. *)
Record attr := mkAttr { a_type : bytes; a_values : list (bytes * bytes) }.

(** cms.go:32-42 SignerInfo, the fields that are used. *)
Record signer := mkSigner {
  si_attrs : list attr;
  si_alg : bytes;        (* SignatureAlgorithm.FullBytes *)
  si_sig : bytes         (* Signature *)
}.

(** cms.go:44-56 CMS, the fields that are used. *)
Record cms := mkCms {
  c_certs : bytes;       (* SignedData.Certificates.Bytes *)
  c_signers : list signer
}.

(** cms.go:20 MessageDigest: 1.2.840.113549.1.9.4, as the octets of its encoding. *)
Definition oid_message_digest : bytes := [42; 134; 72; 134; 247; 13; 1; 9; 4].

(** big.Int SetBytes *)
Definition int_of_bytes (l : bytes) : Z := fold_left (fun acc b => acc * 256 + b) l 0.

(** big.Int Bytes: big-endian without leading zeros; [fuel] bounds the number
    of bytes. *)
Fixpoint bytes_of_int_aux (fuel : nat) (v : Z) (acc : bytes) : bytes :=
  match fuel with
  | O => acc
  | S f => if v =? 0 then acc else bytes_of_int_aux f (v / 256) (v mod 256 :: acc)
  end.
Definition bytes_of_int (v : Z) : bytes := bytes_of_int_aux (S (Z.to_nat (Z.log2 v))) v [].

(** big.Int Exp on non-negative numbers: by repeated squaring; with modulus 0
    there is no reduction (never reached: see [rsa_public_decrypt]). *)
Fixpoint pow_mod (m : Z) (e : positive) (n : Z) : Z :=
  match e with
  | xH => m mod n
  | xO p => let r := pow_mod m p n in r * r mod n
  | xI p => let r := pow_mod m p n in r * r mod n * m mod n
  end.

(** cms.go:66-74, the search for the end of the padding from index 2 on;
    [i] is the index of the head of [l].  Result: [skip]. *)
Fixpoint find_skip (i : nat) (l : bytes) : nat :=
  match l with
  | a :: ((b :: _) as r) => if (a =? 255) && (b =? 0) then i + 2 else find_skip (S i) r
  | _ => O
  end.

(** cms.go:58-76 RSAPublicDecrypt.  The exponent of a parsed key is positive
    and so is the modulus (crypto/x509 parsePublicKey). *)
Definition rsa_public_decrypt (n : Z) (e : positive) (data : bytes) : bytes :=
  let out := bytes_of_int (pow_mod (int_of_bytes data) e n) in
  skipn (find_skip 2 (skipn 2 out)) out.

(** cms.go:138-146, 155-158: Unmarshal into SignatureDecoded.  Extra octets after the
    fields are ignored, inside the sequences and after them. *)
Definition parse_signature (l : bytes) : option bytes :=
  match parse_struct l with
  | None => None
  | Some (c, _) =>
      match parse_struct c with
      | None => None
      | Some (inner, rest) =>
          match parse_oid inner with
          | None => None
          | Some (_, r1) =>
              match parse_raw r1 with
              | None => None
              | Some _ => match parse_octets rest with Some (h, _) => Some h | None => None end
              end
          end
      end
  end.

(** cms.go:152-160 DecryptSignatureRSA *)
Definition decrypt_signature_rsa (n : Z) (e : positive) (sig : bytes) : option bytes :=
  parse_signature (rsa_public_decrypt n e sig).

(** cms.go:335-342: the value of the last digest attribute with one value. *)
Definition message_digest (l : list attr) : bytes :=
  fold_left (fun acc a =>
    match a_values a with
    | [(_, v)] => if beq (a_type a) oid_message_digest then v else acc
    | _ => acc
    end) l [].

Section Oracles.
  Variable sha256 : bytes -> bytes.
  (** asn1.Marshal of []Attribute with the parameter "set"; [None] is an
      error. *)
  Variable marshal_set : list attr -> option bytes.

  (** asn1.Marshal of SignedAttributesDigest: a SEQUENCE with that set. *)
  Definition marshal_sad (l : list attr) : option bytes :=
    match marshal_set l with
    | Some s => Some (48 :: encode_length (Z.of_nat (length s)) ++ s)
    | None => None
    end.

  (** The three results of Validate. *)
  Inductive vres := VOk | VErr.

  (** cms.go:332-379 Validate.  SignerInfos[0] panics on an empty list. *)
  Definition cms_validate (c : cms) (encap : bytes) (key : pubkey) : go vres :=
    match c_signers c with
    | [] => Panic
    | si :: _ =>
        if negb (beq (sha256 encap) (message_digest (si_attrs si))) then Ret VErr
        else
          match marshal_sad (si_attrs si) with
          | None => Ret VErr
          | Some b =>
              if (length b <? 2)%nat then Ret VErr
              else
                let h := sha256 (skipn 2 b) in
                match key with
                | RSAPtr n e =>
                    match e with
                    | Zpos p =>
                        match decrypt_signature_rsa n p (si_sig si) with
                        | None => Ret VErr
                        | Some d => if beq h d then Ret VOk else Ret VErr
                        end
                    | _ => Ret VErr
                    end
                | _ => Ret VErr
                end
          end
    end.

  (** cms.go:286-299 and 300-301: the FullBytes of the algorithm identifier of
      the first certificate of the object. *)
  Variable cert_alg : bytes -> option bytes.

  (** cms.go:282-329 CheckSignaturesMatch; [None] is an error. *)
  Definition check_signatures_match (c : cms) : option bool :=
    match cert_alg (c_certs c) with
    | None => None
    | Some ca =>
        match c_signers c with
        | [] => Some false
        | si :: _ =>
            match parse_raws ca with
            | None => None
            | Some [] => Some false
            | Some (r0 :: rs) =>
                if negb (r_tag (last rs r0) =? 5) then Some false
                else match parse_raws (si_alg si) with
                     | None => None
                     | Some _ => Some (beq ca (si_alg si))
                     end
            end
        end
    end.
End Oracles.

(** cms.go:391-402, the loop of BadFormatGroup on the data not yet read.
    Result: fullbytes, iterations, success; [None]: out of fuel (never
    happens, every round takes at least two octets). *)
Fixpoint group_loop (fuel : nat) (data full : bytes) (iter : nat) : option (bytes * nat * bool) :=
  match fuel with
  | O => None
  | S f =>
      match parse_octets data with
      | None => Some (full, S iter, false)
      | Some (tmp, k) =>
          match k with
          | [] => Some (full ++ tmp, S iter, true)
          | _ => group_loop f k (full ++ tmp) (S iter)
          end
      end
  end.

(** cms.go:381-408 BadFormatGroup: the bytes, whether there were several
    fragments, whether there was no error. *)
Definition bad_format_group (data : bytes) : option (bytes * bool * bool) :=
  match parse_raw data with
  | Some (r, _) =>
      if r_tag r =? 4 then
        match group_loop (S (length data)) data [] 0 with
        | Some (full, it, ok) => Some (full, (1 <? it)%nat, ok)
        | None => None
        end
      else Some (r_full r, false, true)
  | None => Some ([], false, false)
  end.
