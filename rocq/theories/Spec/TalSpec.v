(** What a URI must look like to survive in the text form of a trust anchor
    locator: not empty, no line feed, not starting like a comment or with a
    carriage return, not ending with a carriage return. *)
From Coq Require Import List ZArith.
From Verif.Model Require Import Base CertRes Asn1.
From Verif.Spec Require Import IpExtSpec ContentSpec SignedSpec.
Import ListNotations.
Open Scope Z_scope.

Definition good_uri (u : bytes) : Prop :=
  u <> [] /\ ~ In 10 u /\ hd 0 u <> 35 /\ hd 0 u <> 13 /\ last u 0 <> 13.

(** SubjectPublicKeyInfo with an RSA key (RFC 8017) of modulus [n] and
    exponent [e].  What follows the last value read is ignored in each of the
    structures, the parameters of the algorithm among it, and so is what
    follows the whole. *)
Inductive rsa_key : bytes -> Z -> Z -> Prop :=
| rsa_one s e1 e2 junk rest c1 c2 n e :
    coded 48 (e1 ++ e2 ++ junk) s -> coded 2 c1 e1 -> number_coded c1 n -> coded 2 c2 e2 -> int_coded c2 e ->
    rsa_key (s ++ rest) n e.
Inductive key_info (alg : list Z) : bytes -> bitstring -> Prop :=
| info_one s e1 e2 e3 junk junk1 rest c2 c3 b :
    coded 48 (e1 ++ e3 ++ junk) s -> coded 48 (e2 ++ junk1) e1 -> coded 6 c2 e2 -> oid_coded c2 alg ->
    coded 3 c3 e3 -> bits_coded c3 b -> key_info alg (s ++ rest) b.

(** The text of a locator: lines [ls], each ended by a line feed, and what
    follows the last of them, [e].  A carriage return at either end of a line
    does not count.  The lines before the first empty one are the URIs,
    comments left out; the lines after it and [e] are the key in base64. *)
Definition no_front (l : bytes) : bytes := match l with [] => [] | c :: r => if c =? 13 then r else l end.
Definition trim (l : bytes) : bytes := no_front (rev (no_front (rev l))).
Definition tal_read (data : bytes) (uris : list bytes) (key : bytes) : Prop :=
  exists ls e before after,
    data = concat (map (fun l => l ++ [10]) ls) ++ e /\ Forall (fun l => ~ In 10 l) ls /\ ~ In 10 e /\
    map trim ls = before ++ after /\ ~ In [] before /\ hd [] after = [] /\
    uris = filter (fun l => negb (hd 0 l =? 35)) before /\ key = concat after ++ e.
