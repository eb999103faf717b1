(** A grammar, independent of the decoder, of the octets of signed objects
    (RFC 5652, section 5; RFC 6488, section 2.1) as they are accepted. *)
From Coq Require Import List ZArith Bool Permutation.
From Verif.Model Require Import Base CertRes GoTime Der Roa.
From Verif.Spec Require Import Addr Bits BerSpec IpExtSpec TimeSpec ContentSpec.
Import ListNotations.
Open Scope Z_scope.

(** Any value, its identifier left open. *)
Definition some_value (e : bytes) : Prop := exists tg c, any_value tg c e.

(** A value with the context-specific tag [k] and contents [c], or nothing. *)
Inductive maybe (k : Z) : bytes -> bytes -> Prop :=
| maybe_not : maybe k [] []
| maybe_some tg c e : any_value tg c e -> hd 0 tg / 64 = 2 -> hd 0 tg mod 32 = k -> maybe k c e.

(** Attribute: type and values *)
Inductive attribute_octets : bytes -> list Z * list bytes -> Prop :=
| attr_one e e1 e2 junk c o vs : coded 48 (e1 ++ e2 ++ junk) e -> coded 6 c e1 -> oid_coded c o ->
    coded 49 (concat vs) e2 -> Forall some_value vs -> attribute_octets e (o, vs).

(** SignerInfo: version, signer identifier, digest algorithm, signed
    attributes, signature algorithm, signature; what follows is ignored. *)
Inductive signer_octets : bytes -> list (list Z * list bytes) * bytes * bytes -> Prop :=
| signer_one e ev sid da sa alg sg junk cv v ds es attrs sig :
    coded 48 (ev ++ sid ++ da ++ sa ++ alg ++ sg ++ junk) e ->
    coded 2 cv ev -> int_coded cv v -> some_value sid ->
    coded 48 (concat ds) da -> Forall some_value ds ->
    (coded 160 (concat es) sa \/ sa = [] /\ es = []) -> Forall2 attribute_octets es attrs ->
    some_value alg -> coded 4 sig sg ->
    signer_octets e (attrs, alg, sig).

(** The octets that an encapsulated content stands for: fragments put
    together, or the first value if it is not an OCTET STRING. *)
Inductive joined : bytes -> bytes -> Prop :=
| joined_fragments bs cs : cs <> [] -> Forall2 (fun b c => coded 4 c b) bs cs -> joined (concat bs) (concat cs)
| joined_value tg c e rest : any_value tg c e -> hd 0 tg mod 32 <> 4 -> joined (e ++ rest) e.

(** EncapsulatedContentInfo: type [o]; the content is inside a value inside the
    context-specific tag 0. *)
Inductive encapsulated : bytes -> list Z -> bytes -> Prop :=
| encap_one e e1 e2 junk c o tg v ev after content : coded 48 (e1 ++ e2 ++ junk) e -> coded 6 c e1 -> oid_coded c o ->
    coded 160 (ev ++ after) e2 -> any_value tg v ev -> joined v content ->
    encapsulated e o content.

(** ContentInfo with SignedData.  The length of the wrapper with tag 0 is not
    compared with what is inside; of the certificates the contents are used. *)
Inductive signed_object : bytes -> list Z -> bytes -> bytes -> list (list (list Z * list bytes) * bytes * bytes) -> Prop :=
| signed_one d e e0 lw n es junk rest c0 oid0 ev cv v da ds en ce cr si ss o content cert signers junk' :
    d = e ++ rest -> coded 48 (e0 ++ 160 :: lw ++ es ++ junk) e -> coded 6 c0 e0 -> oid_coded c0 oid0 ->
    der_len n lw -> 0 < n ->
    coded 48 (ev ++ da ++ en ++ ce ++ cr ++ si ++ junk') es -> coded 2 cv ev -> int_coded cv v ->
    coded 49 (concat ds) da -> Forall some_value ds ->
    encapsulated en o content -> maybe 0 cert ce -> (exists x, maybe 1 x cr) ->
    coded 49 (concat ss) si -> Forall2 signer_octets ss signers ->
    signed_object d o content cert signers.

(** ** Signatures *)
(** The digest given by signed attributes: the contents of the only value of an
    attribute of type message-digest; the last such attribute counts. *)
Definition digest_type : list Z := [1; 2; 840; 113549; 1; 9; 4].
Definition digest_attribute (attrs : list (list Z * list bytes)) (h : bytes) : Prop :=
  exists pre e post tg, attrs = pre ++ (digest_type, [e]) :: post /\ any_value tg h e /\
    forall w, ~ In (digest_type, [w]) post.

(** The octets to be signed: the attributes as a SET, each with its values as
    they are, attributes and values in any order. *)
Inductive attribute_set (attrs : list (list Z * list bytes)) : bytes -> Prop :=
| attribute_set_of es es' s :
    Forall2 (fun a e => exists e1 e2 c vs, coded 48 (e1 ++ e2) e /\ coded 6 c e1 /\ oid_coded c (fst a) /\
               coded 49 (concat vs) e2 /\ Permutation (snd a) vs) attrs es ->
    Permutation es es' -> coded 49 (concat es') s -> attribute_set attrs s.

(** What the check of a signature establishes: raised to the exponent, it is
    or contains after FF 00 a sequence of a sequence and an octet string that
    starts with the digest [h]. *)
Definition opens_to (n : Z) (p : positive) (sig h : bytes) : Prop :=
  0 < n -> exists out x l1 l2 l3 alg extra trail,
    addr_val out = addr_val sig ^ Zpos p mod n /\ hd 1 out <> 0 /\
    (out = x \/ exists pre, out = pre ++ 255 :: 0 :: x /\ (2 <= length pre)%nat) /\
    x = 48 :: l1 ++ (48 :: l2 ++ alg ++ 4 :: l3 ++ h ++ extra) ++ trail /\
    der_len (Z.of_nat (length alg)) l2 /\ der_len 32 l3.

(** A signature over a content: the first signer's attributes give its digest;
    the signature opens to the digest of these attributes as a SET, from the
    third octet on of a SEQUENCE with that SET. *)
Definition signature_checked (sha256 : bytes -> bytes) (signers : list (list (list Z * list bytes) * bytes * bytes))
  (content : bytes) (n : Z) (p : positive) : Prop :=
  exists attrs alg sig more s q, signers = (attrs, alg, sig) :: more /\
    digest_attribute attrs (sha256 content) /\ attribute_set attrs s /\ coded 48 s q /\
    opens_to n p sig (sha256 (skipn 2 q)).
