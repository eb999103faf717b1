(** A grammar, independent of the decoder, of the octets of IP address
    extensions (RFC 3779, section 2.2.3) and ROA contents (RFC 6482, section 3)
    together with the meaning of each production. *)
From Coq Require Import List ZArith Bool.
From Verif.Model Require Import Base NetIP CertRes Roa.
From Verif.Spec Require Import Addr Bits BerSpec.
Import ListNotations.
Open Scope Z_scope.

(** A value with the one identifier octet [id] and contents [c]. *)
Definition coded (id : Z) (c b : bytes) : Prop :=
  exists l, der_len (Z.of_nat (length c)) l /\ b = id :: l ++ c.
(** Any value: identifier octets [tg] (one, unless the low five bits of the
    first are all set), contents [c]. *)
Definition any_value (tg c b : bytes) : Prop :=
  exists l, der_len (Z.of_nat (length c)) l /\ b = tg ++ l ++ c /\ tg <> [] /\
    (hd 0 tg mod 32 <> 31 -> tg = [hd 0 tg]).

(** Contents of a BIT STRING: the number of unused bits, then the bits. *)
Definition bits_coded (c : bytes) (b : bitstring) : Prop :=
  exists unused, c = unused :: bs_bytes b /\ 0 <= unused <= 7 /\
    bs_len b = 8 * Z.of_nat (length (bs_bytes b)) - unused /\ wf_bits b.
(** Contents of an INTEGER: two's complement, in no more octets than needed. *)
Definition complement (c : bytes) : Z :=
  addr_val c - (if 128 <=? hd 0 c then 256 ^ Z.of_nat (length c) else 0).
Definition number_coded (c : bytes) (n : Z) : Prop :=
  c <> [] /\ n = complement c /\
  (forall c', c' <> [] -> bytes_ok c' = true -> complement c' = n -> (length c <= length c')%nat).
(** The same in at most eight octets. *)
Definition int_coded (c : bytes) (n : Z) : Prop := number_coded c n /\ (length c <= 8)%nat.

(** What a bit string of a family means as a prefix.  The last two cases are
    not addresses: a bit string longer than the addresses of the family gives
    its first octets with an empty mask, another family gives a nil network. *)
Inductive prefix_of (fam : bytes) (b : bitstring) : option ipnet -> Prop :=
| pre_fits n net : fam_octets fam n -> bs_len b <= 8 * Z.of_nat n ->
    length (nip net) = n -> bytes_ok (nip net) = true ->
    addr_val (nip net) = bits_val b * 2 ^ (8 * Z.of_nat n - bs_len b) ->
    length (nmask net) = n -> bytes_ok (nmask net) = true ->
    addr_val (nmask net) = 2 ^ (8 * Z.of_nat n) - 2 ^ (8 * Z.of_nat n - bs_len b) ->
    prefix_of fam b (Some net)
| pre_long n net : fam_octets fam n -> 8 * Z.of_nat n < bs_len b ->
    nip net = firstn n (bs_bytes b) -> length (nip net) = n -> nmask net = [] ->
    prefix_of fam b (Some net)
| pre_other : (forall n, ~ fam_octets fam n) -> prefix_of fam b None.

(** What it means as the lower or upper end of a range. *)
Inductive low_end (fam : bytes) (b : bitstring) : bytes -> Prop :=
| low_fits n a : fam_octets fam n -> bs_len b <= 8 * Z.of_nat n ->
    length a = n -> bytes_ok a = true -> addr_val a = bits_val b * 2 ^ (8 * Z.of_nat n - bs_len b) ->
    low_end fam b a
| low_long n : fam_octets fam n -> 8 * Z.of_nat n < bs_len b -> (n <= length (bs_bytes b))%nat ->
    low_end fam b (firstn n (bs_bytes b))
| low_other : (forall n, ~ fam_octets fam n) -> low_end fam b [].
Inductive high_end (fam : bytes) (b : bitstring) : bytes -> Prop :=
| high_fits n a : fam_octets fam n -> bs_len b <= 8 * Z.of_nat n ->
    length a = n -> bytes_ok a = true ->
    addr_val a = (bits_val b + 1) * 2 ^ (8 * Z.of_nat n - bs_len b) - 1 ->
    high_end fam b a
| high_long n : fam_octets fam n -> 8 * Z.of_nat n < bs_len b < 8 * Z.of_nat n + 8 -> (n <= length (bs_bytes b))%nat ->
    high_end fam b (firstn n (bs_bytes b))
| high_longer n : fam_octets fam n -> 8 * Z.of_nat n + 8 <= bs_len b -> high_end fam b []
| high_other : (forall n, ~ fam_octets fam n) -> high_end fam b [].

(** ** IP address extensions *)
(** IPAddressOrRange; elements of another form mean nothing. *)
Inductive element (fam : bytes) : bytes -> list ipinfo -> Prop :=
| el_prefix e c b i : coded 3 c e -> bits_coded c b -> prefix_of fam b i -> element fam e [INet i]
| el_range e e1 e2 junk c1 c2 b1 b2 lo hi :
    coded 48 (e1 ++ e2 ++ junk) e -> coded 3 c1 e1 -> coded 3 c2 e2 ->
    bits_coded c1 b1 -> bits_coded c2 b2 -> low_end fam b1 lo -> high_end fam b2 hi ->
    element fam e [IRange lo hi]
| el_other tg c e : any_value tg c e -> hd 0 tg mod 32 <> 3 -> hd 0 tg mod 32 <> 16 -> element fam e [].

(** The family an inherit marker stands for. *)
Inductive marker (fam : bytes) : Z -> Prop :=
| marker_family a f : (f = 1 \/ f = 2) -> fam = [a; f] -> marker fam f
| marker_none : (forall a f, fam = [a; f] -> f <> 1 /\ f <> 2) -> marker fam 0.

(** IPAddressChoice *)
Inductive choice (fam : bytes) : bytes -> list ipinfo -> Prop :=
| ch_inherit tg c e f : any_value tg c e -> hd 0 tg mod 32 = 5 -> marker fam f -> choice fam e [INull f]
| ch_elements es e ls : coded 48 (concat es) e -> Forall2 (element fam) es ls -> choice fam e (concat ls)
| ch_other tg c e : any_value tg c e -> hd 0 tg mod 32 <> 5 -> hd 0 tg mod 32 <> 16 -> choice fam e [].

(** IPAddressFamily *)
Inductive family_block : bytes -> list ipinfo -> Prop :=
| fam_block e e1 e2 junk fam l : coded 48 (e1 ++ e2 ++ junk) e -> coded 4 fam e1 -> choice fam e2 l ->
    family_block e l.

(** IPAddrBlocks *)
Inductive ip_extension : bytes -> list ipinfo -> Prop :=
| ip_blocks fs e rest ls : coded 48 (concat fs) e -> Forall2 family_block fs ls ->
    ip_extension (e ++ rest) (concat ls).

(** ** ROA contents *)
(** The length of a prefix. *)
Definition prefix_len (b : bitstring) (n : nat) : Z := if bs_len b <=? 8 * Z.of_nat n then bs_len b else 0.

(** ROAIPAddress: the maximal length is that of the prefix unless a
    non-negative one is given. *)
Inductive roa_address (fam : bytes) : bytes -> roa_entry -> Prop :=
| addr_plain e e1 junk c b n net : coded 48 (e1 ++ junk) e -> hd 0 junk <> 2 ->
    coded 3 c e1 -> bits_coded c b -> prefix_of fam b (Some net) -> fam_octets fam n ->
    roa_address fam e (mkEntry net (prefix_len b n))
| addr_maxlen e e1 e2 junk c c2 b m n net : coded 48 (e1 ++ e2 ++ junk) e ->
    coded 3 c e1 -> bits_coded c b -> prefix_of fam b (Some net) -> fam_octets fam n ->
    coded 2 c2 e2 -> int_coded c2 m ->
    roa_address fam e (mkEntry net (if m <? 0 then prefix_len b n else m)).

(** ROAIPAddressFamily *)
Inductive roa_block : bytes -> list roa_entry -> Prop :=
| roa_fam e e1 e2 junk fam es l : coded 48 (e1 ++ e2 ++ junk) e -> coded 4 fam e1 ->
    coded 48 (concat es) e2 -> Forall2 (roa_address fam) es l -> roa_block e l.

(** RouteOriginAttestation *)
Inductive roa_octets : bytes -> Z -> list roa_entry -> Prop :=
| roa_whole e e1 e2 junk rest c asn fs ls : coded 48 (e1 ++ e2 ++ junk) e -> coded 2 c e1 -> int_coded c asn ->
    coded 48 (concat fs) e2 -> Forall2 roa_block fs ls -> roa_octets (e ++ rest) asn (concat ls).
