(** Grammars, independent of the decoders, of the octets of AS resource
    extensions (RFC 3779, section 3.2.3), subject information access
    (RFC 5280, section 4.2.2.2) and manifest contents (RFC 6486, section 4.2),
    together with the meaning of each production. *)
From Coq Require Import List ZArith Bool.
From Verif.Model Require Import Base CertRes GoTime Der.
From Verif.Spec Require Import Addr Bits BerSpec IpExtSpec TimeSpec.
Import ListNotations.
Open Scope Z_scope.

(** ** Object identifiers (X.690, section 8.19) *)
(** One number in base 128: all octets but the last have the high bit set. *)
Definition subidentifier (b : bytes) (v : Z) : Prop :=
  exists mid last, b = mid ++ [last] /\ Forall (fun x => 128 <= x < 256) mid /\ 0 <= last < 128 /\ hd 0 b <> 128 /\
    v = fold_left (fun n x => n * 128 + x mod 128) b 0 /\ v < 2 ^ 31.
Definition oid_coded (c : bytes) (o : list Z) : Prop :=
  exists bs v vs, c = concat bs /\ Forall2 subidentifier bs (v :: vs) /\
    ((v < 80 /\ o = v / 40 :: v mod 40 :: vs) \/ (80 <= v /\ o = 2 :: v - 80 :: vs)).

(** ** AS resources *)
(** ASIdOrRange; elements of another form mean nothing. *)
Inductive as_element : bytes -> list asinfo -> Prop :=
| as_number e c n : coded 2 c e -> int_coded c n -> as_element e [ASNum n]
| as_range e e1 e2 junk c1 c2 a b : coded 48 (e1 ++ e2 ++ junk) e -> coded 2 c1 e1 -> coded 2 c2 e2 ->
    int_coded c1 a -> int_coded c2 b -> as_element e [ASRange a b]
| as_other tg c e : any_value tg c e -> hd 0 tg mod 32 <> 2 -> hd 0 tg mod 32 <> 16 -> as_element e [].

(** ASIdentifierChoice; what follows it is ignored. *)
Inductive as_choice : bytes -> list asinfo -> Prop :=
| as_inherit tg c e junk : any_value tg c e -> hd 0 tg mod 32 = 5 -> as_choice (e ++ junk) [ASNull]
| as_elements es e ls junk : coded 48 (concat es) e -> Forall2 as_element es ls -> as_choice (e ++ junk) (concat ls)
| as_neither tg c e junk : any_value tg c e -> hd 0 tg mod 32 <> 5 -> hd 0 tg mod 32 <> 16 -> as_choice (e ++ junk) [].

(** A field with the context-specific tag [k], or nothing. *)
Inductive as_part (k : Z) : bytes -> list asinfo -> Prop :=
| as_absent : as_part k [] []
| as_present tg c e l : any_value tg c e -> hd 0 tg / 64 = 2 -> hd 0 tg mod 32 = k -> as_choice c l -> as_part k e l.

(** ASIdentifiers: numbers and routing domain identifiers *)
Inductive as_extension : bytes -> list asinfo -> list asinfo -> Prop :=
| as_ids e e1 e2 junk rest nums rdi : coded 48 (e1 ++ e2 ++ junk) e -> as_part 0 e1 nums -> as_part 1 e2 rdi ->
    as_extension (e ++ rest) nums rdi.

(** ** Subject information access *)
(** AccessDescription: method and the octets of a uniformResourceIdentifier *)
Inductive access : bytes -> list Z * bytes -> Prop :=
| access_one e e1 e2 junk c o name : coded 48 (e1 ++ e2 ++ junk) e -> coded 6 c e1 -> oid_coded c o -> coded 134 name e2 ->
    access e (o, name).
Inductive access_octets : bytes -> list (list Z * bytes) -> Prop :=
| access_all es e rest l : coded 48 (concat es) e -> Forall2 access es l -> access_octets (e ++ rest) l.

(** ** Manifest contents *)
(** A time in either form *)
Inductive time_value : bytes -> gotime -> Prop :=
| time_utc c e t : coded 23 c e -> utc_text c t -> time_value e t
| time_generalized c e t : coded 24 c e -> generalized_text c t -> time_value e t.

(** A string of one of the types with eight bits per character (UTF8, numeric,
    printable, T61, IA5, general), or a BMPString, whose characters are turned
    into UTF-8. *)
Inductive string_value : bytes -> bytes -> Prop :=
| string_plain k c e : In k [12; 18; 19; 20; 22; 27] -> coded k c e -> string_value e c
| string_bmp c e name : coded 30 c e -> parse_bmp c = Some name -> string_value e name.

(** FileAndHash *)
Inductive file_hash : bytes -> bytes * bitstring -> Prop :=
| file_one e e1 e2 junk c name b : coded 48 (e1 ++ e2 ++ junk) e -> string_value e1 name -> coded 3 c e2 -> bits_coded c b ->
    file_hash e (name, b).

(** Manifest: number, this update, next update, hash algorithm, files.  The
    version field of RFC 6486 has no place here. *)
Inductive manifest_octets : bytes -> Z -> gotime -> gotime -> list Z -> list (bytes * bitstring) -> Prop :=
| manifest_whole e e0 e1 e2 e3 e4 junk rest c0 c3 es n this next alg files :
    coded 48 (e0 ++ e1 ++ e2 ++ e3 ++ e4 ++ junk) e -> coded 2 c0 e0 -> number_coded c0 n ->
    time_value e1 this -> time_value e2 next -> coded 6 c3 e3 -> oid_coded c3 alg ->
    coded 48 (concat es) e4 -> Forall2 file_hash es files ->
    manifest_octets (e ++ rest) n this next alg files.
