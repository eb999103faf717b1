(** The part of Go's encoding/asn1 (library code, modelled by its source) that
    validator/lib/cms.go uses on raw values, octet strings and the digest
    structure of a signature. *)
From Verif.Model Require Import Base.

(** asn1.go parseBase128Int: at most five octets, below 2^31, the first one not
    0x80.  Result: the number and the rest. *)
Fixpoint base128 (k : nat) (first : bool) (acc : Z) (l : bytes) : option (Z * bytes) :=
  match k, l with
  | S k', b :: r =>
      if first && (b =? 128) then None
      else let acc' := acc * 128 + b mod 128 in
           if b <? 128 then (if acc' <? 2 ^ 31 then Some (acc', r) else None)
           else base128 k' false acc' r
  | _, _ => None
  end.

(** asn1.go parseTagAndLength, the octets of a long length: no leading zero,
    below 2^31. *)
Fixpoint long_length (n : nat) (acc : Z) (l : bytes) : option (Z * bytes) :=
  match n with
  | O => Some (acc, l)
  | S m =>
      match l with
      | [] => None
      | b :: r =>
          if 2 ^ 23 <=? acc then None
          else let acc' := acc * 256 + b in
               if acc' =? 0 then None else long_length m acc' r
      end
  end.

Definition parse_length (l : bytes) : option (Z * bytes) :=
  match l with
  | [] => None
  | b :: r =>
      if b <? 128 then Some (b, r)
      else if b =? 128 then None
      else match long_length (Z.to_nat (b - 128)) 0 r with
           | Some (n, r') => if n <? 128 then None else Some (n, r')
           | None => None
           end
  end.

(** A value read with asn1.Unmarshal into an asn1.RawValue. *)
Record raw := mkRaw {
  r_class : Z; r_cons : bool; r_tag : Z;
  r_bytes : bytes;    (* Bytes *)
  r_full : bytes      (* FullBytes *)
}.

(** asn1.go parseTagAndLength, then the length check of parseField.  Result:
    the value and what follows it. *)
Definition parse_raw (l : bytes) : option (raw * bytes) :=
  match l with
  | [] => None
  | b :: r =>
      let t := if b mod 32 =? 31 then
                 match base128 5 true 0 r with
                 | Some (t, r') => if t <? 31 then None else Some (t, r')
                 | None => None
                 end
               else Some (b mod 32, r) in
      match t with
      | None => None
      | Some (tag, r1) =>
          match parse_length r1 with
          | None => None
          | Some (n, r2) =>
              if Z.of_nat (length r2) <? n then None
              else
                let k := Z.to_nat n in
                let c := firstn k r2 in
                let rest := skipn k r2 in
                Some (mkRaw (b / 64) (negb (b / 32 mod 2 =? 0)) tag c
                        (firstn (length l - length rest) l), rest)
          end
      end
  end.

(** Unmarshal into a []byte: a universal primitive OCTET STRING. *)
Definition parse_octets (l : bytes) : option (bytes * bytes) :=
  match parse_raw l with
  | Some (r, rest) =>
      if (r_class r =? 0) && negb (r_cons r) && (r_tag r =? 4) then Some (r_bytes r, rest) else None
  | None => None
  end.

(** A struct: a universal constructed SEQUENCE; the result is its contents. *)
Definition parse_struct (l : bytes) : option (bytes * bytes) :=
  match parse_raw l with
  | Some (r, rest) =>
      if (r_class r =? 0) && r_cons r && (r_tag r =? 16) then Some (r_bytes r, rest) else None
  | None => None
  end.

(** asn1.go parseObjectIdentifier: not empty, well-formed components. *)
Fixpoint oid_parts (fuel : nat) (l : bytes) : bool :=
  match l, fuel with
  | [], _ => true
  | _, O => false
  | _, S f => match base128 5 true 0 l with Some (_, r) => oid_parts f r | None => false end
  end.
Definition oid_ok (c : bytes) : bool :=
  match c with [] => false | _ => oid_parts (length c) c end.

(** Unmarshal into an asn1.ObjectIdentifier. *)
Definition parse_oid (l : bytes) : option (bytes * bytes) :=
  match parse_raw l with
  | Some (r, rest) =>
      if (r_class r =? 0) && negb (r_cons r) && (r_tag r =? 6) && oid_ok (r_bytes r)
      then Some (r_bytes r, rest) else None
  | None => None
  end.

(** Unmarshal into a []asn1.RawValue: a SEQUENCE of any values. *)
Fixpoint raws (fuel : nat) (l : bytes) : option (list raw) :=
  match l, fuel with
  | [], _ => Some []
  | _, O => None
  | _, S f => match parse_raw l with
              | Some (r, rest) => match raws f rest with Some rs => Some (r :: rs) | None => None end
              | None => None
              end
  end.
Definition parse_raws (l : bytes) : option (list raw) :=
  match parse_struct l with
  | Some (c, _) => raws (length c) c
  | None => None
  end.
