(** encoding/asn1: Unmarshal and Marshal, directed by a description of the Go
    type.  The library is not part of /repo; the vendored copy of it in
    /repo/vendor/github.com/google/certificate-transparency-go/asn1 is (asn1.go,
    common.go, marshal.go, cited below as "asn1/...").  The copy differs from
    the library in its relaxed mode, which is off here, and in two checks which
    are modelled as in the library: base 128 numbers must be minimal ([base128]
    of [Asn1.v]) and the elements of a SET OF are sorted by Marshal. *)
From Verif.Model Require Import Base Str NetIP CertRes Ber Asn1 GoTime.

(** asn1/common.go:75-149 fieldParameters; "application" and "private" are
    never used by the code. *)
Record params := mkP {
  p_opt : bool; p_explicit : bool; p_default : option Z; p_tag : option Z;
  p_str : Z;      (* stringType, 0 when not given *)
  p_gen : bool;   (* timeType is GeneralizedTime *)
  p_set : bool; p_omit : bool }.
Definition p0 : params := mkP false false None None 0 false false false.

(** The Go types that occur: asn1.RawValue, ObjectIdentifier, BitString,
    time.Time, *big.Int, int, []byte, string, structs (with or without a first
    field of type RawContent), slices, bool. *)
Inductive gotype :=
| GRaw | GOid | GBits | GTime | GBig | GInt | GOctets | GString
| GStruct (rc : bool) (fs : list (params * gotype))
| GSlice (t : gotype)
| GBool.

(** Their values.  [VBig None] is a nil pointer.  A struct value starts with
    its RawContent (empty if there is none). *)
Inductive govalue :=
| VRaw (r : raw)
| VOid (l : list Z)
| VBits (b : bitstring)
| VTime (t : gotime)
| VBig (n : option Z)
| VInt (n : Z)
| VOctets (b : bytes)
| VStr (b : bytes)
| VStruct (rc : bytes) (l : list govalue)
| VSlice (l : list govalue)
| VBool (b : bool).

Definition raw0 : raw := mkRaw 0 false 0 [] [].

(** The zero value of a type (reflect.Zero). *)
Fixpoint zero_of (t : gotype) : govalue :=
  match t with
  | GRaw => VRaw raw0
  | GOid => VOid []
  | GBits => VBits (mkBits [] 0)
  | GTime => VTime time0
  | GBig => VBig None
  | GInt => VInt 0
  | GOctets => VOctets []
  | GString => VStr []
  | GStruct _ fs => VStruct [] (map (fun f => zero_of (snd f)) fs)
  | GSlice _ => VSlice []
  | GBool => VBool false
  end.

(** ** Unmarshal *)

(** asn1/common.go:51-54 tagAndLength *)
Record hdr := mkH { h_class : Z; h_cons : bool; h_tag : Z; h_len : Z }.

(** asn1/asn1.go:572-645 parseTagAndLength *)
Definition parse_header (l : bytes) : option (hdr * bytes) :=
  match l with
  | [] => None
  | b :: r =>
      let t := if b mod 32 =? 31 then
                 match base128 5 true 0 r with
                 | Some (t, r') => if t <? 31 then None else Some (t, r')
                 | None => None
                 end
               else Some (b mod 32, r) in
      match t with
      | None => None
      | Some (tag, r1) =>
          match parse_length r1 with
          | None => None
          | Some (n, r2) => Some (mkH (b / 64) (negb (b / 32 mod 2 =? 0)) tag n, r2)
          end
      end
  end.

(** asn1/asn1.go:83-102 parseBool *)
Definition parse_bool (l : bytes) : option bool :=
  match l with
  | [b] => if b =? 0 then Some false else if b =? 255 then Some true else None
  | _ => None
  end.

(** asn1/asn1.go:108-122 checkInteger *)
Definition check_integer (l : bytes) : bool :=
  match l with
  | [] => false
  | [_] => true
  | a :: b :: _ => negb (((a =? 0) && (b <? 128)) || ((a =? 255) && (128 <=? b)))
  end.

(** Big-endian two's complement. *)
Definition be_value (l : bytes) : Z := fold_left (fun acc b => acc * 256 + b) l 0.
Definition signed_value (l : bytes) : Z :=
  match l with
  | b :: _ => if 128 <=? b then be_value l - 256 ^ Z.of_nat (length l) else be_value l
  | [] => 0
  end.

(** asn1/asn1.go:126-145 parseInt64; 167-187 parseBigInt *)
Definition parse_int64 (l : bytes) : option Z :=
  if check_integer l && (Z.of_nat (length l) <=? 8) then Some (signed_value l) else None.
Definition parse_bigint (l : bytes) : option Z :=
  if check_integer l then Some (signed_value l) else None.

(** asn1/asn1.go:227-243 parseBitString *)
Definition parse_bitstring (l : bytes) : option bitstring :=
  match l with
  | [] => None
  | p :: r =>
      if (7 <? p) || (match r with [] => 0 <? p | _ => false end)
         || negb (Z.land (last l 0) (2 ^ p - 1) =? 0)
      then None
      else Some (mkBits r (8 * Z.of_nat (length r) - p))
  end.

(** asn1/asn1.go:287-326 parseObjectIdentifier *)
Fixpoint oid_rest (fuel : nat) (l : bytes) : option (list Z) :=
  match l, fuel with
  | [], _ => Some []
  | _, O => None
  | _, S f =>
      match base128 5 true 0 l with
      | Some (v, r) => match oid_rest f r with Some vs => Some (v :: vs) | None => None end
      | None => None
      end
  end.
Definition parse_oid_value (l : bytes) : option (list Z) :=
  match l with
  | [] => None
  | _ =>
      match oid_rest (length l) l with
      | Some (v :: vs) =>
          Some (if v <? 80 then v / 40 :: v mod 40 :: vs else 2 :: v - 80 :: vs)
      | _ => None
      end
  end.

(** asn1/asn1.go:426-429 isNumeric, 475-494 isPrintable with '*' and '&'
    allowed or not *)
Definition is_numeric (b : Z) : bool := ((48 <=? b) && (b <=? 57)) || (b =? 32).
Definition is_printable (star amp : bool) (b : Z) : bool :=
  ((97 <=? b) && (b <=? 122)) || ((65 <=? b) && (b <=? 90)) || ((48 <=? b) && (b <=? 57))
  || ((39 <=? b) && (b <=? 41)) || ((43 <=? b) && (b <=? 47))
  || (b =? 32) || (b =? 58) || (b =? 61) || (b =? 63)
  || (star && (b =? 42)) || (amp && (b =? 38)).

(** unicode/utf8.Valid *)
Definition in_range (lo hi b : Z) : bool := (lo <=? b) && (b <=? hi).
Fixpoint utf8_valid (fuel : nat) (l : bytes) : bool :=
  match l, fuel with
  | [], _ => true
  | _, O => false
  | b :: r, S f =>
      if b <? 128 then utf8_valid f r
      else match r with
      | [] => false
      | c :: r1 =>
          if in_range 194 223 b then in_range 128 191 c && utf8_valid f r1
          else match r1 with
          | [] => false
          | d :: r2 =>
              if in_range 224 239 b then
                in_range (if b =? 224 then 160 else 128) (if b =? 237 then 159 else 191) c
                && in_range 128 191 d && utf8_valid f r2
              else match r2 with
              | [] => false
              | e :: r3 =>
                  in_range 240 244 b
                  && in_range (if b =? 240 then 144 else 128) (if b =? 244 then 143 else 191) c
                  && in_range 128 191 d && in_range 128 191 e && utf8_valid f r3
              end
          end
      end
  end.
Definition utf8_ok (l : bytes) : bool := utf8_valid (length l) l.

(** The conversion string([]rune) for one rune *)
Definition utf8_rune (c : Z) : bytes :=
  if c <? 128 then [c]
  else if c <? 2048 then [192 + c / 64; 128 + c mod 64]
  else if c <? 65536 then [224 + c / 4096; 128 + c / 64 mod 64; 128 + c mod 64]
  else [240 + c / 262144; 128 + c / 4096 mod 64; 128 + c / 64 mod 64; 128 + c mod 64].

(** asn1/asn1.go:534-551 parseBMPString with unicode/utf16.Decode *)
Fixpoint bmp_units (l : bytes) : option (list Z) :=
  match l with
  | [] => Some []
  | [_] => None
  | a :: b :: r => match bmp_units r with Some u => Some (a * 256 + b :: u) | None => None end
  end.
Fixpoint utf16_decode (l : list Z) : list Z :=
  match l with
  | [] => []
  | a :: r =>
      if in_range 55296 56319 a then
        match r with
        | b :: r' =>
            if in_range 56320 57343 b
            then ((a - 55296) * 1024 + (b - 56320) + 65536) :: utf16_decode r'
            else 65533 :: utf16_decode r
        | [] => [65533]
        end
      else if in_range 56320 57343 a then 65533 :: utf16_decode r
      else a :: utf16_decode r
  end.
Definition drop_last0 (u : list Z) : list Z :=
  match rev u with 0 :: r => rev r | _ => u end.
Definition parse_bmp (l : bytes) : option bytes :=
  match bmp_units l with
  | Some u => Some (flat_map utf8_rune (utf16_decode (drop_last0 u)))
  | None => None
  end.

(** asn1/asn1.go:1066-1094 (and 416-530), the string types by tag *)
Definition parse_string (tag : Z) (l : bytes) : option bytes :=
  if tag =? 19 then (if forallb (is_printable true true) l then Some l else None)
  else if tag =? 18 then (if forallb is_numeric l then Some l else None)
  else if tag =? 22 then (if forallb (fun b => b <? 128) l then Some l else None)
  else if (tag =? 20) || (tag =? 27) then Some l
  else if tag =? 12 then (if utf8_ok l then Some l else None)
  else if tag =? 30 then parse_bmp l
  else None.

(** asn1/common.go:153-187 getUniversalType: tag and constructed bit; [None]
    is matchAny. *)
Definition universal (t : gotype) : option (Z * bool) :=
  match t with
  | GRaw => None
  | GOid => Some (6, false)
  | GBits => Some (3, false)
  | GTime => Some (23, false)
  | GBig | GInt => Some (2, false)
  | GOctets => Some (4, false)
  | GString => Some (19, false)
  | GStruct _ _ | GSlice _ => Some (16, true)
  | GBool => Some (1, false)
  end.

(** asn1/asn1.go:871-900: the universal tag adapted to strings, times, sets *)
Definition is_string_tag (t : Z) : bool :=
  (t =? 22) || (t =? 27) || (t =? 20) || (t =? 12) || (t =? 18) || (t =? 30).
Definition wire_tag (p : params) (t : gotype) (h : hdr) : Z :=
  let u := match universal t with Some (u, _) => u | None => -1 end in
  let u := match t with
           | GString =>
               if h_class h =? 0 then (if is_string_tag (h_tag h) then h_tag h else u)
               else if negb (p_str p =? 0) then p_str p else u
           | GTime => if (h_class h =? 0) && (h_tag h =? 24) then 24 else u
           | _ => u
           end in
  if p_set p then 17 else u.

(** asn1/asn1.go:902-935: does the header match? *)
Definition matches (p : params) (t : gotype) (h : hdr) : bool :=
  let any := match universal t with None => true | Some _ => false end in
  let tagged := match p_tag p with Some _ => negb (p_explicit p) | None => false end in
  let tag := match p_tag p with
             | Some k => if p_explicit p then wire_tag p t h else k
             | None => wire_tag p t h
             end in
  ((any && negb tagged) || ((h_class h =? (if tagged then 2 else 0)) && (h_tag h =? tag)))
  && (any || match universal t with Some (_, c) => Bool.eqb (h_cons h) c | None => true end).

(** asn1/asn1.go:1114-1126 setDefaultValue; [None]: not optional. *)
Definition default_value (p : params) (t : gotype) : option govalue :=
  if p_opt p then
    Some (match t, p_default p with GInt, Some d => VInt d | _, _ => zero_of t end)
  else None.

Definition opt_map {A B} (f : A -> B) (o : option A) : option B :=
  match o with Some a => Some (f a) | None => None end.

(** Repeat a parser until the input is used up.  Every round takes at least
    two octets, so the length of the input is enough [fuel]. *)
Fixpoint many {A} (f : bytes -> option (A * bytes)) (fuel : nat) (l : bytes) : option (list A) :=
  match l, fuel with
  | [], _ => Some []
  | _, O => None
  | _, S k => match f l with
              | Some (a, r) => opt_map (cons a) (many f k r)
              | None => None
              end
  end.

(** asn1/asn1.go:834-869, the explicit tag: go on with a header and the rest,
    use the default value, or fail. *)
Inductive step := Go (h : hdr) (r : bytes) | Default | Fail.
Definition open_explicit (p : params) (t : gotype) (h : hdr) (r : bytes) : step :=
  if p_explicit p then
    match r with
    | [] => Fail
    | _ =>
        if (h_class h =? 2) && (match p_tag p with Some k => h_tag h =? k | None => h_tag h =? 0 end)
           && ((h_len h =? 0) || h_cons h)
        then match t with
             | GRaw => Go h r
             | _ => if 0 <? h_len h
                    then match parse_header r with Some (h', r') => Go h' r' | None => Fail end
                    else Fail
             end
        else Default
    end
  else Go h r.

(** asn1/asn1.go:765-1098 parseField on the rest of the data.  Result: the
    value and what follows.  The first pass of parseSequenceOf (650-698), which
    checks the tags of all elements, is left out: an element it rejects is
    rejected by parseField, too. *)
Fixpoint parse_field (t : gotype) (p : params) (l : bytes) {struct t} : option (govalue * bytes) :=
  let default := match default_value p t with Some v => Some (v, l) | None => None end in
  match l with
  | [] => default
  | _ =>
      match parse_header l with
      | None => None
      | Some (h0, r0) =>
          match open_explicit p t h0 r0 with
          | Fail => None
          | Default => default
          | Go h r =>
              if negb (matches p t h) then default
              else if Z.of_nat (length r) <? h_len h then None
              else
                let inner := firstn (Z.to_nat (h_len h)) r in
                let rest := skipn (Z.to_nat (h_len h)) r in
                let full := firstn (length l - length rest) l in
                opt_map (fun v => (v, rest))
                  match t with
                  | GRaw => Some (VRaw (mkRaw (h_class h) (h_cons h) (h_tag h) inner full))
                  | GOid => opt_map VOid (parse_oid_value inner)
                  | GBits => opt_map VBits (parse_bitstring inner)
                  | GTime => opt_map VTime (if wire_tag p t h =? 23 then parse_utc inner
                                            else parse_generalized inner)
                  | GBig => opt_map (fun n => VBig (Some n)) (parse_bigint inner)
                  | GInt => opt_map VInt (parse_int64 inner)
                  | GOctets => Some (VOctets inner)
                  | GString => opt_map VStr (parse_string (wire_tag p t h) inner)
                  | GStruct rc fs =>
                      opt_map (VStruct (if rc then full else []))
                        ((fix go (fs : list (params * gotype)) (l : bytes) : option (list govalue) :=
                            match fs with
                            | [] => Some []
                            | (p, t) :: fs' =>
                                match parse_field t p l with
                                | Some (v, r) => opt_map (cons v) (go fs' r)
                                | None => None
                                end
                            end) fs inner)
                  | GSlice t' => opt_map VSlice (many (parse_field t' p0) (length inner) inner)
                  | GBool => opt_map VBool (parse_bool inner)
                  end
          end
      end
  end.

(** asn1/asn1.go:1182-1195 Unmarshal, UnmarshalWithParams *)
Definition unmarshal (t : gotype) (l : bytes) : option (govalue * bytes) := parse_field t p0 l.

(** ** Marshal *)

(** asn1/marshal.go:124-151 appendBase128Int *)
Fixpoint base128_length (fuel : nat) (n : Z) : nat :=
  match fuel with
  | O => O
  | S f => if n <=? 0 then O else S (base128_length f (n / 128))
  end.
Fixpoint base128_digits (k : nat) (n : Z) : bytes :=
  match k with
  | O => []
  | S j => (n / 128 ^ Z.of_nat j) mod 128 + (if Nat.eqb j 0 then 0 else 128) :: base128_digits j n
  end.
Definition put_base128 (n : Z) : bytes :=
  base128_digits (if n =? 0 then 1 else base128_length 10 n) n.

(** asn1/marshal.go:206-229 appendTagAndLength; the length is written as in
    ber.go ([encode_length]). *)
Definition put_header (class : Z) (cons : bool) (tag len : Z) : bytes :=
  let b := class * 64 + (if cons then 32 else 0) in
  (if 31 <=? tag then (b + 31) :: put_base128 tag else [b + tag]) ++ encode_length len.

Definition put_tlv (class : Z) (cons : bool) (tag : Z) (body : bytes) : bytes :=
  put_header class cons tag (Z.of_nat (length body)) ++ body.

(** The low [8 k] bits of a number, big-endian *)
Fixpoint be_bytes (k : nat) (n : Z) : bytes :=
  match k with
  | O => []
  | S j => (n / 256 ^ Z.of_nat j) mod 256 :: be_bytes j n
  end.

(** asn1/marshal.go:98-122 int64Encoder, 153-185 makeBigInt: the least number
    of octets in two's complement.  [fuel] bounds the number of octets. *)
Fixpoint int_length (fuel : nat) (n : Z) : nat :=
  match fuel with
  | O => 1
  | S f => if (-128 <=? n) && (n <=? 127) then 1 else S (int_length f (n / 256))
  end.
Definition put_int (n : Z) : bytes :=
  be_bytes (int_length (S (Z.to_nat (Z.log2 (Z.abs n)))) n) n.

(** asn1/marshal.go:231-242 bitStringEncoder *)
Definition put_bits (b : bitstring) : bytes := (8 - bs_len b mod 8) mod 8 :: bs_bytes b.

(** asn1/marshal.go:244-267 oidEncoder, makeObjectIdentifier *)
Definition put_oid (l : list Z) : option bytes :=
  match l with
  | a :: b :: r =>
      if (2 <? a) || ((a <? 2) && (40 <=? b)) then None
      else Some (put_base128 (a * 40 + b) ++ flat_map put_base128 r)
  | _ => None
  end.

(** asn1/marshal.go:269-307, 516-526: the body by string type; 590-607: the tag.
    A string without explicit type is printable or else UTF-8. *)
Definition string_tag (p : params) (s : bytes) : option Z :=
  if p_str p =? 0 then
    if forallb (is_printable false false) s then Some 19
    else if utf8_ok s then Some 12 else None
  else Some (p_str p).
Definition put_string (p : params) (s : bytes) : option bytes :=
  if p_str p =? 22 then (if forallb (fun b => b <? 128) s then Some s else None)
  else if p_str p =? 19 then (if forallb (is_printable true false) s then Some s else None)
  else if p_str p =? 18 then (if forallb is_numeric s then Some s else None)
  else Some s.

(** Sorting of the encoded elements of a SET OF (library version; bytes.Compare). *)
Fixpoint insert_bytes (x : bytes) (l : list bytes) : list bytes :=
  match l with
  | [] => [x]
  | y :: l' => if bytes_compare y x <? 0 then y :: insert_bytes x l' else x :: l
  end.
Definition sort_bytes (l : list bytes) : list bytes := fold_right insert_bytes [] l.

(** asn1/marshal.go:541-562: is the value left out?  reflect.DeepEqual with the
    zero value; nil and empty slices are identified. *)
Definition raw_zero (r : raw) : bool :=
  (r_class r =? 0) && negb (r_cons r) && (r_tag r =? 0)
  && match r_bytes r with [] => true | _ => false end
  && match r_full r with [] => true | _ => false end.
Fixpoint is_zero (v : govalue) : bool :=
  match v with
  | VRaw r => raw_zero r
  | VOid [] | VOctets [] | VStr [] | VSlice [] | VBig None => true
  | VBits b => match bs_bytes b with [] => bs_len b =? 0 | _ => false end
  | VTime t => time_is_zero t
  | VInt n => n =? 0
  | VBool b => negb b
  | VStruct [] l => forallb is_zero l
  | _ => false
  end.
Definition left_out (p : params) (v : govalue) : bool :=
  (p_omit p && match v with VSlice [] | VOctets [] => true | _ => false end)
  || (p_opt p && match p_default p, v with
                 | Some d, VInt n => n =? d
                 | Some _, _ => false
                 | None, _ => is_zero v
                 end).

(** A list of encodings, all of which must exist *)
Fixpoint all_some {A} (l : list (option A)) : option (list A) :=
  match l with
  | [] => Some []
  | Some a :: l' => opt_map (cons a) (all_some l')
  | None :: _ => None
  end.

(** asn1/marshal.go:421-426, 608-612: UTCTime between 1950 and 2049 unless told
    otherwise *)
Definition use_generalized (p : params) (t : gotime) : bool :=
  p_gen p || (tm_year t <? 1950) || (2050 <=? tm_year t).

(** asn1/marshal.go:532-662 makeField and 417-530 makeBody.  [None] is an
    error; values that do not have the type are not distinguished from it. *)
Fixpoint make_field (t : gotype) (p : params) (v : govalue) {struct t} : option bytes :=
  if left_out p v then Some []
  else match t, v with
  | GRaw, VRaw r =>
      Some (match r_full r with
            | [] => put_tlv (r_class r) (r_cons r) (r_tag r) (r_bytes r)
            | f => f
            end)
  | GRaw, _ => None
  | _, _ =>
      let tag := match t, v with
                 | GString, VStr s => string_tag p s
                 | GTime, VTime tm => Some (if use_generalized p tm then 24 else 23)
                 | _, _ => match universal t with
                           | Some (u, _) => if p_set p then (if u =? 16 then Some 17 else None) else Some u
                           | None => None
                           end
                 end in
      let cons := match universal t with Some (_, c) => c | None => false end in
      let body :=
        match t, v with
        | GOid, VOid l => put_oid l
        | GBits, VBits b => Some (put_bits b)
        | GTime, VTime tm => if use_generalized p tm then put_generalized tm else put_utc tm
        | GBig, VBig (Some n) => Some (put_int n)
        | GInt, VInt n => Some (put_int n)
        | GOctets, VOctets b => Some b
        | GString, VStr s => put_string p s
        | GStruct rc fs, VStruct raw l =>
            match rc, raw with
            | true, _ :: _ =>
                Some (match parse_header raw with Some (_, r) => r | None => raw end)
            | _, _ =>
                (fix go (fs : list (params * gotype)) (l : list govalue) : option bytes :=
                   match fs, l with
                   | [], [] => Some []
                   | (p, t) :: fs', v :: l' =>
                       match make_field t p v, go fs' l' with
                       | Some a, Some b => Some (a ++ b)
                       | _, _ => None
                       end
                   | _, _ => None
                   end) fs l
            end
        | GSlice t', VSlice l =>
            opt_map (fun bs => concat (if p_set p then sort_bytes bs else bs))
              (all_some (map (make_field t' p0) l))
        | GBool, VBool b => Some [if b then 255 else 0]
        | _, _ => None
        end in
      match tag, body with
      | Some tag, Some b =>
          Some (match p_tag p with
                | Some k =>
                    if p_explicit p then put_tlv 2 true k (put_tlv 0 cons tag b)
                    else put_tlv 2 cons k b
                | None => put_tlv 0 cons tag b
                end)
      | _, _ => None
      end
  end.

(** asn1/marshal.go:677-691 Marshal *)
Definition marshal (t : gotype) (v : govalue) : option bytes := make_field t p0 v.
