(** IP and AS resources of certificates: validator/lib/cert.go, and
    GetRangeIP of validator/lib/roa.go. *)
From Verif.Model Require Import Base NetIP.

(** The implementations of IPCertificateInformation, cert.go:43-45 (IPNet),
    76-79 (IPAddressRange), 143-145 (IPAddressNull).  [INet None] is an
    [&IPNet{IPNet: nil}], which DecodeIPAddressBlock produces (cert.go:331). *)
Inductive ipinfo :=
| INet (n : option ipnet)
| IRange (rmin rmax : bytes)
| INull (family : Z).

(** The implementations of ASNCertificateInformation, cert.go:189-192,
    210-212, 230-231. *)
Inductive asinfo :=
| ASRange (amin amax : Z)
| ASNum (a : Z)
| ASNull.

(** roa.go:136-151 GetRangeIP: element-wise loop; error when the mask is
    shorter than the address.  [None] is the error result. *)
Fixpoint range_loop (ip m : bytes) : option (bytes * bytes) :=
  match ip with
  | [] => Some ([], [])
  | a :: ip' =>
      match m with
      | [] => None
      | k :: m' =>
          match range_loop ip' m' with
          | None => None
          | Some (lo, hi) => Some (Z.land a k :: lo, Z.lor a (bnot8 k) :: hi)
          end
      end
  end.

Definition get_range_ip (n : ipnet) : option (bytes * bytes) :=
  range_loop (nip n) (nmask n).

(** cert.go:51-53, 85-92, 151-158 IsIPInRange.  The result is
    (contained, check parent). *)
Definition is_ip_in_range (i : ipinfo) (ip : bytes) : go (bool * bool) :=
  match i with
  | INet None => Panic
  | INet (Some n) => Ret (net_contains n ip, false)
  | IRange mn mx =>
      if negb (Nat.eqb (length ip) (length mn)) || negb (Nat.eqb (length ip) (length mx))
      then Ret (false, false)
      else
        let r1 := bytes_compare ip mn in
        let r2 := bytes_compare ip mx in
        Ret (((r1 =? 0) || (r1 =? 1)) && ((r2 =? 0) || (r2 =? -1)), false)
  | INull f =>
      if (f =? 1) && isSome (to4 ip) then Ret (false, true)
      else if (f =? 2) && negb (isSome (to4 ip)) && isSome (to16 ip) then Ret (false, true)
      else Ret (false, false)
  end.

(** cert.go:64-70, 103-105, 164-166 GetRange: (min, max, check parent). *)
Definition ip_get_range (i : ipinfo) : go (bytes * bytes * bool) :=
  match i with
  | INet None => Panic
  | INet (Some n) =>
      match get_range_ip n with
      | None => Ret ([], [], false)
      | Some (lo, hi) => Ret (lo, hi, false)
      end
  | IRange mn mx => Ret (mn, mx, false)
  | INull _ => Ret ([], [], true)
  end.

(** cert.go:55-62, 94-101, 160-162 GetAfi. *)
Definition ip_get_afi (i : ipinfo) : go Z :=
  match i with
  | INet None => Panic
  | INet (Some n) =>
      Ret (if isSome (to4 (nip n)) then 1 else if isSome (to16 (nip n)) then 2 else 0)
  | IRange mn _ =>
      Ret (if isSome (to4 mn) then 1 else if isSome (to16 mn) then 2 else 0)
  | INull f => Ret f
  end.

(** cert.go:467-480 IsIPRangeInCertificate, over cert.IPAddresses. *)
Fixpoint is_ip_range_in (l : list ipinfo) (mn mx : bytes) : go (bool * bool) :=
  match l with
  | [] => Ret (false, false)
  | i :: l' =>
      let! (minIn, cpMin) := is_ip_in_range i mn in
      let! (maxIn, cpMax) := is_ip_in_range i mx in
      if minIn && maxIn then Ret (true, false)
      else if cpMin || cpMax then Ret (false, true)
      else is_ip_range_in l' mn mx
  end.

(** cert.go:198-200, 218-220, 237-239 IsASNInRange. *)
Definition is_asn_in_range (i : asinfo) (a : Z) : bool * bool :=
  match i with
  | ASRange mn mx => ((mn <=? a) && (a <=? mx), false)
  | ASNum n => (a =? n, false)
  | ASNull => (false, true)
  end.

(** cert.go:202-204, 222-224, 241-243 GetRange. *)
Definition as_get_range (i : asinfo) : Z * Z * bool :=
  match i with
  | ASRange mn mx => (mn, mx, false)
  | ASNum n => (n, n, false)
  | ASNull => (0, 0, true)
  end.

(** cert.go:482-494 IsASRangeInCertificate, over cert.ASNums. *)
Fixpoint is_as_range_in (l : list asinfo) (mn mx : Z) : bool * bool :=
  match l with
  | [] => (false, false)
  | i :: l' =>
      let (minIn, cpMin) := is_asn_in_range i mn in
      let (maxIn, cpMax) := is_asn_in_range i mx in
      if minIn && maxIn then (true, false)
      else if cpMin || cpMax then (false, true)
      else is_as_range_in l' mn mx
  end.

(** cert.go:497-517 ValidateIPCertificateList: (valids, invalids,
    checkParents); the parent is represented by its IPAddresses. *)
Fixpoint validate_ip_list (l : list ipinfo) (parent : list ipinfo)
  : go (list ipinfo * list ipinfo * list ipinfo) :=
  match l with
  | [] => Ret ([], [], [])
  | i :: l' =>
      let! (mn, mx, cp) := ip_get_range i in
      if cp : bool then
        let! (v, iv, c) := validate_ip_list l' parent in Ret (i :: v, iv, c)
      else
        let! (valid, check) := is_ip_range_in parent mn mx in
        let! (v, iv, c) := validate_ip_list l' parent in
        if valid : bool then Ret (i :: v, iv, c)
        else if check : bool then Ret (v, iv, i :: c)
        else Ret (v, i :: iv, c)
  end.

(** cert.go:523-543 ValidateASNCertificateList. *)
Fixpoint validate_as_list (l : list asinfo) (parent : list asinfo)
  : list asinfo * list asinfo * list asinfo :=
  match l with
  | [] => ([], [], [])
  | i :: l' =>
      let '(mn, mx, cp) := as_get_range i in
      let '(v, iv, c) := validate_as_list l' parent in
      if cp : bool then (i :: v, iv, c)
      else
        let (valid, check) := is_as_range_in parent mn mx in
        if valid : bool then (i :: v, iv, c)
        else if check : bool then (v, iv, i :: c)
        else (v, i :: iv, c)
  end.

(** asn1.BitString *)
Record bitstring := mkBits { bs_bytes : bytes; bs_len : Z }.

(** [copy(make([]byte, size), src)] *)
Definition copy_into (size : nat) (src : bytes) : bytes :=
  firstn size (src ++ repeat 0 size).

(** The test [len(addrfamily) >= 2 && (addrfamily[1] == 1 || == 2)] and the
    resulting size, cert.go:250-254 and 269-273. *)
Definition family_size (fam : bytes) : option nat :=
  match fam with
  | _ :: b :: _ => if b =? 1 then Some 4%nat else if b =? 2 then Some 16%nat else None
  | _ => None
  end.

(** cert.go:249-266 DecodeIP; [None] is the error. *)
Definition decode_ip (fam : bytes) (a : bitstring) : option ipnet :=
  match family_size fam with
  | Some size =>
      Some (mkNet (copy_into size (bs_bytes a)) (cidr_mask (bs_len a) (8 * Z.of_nat size)))
  | None => None
  end.

(** cert.go:277-285: fill the host bits of [l] (whose first byte has index
    [i]) with ones; [bl] is the bit length. *)
Fixpoint fill_ones (i : Z) (bl : Z) (l : bytes) : bytes :=
  match l with
  | [] => []
  | b :: l' =>
      (if bl / 8 <? i then 255
       else if i =? bl / 8
            then Z.lor b (Z.shiftr 255 (8 - (8 * (bl / 8 + 1) - bl)))
            else b) :: fill_ones (i + 1) bl l'
  end.

(** cert.go:268-291 DecodeIPMinMax; [None] is the error.  The bit lengths
    produced by asn1 are never negative. *)
Definition decode_ip_minmax (fam : bytes) (a : bitstring) (max : bool) : option bytes :=
  match family_size fam with
  | Some size =>
      let ip := copy_into size (bs_bytes a) in
      if max then
        if Z.of_nat size <? bs_len a / 8 then None
        else Some (fill_ones 0 (bs_len a) ip)
      else Some ip
  | None => None
  end.

(** ASN.1 value already split by encoding/asn1: the contents of one
    IPAddressOrRange, cert.go:323-354.  [OOther] is any other tag (skipped),
    [OErr] a value asn1.Unmarshal rejects. *)
Inductive iporange :=
| OBits (b : bitstring)
| ORange (mn mx : bitstring)
| OOther
| OErr.

(** One IPAddressFamily: the address family octets and the choice,
    cert.go:306-356. [ChErr]: the inner asn1.Unmarshal fails. *)
Inductive ipchoice :=
| ChInherit
| ChSeq (l : list iporange)
| ChOther
| ChErr.

Definition odefault {A} (d : A) (o : option A) : A :=
  match o with Some a => a | None => d end.

(** cert.go:323-354; the boolean is "no error". *)
Fixpoint decode_ranges (fam : bytes) (l : list iporange) : list ipinfo * bool :=
  match l with
  | [] => ([], true)
  | OBits b :: l' =>
      let (r, ok) := decode_ranges fam l' in (INet (decode_ip fam b) :: r, ok)
  | ORange mn mx :: l' =>
      let (r, ok) := decode_ranges fam l' in
      (IRange (odefault [] (decode_ip_minmax fam mn false))
              (odefault [] (decode_ip_minmax fam mx true)) :: r, ok)
  | OOther :: l' => decode_ranges fam l'
  | OErr :: _ => ([], false)
  end.

(** cert.go:308-314 *)
Definition null_family (fam : bytes) : Z :=
  match fam with
  | [_; b] => if b =? 1 then 1 else if b =? 2 then 2 else 0
  | _ => 0
  end.

(** cert.go:293-358 DecodeIPAddressBlock after the outer asn1.Unmarshal. *)
Fixpoint decode_ip_block (blk : list (bytes * ipchoice)) : list ipinfo * bool :=
  match blk with
  | [] => ([], true)
  | (fam, ChInherit) :: blk' =>
      let (r, ok) := decode_ip_block blk' in (INull (null_family fam) :: r, ok)
  | (fam, ChSeq l) :: blk' =>
      let (r1, ok1) := decode_ranges fam l in
      if ok1 then let (r2, ok2) := decode_ip_block blk' in (r1 ++ r2, ok2)
      else (r1, false)
  | (_, ChOther) :: blk' => decode_ip_block blk'
  | (_, ChErr) :: _ => ([], false)
  end.

(** cert.go:107-118 IPToBitString: [[]byte(ip)[bitsplit:]] panics when the
    slice is shorter than [bitsplit]. *)
Definition ip_to_bits (ip : bytes) : go bitstring :=
  match to4 ip with
  | None => Ret (mkBits ip 128)
  | Some _ =>
      if Nat.ltb (length ip) 12 then Panic
      else Ret (mkBits (skipn 12 ip) 32)
  end.

(** cert.go:126-129 loop; [k] bytes are produced.  [ipnet.Mask[i]] panics
    when the mask is shorter than the address within the first [k] bytes. *)
Fixpoint prefix_bytes (k : nat) (ip m : bytes) : go bytes :=
  match k with
  | O => Ret []
  | S k' =>
      match ip with
      | [] => Ret (repeat 0 (S k'))
      | a :: ip' =>
          match m with
          | [] => Panic
          | b :: m' => let! r := prefix_bytes k' ip' m' in Ret (Z.land a b :: r)
          end
      end
  end.

(** cert.go:120-135 IPNetToBitString *)
Definition ipnet_to_bits (n : ipnet) : go bitstring :=
  let size := fst (mask_size (nmask n)) in
  let sizeBytes := size / 8 + (if 0 <? size mod 8 then 1 else 0) in
  let! b := prefix_bytes (Z.to_nat sizeBytes) (nip n) (nmask n) in
  Ret (mkBits b size).

(** cert.go:72-74, 137-139, 168-170 ASN1: the ASN.1 value of one element.
    [None] stands for the NULL of an inherit element. *)
Definition ip_asn1 (i : ipinfo) : go (option iporange) :=
  match i with
  | INet None => Panic
  | INet (Some n) => let! b := ipnet_to_bits n in Ret (Some (OBits b))
  | IRange mn mx =>
      let! a := ip_to_bits mn in
      let! b := ip_to_bits mx in
      Ret (Some (ORange a b))
  | INull _ => Ret None
  end.

(** cert.go:762-799 EncodeIPAddressBlockVersion with addSafi = false, loop
    over the elements; the first inherit element wins. *)
Fixpoint encode_version_loop (l : list ipinfo) (acc : list iporange) : go ipchoice :=
  match l with
  | [] => Ret (ChSeq acc)
  | i :: l' =>
      let! a := ip_asn1 i in
      match a with
      | None => Ret ChInherit
      | Some o => encode_version_loop l' (acc ++ [o])
      end
  end.

(** cert.go:651-664 GroupIPAddressBlock: the elements of family [f]. *)
Fixpoint group_family (f : Z) (l : list ipinfo) : go (list ipinfo) :=
  match l with
  | [] => Ret []
  | i :: l' =>
      let! a := ip_get_afi i in
      let! r := group_family f l' in
      Ret (if a =? f then i :: r else r)
  end.

(** The distinct families in increasing order (cert.go:734-738); GetAfi is a
    uint8, here the families that occur below 256. *)
Fixpoint encode_families (fams : list Z) (l : list ipinfo) : go (list (bytes * ipchoice)) :=
  match fams with
  | [] => Ret []
  | f :: fams' =>
      let! g := group_family f l in
      match g with
      | [] => encode_families fams' l
      | _ =>
          let! c := encode_version_loop g [] in
          let! r := encode_families fams' l in
          Ret (([0; f], c) :: r)
      end
  end.

(** cert.go:731-760 EncodeIPAddressBlock before the outer asn1.Marshal. *)
Definition all_families : list Z := map Z.of_nat (seq 0 256).
Definition encode_ip_block (l : list ipinfo) : go (list (bytes * ipchoice)) :=
  encode_families all_families l.

(** One element of an ASIdentifierChoice as split by asn1,
    cert.go:379-394. *)
Inductive asraw :=
| RSeq (mn mx : Z)
| RInt (a : Z)
| ROther
| RErr.
Inductive aschoice :=
| AInherit
| ASeq (l : list asraw)
| AOther.

(** cert.go:379-396 *)
Fixpoint decode_as_list (l : list asraw) : list asinfo * bool :=
  match l with
  | [] => ([], true)
  | RSeq a b :: l' => let (r, ok) := decode_as_list l' in (ASRange a b :: r, ok)
  | RInt a :: l' => let (r, ok) := decode_as_list l' in (ASNum a :: r, ok)
  | ROther :: l' => decode_as_list l'
  | RErr :: _ => ([], false)
  end.

(** cert.go:360-399 DecodeASIdentifier *)
Definition decode_as (c : aschoice) : list asinfo * bool :=
  match c with
  | AInherit => ([ASNull], true)
  | ASeq l => decode_as_list l
  | AOther => ([], true)
  end.

(** cert.go:802-830 EncodeASNSeq.  [None]: nothing is encoded (nil).  When an
    ASNull is met the elements so far, followed by NULL, are returned without
    the enclosing SEQUENCE; the decoder then sees the first of them, so the
    list is kept as [inr]. *)
Fixpoint encode_as_loop (l : list asinfo) (acc : list asraw) : aschoice + list asraw :=
  match l with
  | [] => inl (ASeq acc)
  | ASNull :: _ => inr acc
  | ASRange a b :: l' => encode_as_loop l' (acc ++ [RSeq a b])
  | ASNum a :: l' => encode_as_loop l' (acc ++ [RInt a])
  end.

(** What DecodeASIdentifier (cert.go:360-399) finds as first value in the
    contents EncodeASNSeq produced: the enclosing SEQUENCE, or, after an
    inherit element, the first element itself.  [None]: no contents, the
    field is omitted. *)
Definition encode_as (l : list asinfo) : option aschoice :=
  match l with
  | [] => None
  | _ => Some match encode_as_loop l [] with
              | inl c => c
              | inr [] => AInherit
              | inr (RSeq a b :: _) => ASeq [RInt a; RInt b]
              | inr (_ :: _) => AOther
              end
  end.
