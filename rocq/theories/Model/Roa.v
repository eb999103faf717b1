(** ROA entries: validator/lib/roa.go. *)
From Verif.Model Require Import Base NetIP CertRes.

(** roa.go:36-39 ROAEntry.  The pointer IPNet is never nil in entries built by
    ConvertROAEntries (roa.go:224-227 returns on error). *)
Record roa_entry := mkEntry { re_net : ipnet; re_maxlen : Z }.

(** roa.go:156-173 (entry *ROAEntry) Validate; [true] is a nil error. *)
Definition entry_validate (e : roa_entry) : bool :=
  let s := fst (mask_size (nmask (re_net e))) in
  if re_maxlen e <? s then false
  else if re_maxlen e <? 0 then false
  else if isSome (to4 (nip (re_net e))) && (32 <? re_maxlen e) then false
  else if 128 <? re_maxlen e then false
  else true.

(** roa.go:183-191 ValidateEntries *)
Definition validate_entries (l : list roa_entry) : bool := forallb entry_validate l.

(** roa.go:193-212 ValidateIPRoaCertificateList.  After a GetRangeIP error the
    entry is appended to invalids and the loop body goes on with nil bounds
    (there is no [continue]). *)
Fixpoint validate_roa_list (l : list roa_entry) (cert : list ipinfo)
  : go (list roa_entry * list roa_entry * list roa_entry) :=
  match l with
  | [] => Ret ([], [], [])
  | e :: l' =>
      let rng := get_range_ip (re_net e) in
      let '(mn, mx) := odefault ([], []) rng in
      let! (valid, check) := is_ip_range_in cert mn mx in
      let! (v, iv, c) := validate_roa_list l' cert in
      let pre := match rng with None => [e] | Some _ => [] end in
      if valid : bool then Ret (e :: v, pre ++ iv, c)
      else if check : bool then Ret (v, pre ++ iv, e :: c)
      else Ret (v, pre ++ e :: iv, c)
  end.

(** roa.go:16-24: ROAIPAddresses (MaxLength -1 when absent) grouped in
    ROAAddressFamily. *)
Record roa_addr := mkAddr { ra_bits : bitstring; ra_maxlen : Z }.

(** roa.go:218-242 ConvertROAEntries, inner loop; [None] is the error. *)
Fixpoint convert_addrs (fam : bytes) (l : list roa_addr) : option (list roa_entry) :=
  match l with
  | [] => Some []
  | a :: l' =>
      match decode_ip fam (ra_bits a) with
      | None => None
      | Some n =>
          let ml := if ra_maxlen a <? 0 then fst (mask_size (nmask n)) else ra_maxlen a in
          match convert_addrs fam l' with
          | None => None
          | Some r => Some (mkEntry n ml :: r)
          end
      end
  end.

Fixpoint convert_entries (blocks : list (bytes * list roa_addr)) : option (list roa_entry) :=
  match blocks with
  | [] => Some []
  | (fam, l) :: b' =>
      match convert_addrs fam l with
      | None => None
      | Some r => match convert_entries b' with None => None | Some r' => Some (r ++ r') end
      end
  end.

(** roa.go:63-66: address family of an entry. *)
Definition entry_afi (e : roa_entry) : Z := if isSome (to4 (nip (re_net e))) then 1 else 2.

(** roa.go:92-99 *)
Fixpoint encode_addrs (l : list roa_entry) : go (list roa_addr) :=
  match l with
  | [] => Ret []
  | e :: l' =>
      let! b := ipnet_to_bits (re_net e) in
      let! r := encode_addrs l' in
      Ret (mkAddr b (re_maxlen e) :: r)
  end.

(** roa.go:60-106 GroupEntries and EncodeROAEntries before asn1.Marshal:
    groups in increasing family order, empty groups absent. *)
Definition encode_group (f : Z) (l : list roa_entry) : go (list (bytes * list roa_addr)) :=
  match filter (fun e => entry_afi e =? f) l with
  | [] => Ret []
  | g => let! a := encode_addrs g in Ret [([0; f], a)]
  end.

Definition encode_roa_entries (l : list roa_entry) : go (list (bytes * list roa_addr)) :=
  let! a := encode_group 1 l in
  let! b := encode_group 2 l in
  Ret (a ++ b).
