(** The exported list: cmd/octorpki/octorpki.go (generateROAList, ServeROAs),
    cmd/octorpki/filter.go and the consumer's library
    vendor/github.com/cloudflare/gortr/prefixfile/prefixfile.go. *)
From Coq Require Import String.
From Verif.Model Require Import Base NetIP CertRes Roa Str Tal Validator TalText NetText.

(** prefixfile.go:79-84 ROAJson.  The field ASN is an interface; octorpki.go:926
    stores a string. *)
Record roajson := mkJ { j_prefix : bytes; j_len : Z; j_asn : bytes; j_ta : bytes }.

(** prefixfile.go:146-148 String *)
Definition j_string (r : roajson) : bytes :=
  j_prefix r ++ [47] ++ dec (j_len r) ++ [47] ++ j_asn r.

(** octorpki.go:597-609 filterDuplicates, filter.go:27-40 FilterDuplicates (the
    same code): [seen] is the map of the keys met. *)
Fixpoint dedup (seen : kmap unit) (l : list roajson) : list roajson :=
  match l with
  | [] => []
  | r :: l' =>
      if kin seen (j_string r) then dedup seen l'
      else r :: dedup (kset seen (j_string r) tt) l'
  end.
Definition filter_duplicates (l : list roajson) : list roajson := dedup kempty l.

(** prefixfile.go:129-140 GetPrefix2 and GetPrefix: nil for a text that is not
    a prefix. *)
Definition get_prefix (r : roajson) : option ipnet := parse_cidr (j_prefix r).

(** filter.go:5-25 FilterInvalidPrefixLen.  [prefix.Mask] dereferences the
    pointer. *)
Fixpoint filter_prefix_len (l : list roajson) : go (list roajson) :=
  match l with
  | [] => Ret []
  | r :: l' =>
      match get_prefix r with
      | None => Panic
      | Some n =>
          let! rest := filter_prefix_len l' in
          let len := fst (mask_size (nmask n)) in
          if isSome (to4 (nip n)) then
            Ret (if len <=? 24 then r :: rest else rest)
          else Ret (if len <=? 48 then r :: rest else rest)
      end
  end.

(** prefixfile.go:101-119 GetASN2 for a string, with strings.TrimLeft and
    strconv.ParseUint(_, 10, 32). *)
Fixpoint trim_left (set s : bytes) : bytes :=
  match s with
  | c :: r => if existsb (Z.eqb c) set then trim_left set r else s
  | [] => []
  end.
Definition parse_uint32 (s : bytes) : option Z :=
  match s with
  | [] => None
  | _ => if forallb is_digit s
         then let n := horner 10 dval s in if n <? 2 ^ 32 then Some n else None
         else None
  end.
Definition get_asn2 (r : roajson) : option Z := parse_uint32 (trim_left (str "aAsS") (j_asn r)).

(** roa.go:318-322 (end of DecodeROA): the field Valids. *)
Definition valids (x : roa) : go (list roa_entry) :=
  let! (v, _, _) := validate_roa_list (roa_entries x) (c_ips (roa_cert x)) in Ret v.

(** octorpki.go:924-931: one entry.  [uint8(entry.MaxLength)] keeps the low
    byte. *)
Definition export_entry (ta : bytes) (asn : Z) (e : roa_entry) : roajson :=
  mkJ (ipnet_text (re_net e)) (re_maxlen e mod 256) (str "AS" ++ dec asn) ta.

(** octorpki.go:883-942: one ROA.  [valids] was computed when the ROA was
    decoded. *)
Definition export_roa (ta : bytes) (x : roa) : go (list roajson) :=
  let! l := valids x in Ret (map (export_entry ta (roa_asn x)) l).

Fixpoint gconcat {A} (l : list (go (list A))) : go (list A) :=
  match l with
  | [] => Ret []
  | x :: r => let! a := x in let! b := gconcat r in Ret (a ++ b)
  end.

(** octorpki.go:785-788 the name of a trust anchor: the configured name when
    there are as many names as locators, its path otherwise. *)
Definition tal_name (names paths : list bytes) (i : nat) : bytes :=
  if Nat.eqb (length names) (length paths) then nth i names [] else nth i paths [].

(** octorpki.go:782-998: the loop over the trust anchors.  Each comes with the
    ROAs of its ValidROA in the order in which Go's map iteration gives
    them. *)
Fixpoint export_tals (names paths : list bytes) (i : nat) (tals : list (list roa)) : go (list roajson) :=
  match tals with
  | [] => Ret []
  | t :: r =>
      let! a := gconcat (map (export_roa (tal_name names paths i)) t) in
      let! b := export_tals names paths (S i) r in
      Ret (a ++ b)
  end.

(** prefixfile.go:86-98 MetaData (without Serial, never set) and ROAList. *)
Record meta := mkMeta { m_counts : Z; m_generated : Z; m_valid : Z;
                        m_sign : bytes; m_signdate : bytes }.
Record roalist := mkList { l_meta : meta; l_data : list roajson }.

(** octorpki.go:999-1012: metadata, filters. [counts] was incremented for every
    entry before the filters. *)
Definition finish_list (filt : bool) (data : list roajson) (now duration : Z) : go roalist :=
  let m := mkMeta (Z.of_nat (length data)) now (now + duration) [] [] in
  let! d := if filt then filter_prefix_len (filter_duplicates data) else Ret data in
  Ret (mkList m (filter_duplicates d)).

(** octorpki.go:771-1012 generateROAList before signing. *)
Definition generate_list (filt : bool) (names paths : list bytes) (tals : list (list roa))
  (now duration : Z) : go roalist :=
  let! data := export_tals names paths 0 tals in finish_list filt data now duration.

(** prefixfile.go:17-29 GenerateDigest: the two texts which are hashed.
    sort.Strings orders by bytes; equal strings are indistinguishable, so the
    sorting algorithm does not matter. *)
Definition sign_line (r : roajson) : bytes :=
  j_prefix r ++ [44] ++ dec (j_len r) ++ [44] ++ j_asn r ++ [44].
Fixpoint insert_line (x : bytes) (l : list bytes) : list bytes :=
  match l with
  | [] => [x]
  | y :: r => if bytes_compare x y <=? 0 then x :: l else y :: insert_line x r
  end.
Definition sort_lines (l : list bytes) : list bytes := fold_right insert_line [] l.
Definition digest1_text (l : roalist) : bytes := concat (sort_lines (map sign_line (l_data l))).
Definition digest2_text (l : roalist) : bytes :=
  dec (m_generated (l_meta l)) ++ [44] ++ digest1_text l ++ dec (m_valid (l_meta l)).

Section Sign.
  (** sha256.Sum256, ecdsa Sign and Verify with one key pair, hexadecimal and
      ASN.1 encoding included (prefixfile.go:35-77). *)
  Variable sha256 : bytes -> bytes.
  Variable sign : bytes -> bytes.
  Variable verify : bytes -> bytes -> bool.

  (** octorpki.go:1024-1035 signROAList: both signatures are stored, the one
      over the entries as SignatureDate. *)
  Definition sign_list (l : roalist) : roalist :=
    let m := l_meta l in
    mkList (mkMeta (m_counts m) (m_generated m) (m_valid m)
                   (sign (sha256 (digest2_text l))) (sign (sha256 (digest1_text l))))
           (l_data l).

  (** prefixfile.go:35-59 CheckFile *)
  Definition check_file (l : roalist) : bool * bool :=
    (verify (sha256 (digest1_text l)) (m_signdate (l_meta l)),
     verify (sha256 (digest2_text l)) (m_sign (l_meta l))).

  (** octorpki.go:1203-1236 ServeROAs: the answer. *)
  Inductive answer :=
  | Unavailable
  | NotModified
  | Content (etag : bytes) (l : roalist).

  (** octorpki.go:1221-1224 *)
  Definition etag (l : roalist) : bytes :=
    hexs (sha256 (dec (m_generated (l_meta l)) ++ [47] ++ dec (m_counts (l_meta l)))).

  Definition serve_roas (stable wait has_prev : bool) (l : roalist) (if_none_match : bytes) : answer :=
    if negb stable && wait && negb has_prev then Unavailable
    else if negb (beq if_none_match []) && beq if_none_match (etag l) then NotModified
    else Content (etag l) l.
End Sign.
