(** The report on valid objects: cmd/octorpki/octorpki.go:771-1021
    (generateROAList, the part for /resources), api/schemas/schemas.go.

    Not modelled: Name, Emitted and ManifestNumber, which the validator's model
    does not carry, and resourcesMap, which is never read. *)
From Verif.Model Require Import Base Str NetIP CertRes Roa Tal Validator NetText Output.

(** schemas.go:8-12 OutputASN *)
Inductive out_asn := OAsn (n : Z) | OAsnRange (a b : Z) | OAsnInherit.
(** schemas.go:14-18 OutputIP *)
Inductive out_ip := OPrefix (t : bytes) | OIpRange (a b : bytes) | OIpInherit (fam : Z).
(** schemas.go:21-49 OutputRes: the fields of each of the three kinds. *)
Inductive out_kind :=
| KCert (sias : list bytes) (asns : list out_asn) (ips : list out_ip)
| KRoa (asn : Z) (entries : list (bytes * Z))
| KMft (files : list bytes) (this next : Z).
Record out_res := mkOut {
  o_kind : out_kind; o_ski : bytes; o_aki : bytes; o_serial : bytes; o_path : bytes; o_hash : bytes;
  o_ta : bytes; o_from : Z; o_to : Z }.

(** Conversion to uint32 *)
Definition u32 (n : Z) : Z := n mod 2 ^ 32.
(** int(t.UnixNano() / 1000000000): the product is an int64. *)
Definition int64 (n : Z) : Z := (n + 2 ^ 63) mod 2 ^ 64 - 2 ^ 63.
Definition nano_seconds (t : Z) : Z := Z.quot (int64 (t * 1000000000)) 1000000000.

(** octorpki.go:832-854 *)
Definition out_asn_of (a : asinfo) : out_asn :=
  match a with
  | ASRange x y => OAsnRange (u32 x) (u32 y)
  | ASNull => OAsnInherit
  | ASNum x => OAsn (u32 x)
  end.

Section Report.
(** The cache and whether the repository of a path was synchronised. *)
Variable disk : bytes -> option bytes.
Variable synced : bytes -> bool.
Variable sha256 : bytes -> bytes.
(** The method String of a nil *net.IPNet: a panic before Go 1.18. *)
Variable nil_text : go bytes.

(** octorpki.go:855-877 *)
Definition out_ip_of (i : ipinfo) : go out_ip :=
  match i with
  | IRange a b => Ret (OIpRange (ip_text a) (ip_text b))
  | INet (Some n) => Ret (OPrefix (ipnet_text n))
  | INet None => let! t := nil_text in Ret (OPrefix t)
  | INull f => Ret (OIpInherit f)
  end.
Fixpoint out_ips_of (l : list ipinfo) : go (list out_ip) :=
  match l with
  | [] => Ret []
  | i :: l' => let! x := out_ip_of i in let! r := out_ips_of l' in Ret (x :: r)
  end.

(** octorpki.go:798-807, 886-895, 951-960: path and hash.  GetFileConv without
    conversion (fetch.go:91-117) returns neither data nor an error for a file
    that cannot be read in a repository not synchronised. *)
Definition path_and_hash (f : option pkifile) : go (bytes * bytes) :=
  match f with
  | None => Ret ([], [])
  | Some f =>
      match disk (compute_path f) with
      | Some raw => Ret (compute_path f, hexs (sha256 raw))
      | None => if synced (f_path f) then Ret (compute_path f, []) else Panic
      end
  end.

Definition out_of (ta : bytes) (c : cert) (ph : bytes * bytes) (k : out_kind) : out_res :=
  mkOut k (hexs (c_ski c)) (hexs (c_aki c)) (dec (c_serial c)) (fst ph) (snd ph) ta
    (nano_seconds (c_not_before c)) (nano_seconds (c_not_after c)).

(** octorpki.go:790-880, the body of the loop over ValidObjects *)
Definition report_cert (ta : bytes) (r : resource) : go (list out_res) :=
  if is_cer (r_type r) then
    match r_obj r with
    | OCert c =>
        let! ph := path_and_hash (r_file r) in
        let! ips := out_ips_of (c_ips c) in
        Ret [out_of ta c ph (KCert (map snd (c_sia c)) (map out_asn_of (c_asns c)) ips)]
    | _ => Panic (* obj.Resource.( *librpki.RPKICertificate) *)
    end
  else Ret [].

(** octorpki.go:883-942, over ValidROA *)
Definition report_roa (ta : bytes) (r : resource) : go (list out_res) :=
  match r_obj r with
  | ORoa x =>
      let! ph := path_and_hash (r_file r) in
      let! l := valids x in
      Ret [out_of ta (roa_cert x) ph (KRoa (u32 (roa_asn x)) (map (fun e => (ipnet_text (re_net e), re_maxlen e)) l))]
  | _ => Panic
  end.

(** octorpki.go:948-995, over ValidManifest *)
Definition report_mft (ta : bytes) (r : resource) : go (list out_res) :=
  match r_obj r with
  | OMft m =>
      let! ph := path_and_hash (r_file r) in
      Ret [out_of ta (mft_cert m) ph (KMft (map fst (mft_files m)) (nano_seconds (mft_this m)) (nano_seconds (mft_next m)))]
  | _ => Panic
  end.

(** The values of a map of pointers, in the order of the keys in [l]. *)
Definition report_all (one : resource -> go (list out_res)) (h : list resource) (l : list (bytes * addr)) : go (list out_res) :=
  gconcat (map (fun ka => match nth_error h (snd ka) with Some r => one r | None => Panic end) l).

(** A validator with the orders in which its maps ValidObjects, ValidROA and
    ValidManifest are iterated. *)
Record reported := mkRep { p_v : validator; p_certs : list (bytes * addr); p_roas : list (bytes * addr); p_mfts : list (bytes * addr) }.

Definition report_tal (ta : bytes) (p : reported) : go (list out_res) :=
  let h := v_heap (p_v p) in
  let! a := report_all (report_cert ta) h (p_certs p) in
  let! b := report_all (report_roa ta) h (p_roas p) in
  let! c := report_all (report_mft ta) h (p_mfts p) in
  Ret (a ++ b ++ c).

(** octorpki.go:781-998, the loop over the trust anchors *)
Fixpoint report (names paths : list bytes) (i : nat) (ps : list reported) : go (list out_res) :=
  match ps with
  | [] => Ret []
  | p :: ps' =>
      let! a := report_tal (tal_name names paths i) p in
      let! b := report names paths (S i) ps' in
      Ret (a ++ b)
  end.
End Report.
