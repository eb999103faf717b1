(** The text form of trust anchor locators: validator/lib/tal.go. *)
From Verif.Model Require Import Base Str Tal Base64.

(** tal.go:76-84 DeleteLineEnd: the first test looks at the last byte but one. *)
Definition delete_line_end (line : bytes) : bytes :=
  let line := match rev line with
              | _ :: c :: r => if c =? 13 then rev r else line
              | _ => line
              end in
  match rev line with
  | c :: r => if c =? 10 then rev r else line
  | _ => line
  end.

(** bytes.Buffer.ReadString('\n') until the end of the data: the complete
    lines, each with its line feed, and the remainder. *)
Fixpoint read_lines (cur data : bytes) : list bytes * bytes :=
  match data with
  | [] => ([], rev cur)
  | c :: r =>
      if c =? 10 then let (ls, e) := read_lines [] r in (rev (c :: cur) :: ls, e)
      else read_lines (c :: cur) r
  end.

(** State of the loop of DecodeTAL: passedUrl, urls, b64. *)
Record tstate := mkT { ts_passed : bool; ts_urls : list bytes; ts_b64 : bytes }.

(** tal.go:206-223, one complete line. *)
Definition tal_line (s : tstate) (line0 : bytes) : tstate :=
  let line1 := delete_line_end line0 in
  let line := match line1 with c :: r => if c =? 13 then r else line1 | _ => line1 end in
  match line with
  | [] => mkT true (ts_urls s) (ts_b64 s)
  | c :: _ =>
      mkT (ts_passed s)
          (if negb (c =? 35) && negb (ts_passed s) then ts_urls s ++ [line] else ts_urls s)
          (if ts_passed s then ts_b64 s ++ line else ts_b64 s)
  end.

(** tal.go:189-225, the text layer: URIs and base64 text.  What follows the
    last line feed is appended as it is. *)
Definition tal_scan (data : bytes) : list bytes * bytes :=
  let (ls, e) := read_lines [] data in
  let s := fold_left tal_line ls (mkT false [] []) in
  (ts_urls s, ts_b64 s ++ e).

(** strings.Join *)
Fixpoint join (sep : bytes) (l : list bytes) : bytes :=
  match l with
  | [] => []
  | [a] => a
  | a :: r => a ++ sep ++ join sep r
  end.

(** tal.go:175-182: the pieces [key[i*split : min((i+1)*split, len)]] for
    [i = 0 .. len/split]. *)
Definition key_piece (key : bytes) (split i : nat) : bytes := firstn split (skipn (i * split) key).
Definition key_split (key : bytes) (split : nat) : list bytes :=
  map (key_piece key split) (seq 0 (S (length key / split))).

(** tal.go:172-187, the text layer of EncodeTALSize. *)
Definition tal_text (uris : list bytes) (der : bytes) (split : Z) : bytes :=
  let key := b64_raw der in
  let key := if 0 <? split then join [10] (key_split key (Z.to_nat split)) else key in
  join [10] uris ++ [10; 10] ++ key.

Section Asn1.
  (** asn1.Marshal of the subjectPublicKeyInfo built at tal.go:149-167 from
      modulus and exponent. *)
  Variable marshal_spki : Z -> Z -> bytes.
  (** tal.go:232-262, the ASN.1 part of DecodeTAL: [RSAPtr] for an RSA key,
      [OtherKey] for another algorithm, [None] for an error. *)
  Variable parse_spki : bytes -> option pubkey.

  (** tal.go:86-102 CreateTAL *)
  Definition create_tal (uris : list bytes) (k : pubkey) : option tal :=
    match k with
    | RSAPtr n e | RSAVal n e => Some (mkTal uris alg_rsa (RSAVal n e))
    | OtherKey _ => None
    end.

  (** tal.go:138-187 EncodeTALSize.  The object identifier is RSA exactly when
      the algorithm is: both constructors set them together (tal.go:96-101,
      240-262).  The type assertion at line 142 is not of the two-result
      form. *)
  Definition encode_tal_size (t : tal) (split : Z) : go (option bytes) :=
    if t_alg t =? alg_rsa then
      match t_key t with
      | RSAVal n e => Ret (Some (tal_text (t_uris t) (marshal_spki n e) split))
      | _ => Panic
      end
    else Ret None.

  (** tal.go:104-106 EncodeTAL *)
  Definition encode_tal (t : tal) : go (option bytes) := encode_tal_size t 64.

  (** tal.go:189-263 DecodeTAL *)
  Definition decode_tal (data : bytes) : option tal :=
    let (urls, b64) := tal_scan data in
    match b64_decode b64 with
    | None => None
    | Some d =>
        match parse_spki d with
        | Some (OtherKey b) => Some (mkTal urls 0 (OtherKey b))
        | Some k => Some (mkTal urls alg_rsa k)
        | None => None
        end
    end.
End Asn1.
