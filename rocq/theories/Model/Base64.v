(** Base64 as provided by Go's encoding/base64 (library code, modelled by its
    source) and the payload decoder of sync/lib/rrdp.go. *)
From Verif.Model Require Import Base.

(** encoding/base64: StdEncoding's and RawStdEncoding's alphabet. *)
Definition b64_char (v : Z) : Z :=
  if v <? 26 then 65 + v
  else if v <? 52 then 97 + (v - 26)
  else if v <? 62 then 48 + (v - 52)
  else if v =? 62 then 43 else 47.

(** encoding/base64 decodeMap: [None] stands for 0xff. *)
Definition b64_val (c : Z) : option Z :=
  if (65 <=? c) && (c <=? 90) then Some (c - 65)
  else if (97 <=? c) && (c <=? 122) then Some (c - 97 + 26)
  else if (48 <=? c) && (c <=? 57) then Some (c - 48 + 52)
  else if c =? 43 then Some 62
  else if c =? 47 then Some 63
  else None.

(** RawStdEncoding.EncodeToString: no padding. *)
Fixpoint b64_raw (l : bytes) : bytes :=
  match l with
  | a :: b :: c :: r =>
      b64_char (a / 4) :: b64_char (a mod 4 * 16 + b / 16) ::
      b64_char (b mod 16 * 4 + c / 64) :: b64_char (c mod 64) :: b64_raw r
  | [a; b] =>
      [b64_char (a / 4); b64_char (a mod 4 * 16 + b / 16); b64_char (b mod 16 * 4)]
  | [a] => [b64_char (a / 4); b64_char (a mod 4 * 16)]
  | [] => []
  end.

(** Go's decoder skips carriage returns and line feeds wherever they occur. *)
Definition not_crlf (c : Z) : bool := negb ((c =? 10) || (c =? 13)).

Definition pad : Z := 61.

(** StdEncoding.DecodeString after the line ends are skipped: groups of four,
    padding only at the end, unused bits ignored (the encoding is not
    strict).  [None] is CorruptInputError. *)
Fixpoint b64_groups (l : bytes) : option bytes :=
  match l with
  | [] => Some []
  | w :: x :: y :: z :: r =>
      match b64_val w, b64_val x with
      | Some a, Some b =>
          match b64_val y, b64_val z with
          | Some c, Some d =>
              match b64_groups r with
              | Some t => Some (a * 4 + b / 16 :: b mod 16 * 16 + c / 4 :: c mod 4 * 64 + d :: t)
              | None => None
              end
          | Some c, None =>
              if (z =? pad) && (match r with [] => true | _ => false end)
              then Some [a * 4 + b / 16; b mod 16 * 16 + c / 4] else None
          | None, _ =>
              if (y =? pad) && (z =? pad) && (match r with [] => true | _ => false end)
              then Some [a * 4 + b / 16] else None
          end
      | _, _ => None
      end
  | _ => None
  end.

(** base64.StdEncoding.DecodeString *)
Definition b64_decode (s : bytes) : option bytes := b64_groups (filter not_crlf s).

(** sync/lib/rrdp.go:175-180 DecodeRRDPBase64 *)
Definition decode_rrdp_base64 (value : bytes) : option bytes :=
  b64_decode (filter (fun c => negb (c =? 13))
             (filter (fun c => negb (c =? 10))
             (filter (fun c => negb (c =? 32)) value))).
