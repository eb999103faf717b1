(** Text forms of addresses and prefixes: package net of the Go standard
    library (ip.go, parse.go), used by cmd/octorpki/octorpki.go:924-939 to
    print prefixes and by gortr/prefixfile/prefixfile.go:122-128 to read them
    back.  Like NetIP.v these definitions belong to the trusted base. *)
From Coq Require Import String.
From Verif.Model Require Import Base NetIP Str TalText.

(** A hexadecimal digit, lower case. *)
Definition hexd (d : Z) : Z := if d <? 10 then 48 + d else 87 + d.

(** net.hexString *)
Fixpoint hexs (l : bytes) : bytes :=
  match l with
  | [] => []
  | b :: r => hexd (b / 16) :: hexd (b mod 16) :: hexs r
  end.

(** A 16-bit group without leading zeros (netip.appendHex). *)
Definition hex16 (v : Z) : bytes :=
  if v <? 16 then [hexd v]
  else if v <? 256 then [hexd (v / 16); hexd (v mod 16)]
  else if v <? 4096 then [hexd (v / 256); hexd (v / 16 mod 16); hexd (v mod 16)]
  else [hexd (v / 4096); hexd (v / 256 mod 16); hexd (v / 16 mod 16); hexd (v mod 16)].

(** The 16-bit groups of an address. *)
Fixpoint groups (l : bytes) : list Z :=
  match l with
  | a :: b :: r => a * 256 + b :: groups r
  | _ => []
  end.
Fixpoint ungroup (g : list Z) : bytes :=
  match g with
  | [] => []
  | v :: r => v / 256 :: v mod 256 :: ungroup r
  end.

(** Number of zero groups at the start. *)
Fixpoint zero_run (g : list Z) : nat :=
  match g with
  | v :: r => if v =? 0 then S (zero_run r) else O
  | [] => O
  end.

(** The loop choosing the run of zero groups to shorten: the first of the
    longest runs of at least two.  [i] is the index of the head of [g]. *)
Fixpoint best_run (i : nat) (g : list Z) (best : option (nat * nat)) : option (nat * nat) :=
  match g with
  | [] => best
  | _ :: r =>
      let l := zero_run g in
      let cur := match best with Some (_, n) => n | None => O end in
      best_run (S i) r (if Nat.leb 2 l && Nat.ltb cur l then Some (i, l) else best)
  end.

Definition colon : Z := 58.
Definition text6 (g : list Z) : bytes :=
  match best_run 0 g None with
  | None => join [colon] (map hex16 g)
  | Some (i, n) =>
      join [colon] (map hex16 (firstn i g)) ++ [colon; colon] ++
      join [colon] (map hex16 (skipn (i + n) g))
  end.

(** net.IP.String *)
Definition ip_text (ip : bytes) : bytes :=
  match ip with
  | [] => str "<nil>"
  | _ =>
      match to4 ip with
      | Some a => join [46] (map dec a)
      | None => if Nat.eqb (length ip) 16 then text6 (groups ip) else 63 :: hexs ip
      end
  end.

(** net.IPNet.String *)
Definition ipnet_text (n : ipnet) : bytes :=
  match network_number_and_mask n with
  | ([], _) | (_, []) => str "<nil>"
  | (nn, m) =>
      let l := simple_mask_length m in
      ip_text nn ++ [47] ++ (if l =? -1 then hexs m else dec l)
  end.

(** The longest prefix of bytes satisfying [f], and the rest. *)
Fixpoint span (f : Z -> bool) (s : bytes) : bytes * bytes :=
  match s with
  | c :: r => if f c then let (a, b) := span f r in (c :: a, b) else ([], s)
  | [] => ([], [])
  end.

Definition is_digit (c : Z) : bool := (48 <=? c) && (c <=? 57).
Definition dval (c : Z) : Z := c - 48.
Definition is_hexd (c : Z) : bool :=
  is_digit c || ((97 <=? c) && (c <=? 102)) || ((65 <=? c) && (c <=? 70)).
Definition hval (c : Z) : Z :=
  if is_digit c then c - 48 else if 97 <=? c then c - 87 else c - 55.

Definition horner (b : Z) (f : Z -> Z) (s : bytes) : Z :=
  fold_left (fun a c => a * b + f c) s 0.

(** net.dtoi and net.xtoi: number and remaining text.  The running value
    never decreases, so testing it at the end is the same as testing it
    after each digit. *)
Definition big : Z := 16777215.
Definition dtoi (s : bytes) : option (Z * bytes) :=
  let (a, r) := span is_digit s in
  let n := horner 10 dval a in
  match a with
  | [] => None
  | _ => if big <=? n then None else Some (n, r)
  end.
Definition xtoi (s : bytes) : option (Z * bytes) :=
  let (a, r) := span is_hexd s in
  let n := horner 16 hval a in
  match a with
  | [] => None
  | _ => if big <=? n then None else Some (n, r)
  end.

(** net.parseIPv4: [k] fields are left, the first one has no dot before it. *)
Fixpoint parse4_loop (first : bool) (k : nat) (s : bytes) : option bytes :=
  match k with
  | O => match s with [] => Some [] | _ => None end
  | S k' =>
      let os := if first then Some s
                else match s with c :: r => if c =? 46 then Some r else None | [] => None end in
      match os with
      | None => None
      | Some s1 =>
          match dtoi s1 with
          | None => None
          | Some (n, r) =>
              if 255 <? n then None
              else if Nat.ltb 1 (length s1 - length r) && (nth 0 s1 0 =? 48) then None
              else match parse4_loop false k' r with
                   | Some l => Some (n :: l)
                   | None => None
                   end
          end
      end
  end.
Definition parse4 (s : bytes) : option bytes := parse4_loop true 4 s.

(** net.parseIPv6, the loop: [k] groups may still come; [acc] are those read,
    [ell] the position of the double colon.  Result: groups, position, rest. *)
Fixpoint parse6_loop (k : nat) (s : bytes) (ell : option nat) (acc : list Z)
  : option (list Z * option nat * bytes) :=
  match k with
  | O => Some (acc, ell, s)
  | S k' =>
      match xtoi s with
      | None => None
      | Some (n, r) =>
          if 65535 <? n then None
          else
            match r with
            | [] => Some (acc ++ [n], ell, [])
            | c :: r1 =>
                if c =? 46 then
                  if negb (isSome ell) && negb (Nat.eqb (length acc) 6) then None
                  else if Nat.ltb 8 (length acc + 2) then None
                  else match parse4 s with
                       | Some a => Some (acc ++ groups a, ell, [])
                       | None => None
                       end
                else if negb (c =? colon) then None
                else
                  match r1 with
                  | [] => None
                  | c1 :: r2 =>
                      if c1 =? colon then
                        match ell with
                        | Some _ => None
                        | None =>
                            match r2 with
                            | [] => Some (acc ++ [n], Some (length (acc ++ [n])), [])
                            | _ => parse6_loop k' r2 (Some (length (acc ++ [n]))) (acc ++ [n])
                            end
                        end
                      else parse6_loop k' r1 ell (acc ++ [n])
                  end
            end
      end
  end.

(** net.parseIPv6, the expansion of the double colon. *)
Definition parse6_end (x : list Z * option nat * bytes) : option bytes :=
  let '(g, ell, rest) := x in
  match rest with
  | _ :: _ => None
  | [] =>
      if Nat.ltb (length g) 8 then
        match ell with
        | None => None
        | Some e => Some (ungroup (firstn e g ++ repeat 0 (8 - length g)%nat ++ skipn e g))
        end
      else match ell with Some _ => None | None => Some (ungroup g) end
  end.

Definition parse6 (s : bytes) : option bytes :=
  match s with
  | a :: b :: r =>
      if (a =? colon) && (b =? colon) then
        match r with
        | [] => Some (repeat 0 16)
        | _ => match parse6_loop 8 r (Some O) [] with Some x => parse6_end x | None => None end
        end
      else match parse6_loop 8 s None [] with Some x => parse6_end x | None => None end
  | _ => match parse6_loop 8 s None [] with Some x => parse6_end x | None => None end
  end.

(** [ip[i] & mask[i]] *)
Fixpoint and_bytes (a m : bytes) : bytes :=
  match a, m with
  | x :: a', y :: m' => Z.land x y :: and_bytes a' m'
  | _, _ => []
  end.

(** net.ParseCIDR, the network (the second result); a dotted address keeps
    its 4-byte form ([ip.Mask] of a 16-byte form with a 4-byte mask). *)
Definition parse_cidr (s : bytes) : option ipnet :=
  let (addr, r) := span (fun c => negb (c =? 47)) s in
  match r with
  | [] => None
  | _ :: mask =>
      let oip := match parse4 addr with Some a => Some a | None => parse6 addr end in
      match oip, dtoi mask with
      | Some ip, Some (n, []) =>
          let bits := 8 * Z.of_nat (length ip) in
          if bits <? n then None
          else Some (mkNet (and_bytes ip (cidr_mask n bits)) (cidr_mask n bits))
      | _, _ => None
      end
  end.
