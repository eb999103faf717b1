(** Go standard library package [net] as used by /repo: IP, IPMask, IPNet.
    The Go sources are not part of /repo; these definitions follow the
    documented behaviour and the published source of package net (ip.go) and
    belong to the trusted base. *)
From Verif.Model Require Import Base.

(** net.IP.To4: a 4-byte slice is returned unchanged, a 16-byte slice with
    prefix ::ffff:0:0/96 gives its last four bytes, anything else nil. *)
Definition to4 (ip : bytes) : option bytes :=
  if Nat.eqb (length ip) 4 then Some ip
  else if Nat.eqb (length ip) 16
          && forallb (Z.eqb 0) (firstn 10 ip)
          && (nth 10 ip 0 =? 255) && (nth 11 ip 0 =? 255)
       then Some (skipn 12 ip)
       else None.

(** net.IP.To16 is non-nil exactly for slices of length 4 and 16. *)
Definition to16 (ip : bytes) : option bytes :=
  if Nat.eqb (length ip) 4
  then Some (repeat 0 10 ++ [255; 255] ++ ip)
  else if Nat.eqb (length ip) 16 then Some ip else None.

Definition isSome {A} (o : option A) : bool :=
  match o with Some _ => true | None => false end.

(** [^byte(x)] *)
Definition bnot8 (x : Z) : Z := 255 - x.

(** net.CIDRMask, inner loop over [l] bytes with [n] ones left. *)
Fixpoint cidr_fill (l : nat) (n : Z) : bytes :=
  match l with
  | O => []
  | S l' => if 8 <=? n then 255 :: cidr_fill l' (n - 8)
            else bnot8 (Z.shiftr 255 n) :: cidr_fill l' 0
  end.

(** net.CIDRMask: the nil mask for an unknown size or an impossible count. *)
Definition cidr_mask (ones bits : Z) : bytes :=
  if negb ((bits =? 32) || (bits =? 128)) then []
  else if (ones <? 0) || (bits <? ones) then []
  else cidr_fill (Z.to_nat (bits / 8)) ones.

(** leading one bits of a byte, and the rest shifted out
    (net.simpleMaskLength, inner loop [for v&0x80 != 0 { n++; v <<= 1 }]). *)
Fixpoint byte_ones (fuel : nat) (v : Z) : Z * Z :=
  match fuel with
  | O => (0, v)
  | S f => if Z.testbit v 7
           then let (n, r) := byte_ones f (Z.land (v * 2) 255) in (n + 1, r)
           else (0, v)
  end.

(** net.simpleMaskLength: -1 when the mask is not in canonical form. *)
Fixpoint simple_mask_length (m : bytes) : Z :=
  match m with
  | [] => 0
  | v :: m' =>
      if v =? 255
      then let n := simple_mask_length m' in if n =? -1 then -1 else 8 + n
      else let (n, r) := byte_ones 8 v in
           if negb (r =? 0) then -1
           else if forallb (Z.eqb 0) m' then n else -1
  end.

(** net.IPMask.Size *)
Definition mask_size (m : bytes) : Z * Z :=
  let ones := simple_mask_length m in
  if ones =? -1 then (0, 0) else (ones, 8 * Z.of_nat (length m)).

(** net.IPNet *)
Record ipnet := mkNet { nip : bytes; nmask : bytes }.

(** net.networkNumberAndMask; (nil, nil) is ([], []). *)
Definition network_number_and_mask (n : ipnet) : bytes * bytes :=
  let oip := match to4 (nip n) with
             | Some x => Some x
             | None => if Nat.eqb (length (nip n)) 16 then Some (nip n) else None
             end in
  match oip with
  | None => ([], [])
  | Some ip =>
      let m := nmask n in
      if Nat.eqb (length m) 4
      then if Nat.eqb (length ip) 4 then (ip, m) else ([], [])
      else if Nat.eqb (length m) 16
      then if Nat.eqb (length ip) 4 then (ip, skipn 12 m) else (ip, m)
      else ([], [])
  end.

(** loop of net.IPNet.Contains: [nn[i]&m[i] != ip[i]&m[i]] for some i *)
Fixpoint masked_eq (nn ip m : bytes) : bool :=
  match nn, ip, m with
  | a :: nn', b :: ip', k :: m' =>
      (Z.land a k =? Z.land b k) && masked_eq nn' ip' m'
  | _, _, _ => true
  end.

(** net.IPNet.Contains *)
Definition net_contains (n : ipnet) (ip : bytes) : bool :=
  let (nn, m) := network_number_and_mask n in
  let ip' := match to4 ip with Some x => x | None => ip end in
  if negb (Nat.eqb (length ip') (length nn)) then false
  else masked_eq nn ip' m.

(** bytes.Compare: lexicographic, a proper prefix is smaller. *)
Fixpoint bytes_compare (a b : bytes) : Z :=
  match a, b with
  | [], [] => 0
  | [], _ :: _ => -1
  | _ :: _, [] => 1
  | x :: a', y :: b' =>
      if x <? y then -1 else if y <? x then 1 else bytes_compare a' b'
  end.
