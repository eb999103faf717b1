(** RFC 6811: route prefixes covered and matched by validated ROA payloads, and
    the validation states. *)
From Verif.Model Require Import Base NetIP CertRes Roa Patricia Ov.
From Verif.Spec Require Import Addr Resources.
From Coq Require Import Permutation.

(** [n] is the prefix of length [p] of the address [ip] (4 or 16 octets, not
    IPv4-mapped). *)
Definition prefix_is (n : option ipnet) (ip : bytes) (p : Z) : Prop :=
  plain_addr ip /\ 0 <= p <= addr_bits ip /\ n = Some (mkNet ip (cidr_mask p (addr_bits ip))).

(** The leading [p] bits of two [w]-bit numbers are identical. *)
Definition leading_equal (w p v v' : Z) : Prop :=
  forall i, 0 <= i < p -> Z.testbit v (w - 1 - i) = Z.testbit v' (w - 1 - i).

(** Section 2, "Covered": "the VRP prefix length is less than or equal to the
    Route prefix length, and the VRP prefix address and the Route prefix address
    are identical for all bits specified by the VRP prefix length". *)
Definition covers (v : oroa) (rt : oroute) : Prop :=
  exists ip p ip' p', prefix_is (o_prefix v) ip p /\ prefix_is (rt_prefix rt) ip' p' /\
    length ip = length ip' /\ p <= p' /\ leading_equal (addr_bits ip) p (addr_val ip) (addr_val ip').

(** "Matched": covered, the route prefix length is at most the maximum length,
    and the origin AS is the VRP's. *)
Definition matches (v : oroa) (rt : oroute) : Prop :=
  covers v rt /\ (exists ip' p', prefix_is (rt_prefix rt) ip' p' /\ p' <= o_maxlen v) /\ rt_asn rt = o_asn v.

Definition rfc6811 (l : list oroa) (rt : oroute) (st : vstate) : Prop :=
  match st with
  | NotFound => forall v, In v l -> ~ covers v rt
  | Valid => exists v, In v l /\ matches v rt
  | Invalid => (exists v, In v l /\ covers v rt) /\ forall v, In v l -> ~ matches v rt
  end.

(** [m] is a rearrangement of the covering payloads of [l], duplicates
    included. *)
Definition all_covering (l : list oroa) (rt : oroute) (m : list oroa) : Prop :=
  exists f : oroa -> bool, (forall v, In v l -> (f v = true <-> covers v rt)) /\ Permutation m (filter f l).

(** A prefix is absent or proper. *)
Definition proper (n : option ipnet) : Prop := n = None \/ exists ip p, prefix_is n ip p.

(** The prefix of a ROA's entry covers the prefix of length [p] of [ip]. *)
Definition entry_covers (e : roa_entry) (ip : bytes) (p : Z) : Prop :=
  exists ip0 p0, re_net e = mkNet ip0 (cidr_mask p0 (addr_bits ip0)) /\ length ip0 = length ip /\ 0 <= p0 <= p /\
    leading_equal (addr_bits ip0) p0 (addr_val ip0) (addr_val ip).

(** ** A prefix store *)

(** The leading [len] bits of a [w]-bit number. *)
Definition bit_string (w v len : Z) : list bool :=
  map (fun i => Z.testbit v (w - 1 - Z.of_nat i)) (seq 0 (Z.to_nat len)).
Definition string4 (a : paddr Z) : list bool := bit_string 32 (a_word a) (a_len a).
Definition string6 (a : paddr (Z * Z)) : list bool :=
  bit_string 128 (fst (a_word a) * 2 ^ 64 + snd (a_word a)) (a_len a).

(** Keys that fit their words. *)
Definition fits4 (a : paddr Z) : Prop := 0 <= a_word a < 2 ^ 32 /\ 0 <= a_len a <= 32.
Definition fits6 (a : paddr (Z * Z)) : Prop :=
  (0 <= fst (a_word a) < 2 ^ 64 /\ 0 <= snd (a_word a) < 2 ^ 64) /\ 0 <= a_len a <= 128.

(** A sequence of insertions. *)
Fixpoint inserted {T A} (add : T -> A -> Z -> tres T) (t : T) (l : list (A * Z)) : tres T :=
  match l with
  | [] => TOk t
  | (a, tag) :: l' => tbind (add t a tag) (fun t' => inserted add t' l')
  end.

(** The tags of the keys that are a prefix of [q], shortest key first and in
    order of insertion for equal keys. *)
Definition same_bits (a b : list bool) : bool := if list_eq_dec Bool.bool_dec a b then true else false.
Definition lookup {A} (string : A -> list bool) (l : list (A * Z)) (q : list bool) : list Z :=
  flat_map (fun k => map snd (filter (fun e => same_bits (string (fst e)) (firstn k q)) l)) (seq 0 (S (length q))).
