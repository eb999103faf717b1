(** Elements a certificate issuer may encode: prefixes without host bits,
    IPv6 ranges, inherit markers. *)
From Coq Require Import List ZArith Bool.
From Verif.Model Require Import Base NetIP CertRes Roa.
From Verif.Spec Require Import Addr Resources.
Import ListNotations.
Open Scope Z_scope.

Inductive canonical : ipinfo -> nat -> Prop :=
| can_prefix ip p :
    plain_addr ip -> 0 <= p <= addr_bits ip ->
    addr_val ip = first_addr (addr_bits ip) p (addr_val ip) ->
    canonical (INet (Some (mkNet ip (cidr_mask p (addr_bits ip))))) (length ip)
| can_range6 mn mx :
    plain_addr mn -> plain_addr mx -> length mn = 16%nat -> length mx = 16%nat ->
    canonical (IRange mn mx) 16
| can_null f i : inherits i f -> canonical i f.

Definition is_null (i : ipinfo) : bool := match i with INull _ => true | _ => false end.

Definition all_canonical (l : list ipinfo) : Prop := Forall (fun i => exists n, canonical i n) l.

(** The family of an element, by its address length or inherit marker. *)
Definition in_family (n : nat) (i : ipinfo) : bool :=
  match i with
  | INet (Some net) => Nat.eqb (length (nip net)) n
  | INet None => false
  | IRange mn _ => Nat.eqb (length mn) n
  | INull f => f =? (if Nat.eqb n 4 then 1 else 2)
  end.

(** The elements of one family in the order given; a single inherit marker
    when there is one. *)
Definition family_part (n : nat) (l : list ipinfo) : list ipinfo :=
  let g := filter (in_family n) l in
  if existsb is_null g then [INull (if Nat.eqb n 4 then 1 else 2)] else g.

(** ROA entries: prefix without host bits and a maximal length. *)
Definition canonical_entry (e : roa_entry) (fam : nat) : Prop :=
  exists ip p, re_net e = mkNet ip (cidr_mask p (addr_bits ip)) /\ length ip = fam /\
    plain_addr ip /\ 0 <= p <= addr_bits ip /\
    addr_val ip = first_addr (addr_bits ip) p (addr_val ip) /\ 0 <= re_maxlen e.

(** The addresses of a ROA entry. *)
Definition entry_denotes (e : roa_entry) := denotes (INet (Some (re_net e))).
