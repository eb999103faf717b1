(** What an IP or AS resource element denotes: an interval of numbers in an
    address family (4 = IPv4, 16 = IPv6, the number of bytes). *)
From Coq Require Import List ZArith.
From Verif.Model Require Import Base NetIP CertRes.
From Verif.Spec Require Import Addr.
Import ListNotations.
Open Scope Z_scope.

(** A well-formed address: 4 or 16 bytes, each below 256, and not an
    IPv4-mapped IPv6 address. *)
Definition plain_addr (a : list Z) : Prop :=
  bytes_ok a = true /\ (length a = 4%nat \/ length a = 16%nat) /\
  (length a = 16%nat -> ~ v4mapped (addr_val a)).

(** [denotes i fam lo hi]: element [i] stands for the addresses numbered
    [lo] to [hi] of family [fam]. *)
Inductive denotes : ipinfo -> nat -> Z -> Z -> Prop :=
| den_prefix ip p :
    plain_addr ip -> 0 <= p <= addr_bits ip ->
    denotes (INet (Some (mkNet ip (cidr_mask p (addr_bits ip))))) (length ip)
            (first_addr (addr_bits ip) p (addr_val ip))
            (last_addr (addr_bits ip) p (addr_val ip))
| den_range mn mx :
    plain_addr mn -> plain_addr mx -> length mn = length mx ->
    denotes (IRange mn mx) (length mn) (addr_val mn) (addr_val mx).

(** [inherits i fam]: element [i] is the inherit marker of family [fam]. *)
Inductive inherits : ipinfo -> nat -> Prop :=
| inh4 : inherits (INull 1) 4%nat
| inh6 : inherits (INull 2) 16%nat.

(** A resource list as a conforming certificate carries it. *)
Definition wf_elem (i : ipinfo) : Prop :=
  (exists fam lo hi, denotes i fam lo hi) \/ (exists fam, inherits i fam).
Definition wf_list (l : list ipinfo) : Prop := Forall wf_elem l.

(** AS elements. *)
Inductive as_denotes : asinfo -> Z -> Z -> Prop :=
| asd_range a b : as_denotes (ASRange a b) a b
| asd_num a : as_denotes (ASNum a) a a.

(** A claim whose bounds are ordinary addresses: what a conforming child
    certificate or ROA states. *)
Definition plain_bounds (fam : nat) (lo hi : Z) : Prop :=
  lo <= hi /\ (fam = 16%nat -> ~ v4mapped lo /\ ~ v4mapped hi).
Definition wf_claim (i : ipinfo) : Prop :=
  (exists fam, inherits i fam) \/
  (exists fam lo hi, denotes i fam lo hi /\ plain_bounds fam lo hi).

(** [covered l fam lo hi]: one element of [l] contains the whole interval. *)
Definition covered (l : list ipinfo) (fam : nat) (lo hi : Z) : Prop :=
  exists e lo' hi', In e l /\ denotes e fam lo' hi' /\ lo' <= lo /\ hi <= hi'.
Definition inherited (l : list ipinfo) (fam : nat) : Prop :=
  exists e, In e l /\ inherits e fam.

Definition as_covered (l : list asinfo) (lo hi : Z) : Prop :=
  exists e lo' hi', In e l /\ as_denotes e lo' hi' /\ lo' <= lo /\ hi <= hi'.

(** A non-empty AS claim. *)
Definition as_claim (i : asinfo) : Prop := forall lo hi, as_denotes i lo hi -> lo <= hi.
