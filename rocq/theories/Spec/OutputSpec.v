(** Vocabulary for the exported list. *)
From Coq Require Import List ZArith Permutation.
From Verif.Model Require Import Base NetIP CertRes Roa Str Tal Validator NetText Output.
From Verif.Spec Require Import Addr Resources Bits Trust.
Import ListNotations.
Open Scope Z_scope.

(** What an entry authorises. *)
Definition vrp (r : roajson) : bytes * Z * bytes := (j_prefix r, j_len r, j_asn r).

(** [subseq a b]: [a] is [b] with some elements left out. *)
Inductive subseq {A} : list A -> list A -> Prop :=
| sub_nil : subseq [] []
| sub_keep x a b : subseq a b -> subseq (x :: a) (x :: b)
| sub_drop x a b : subseq a b -> subseq a (x :: b).

(** [first_of l r]: [r] is the first entry of [l] with its authorisation. *)
Definition first_of (l : list roajson) (r : roajson) : Prop :=
  exists pre post, l = pre ++ r :: post /\ ~ In (vrp r) (map vrp pre).

(** The entry is for the prefix of length [p] of the address [ip]. *)
Definition shows (r : roajson) (ip : bytes) (p : Z) : Prop :=
  plain_addr ip /\ 0 <= p <= addr_bits ip /\
  j_prefix r = ipnet_text (mkNet ip (cidr_mask p (addr_bits ip))).

(** The longest prefixes let through. *)
Definition longest (ip : bytes) : Z := if Nat.eqb (length ip) 4 then 24 else 48.

(** No comma, as in the texts of prefixes and AS numbers. *)
Definition no_comma (s : bytes) : Prop := ~ In 44 s.

(** [holds sig_ok ops v c fam lo hi]: the addresses are held by [c], itself or
    by inheritance, and by every certificate above it up to a trust anchor. *)
Section Holds.
Variable sig_ok : cert -> cert -> bool.
Variable anchor : cert -> Prop.
Inductive holds (v : validator) (fam : nat) (lo hi : Z) : cert -> Prop :=
| holds_anchor c : valid_cert v c -> anchor c -> covered (c_ips c) fam lo hi -> holds v fam lo hi c
| holds_link c p : valid_cert v c -> c_aki c = c_ski p -> sig_ok p c = true ->
    covered (c_ips c) fam lo hi \/ inherited (c_ips c) fam ->
    holds v fam lo hi p -> holds v fam lo hi c.
End Holds.

(** A list of the ROAs reported valid, in some order. *)
Definition lists_valid_roas (v : validator) (l : list roa) : Prop :=
  forall x, In x l <-> valid_roa v x.

(** A certificate and a ROA entry as the decoder produces them: the resources
    come from an address block, no prefix lacks its address (C14), the entry
    comes from an encoded address of one of the two families. *)
Definition decoded_cert (c : cert) : Prop :=
  (exists blk ok, decode_ip_block blk = (c_ips c, ok)) /\ ~ In (INet None) (c_ips c).
Definition decoded_entry (e : roa_entry) : Prop :=
  exists fam n b ml, fam_octets fam n /\ wf_bits b /\ convert_addrs fam [mkAddr b ml] = Some [e].

(** What the decoders guarantee about the valid objects, with trust anchors
    whose resources are well formed. *)
Definition decoded_state (anchor : cert -> Prop) (v : validator) : Prop :=
  (forall c, valid_cert v c -> decoded_cert c) /\
  (forall c, valid_cert v c -> anchor c -> wf_list (c_ips c)) /\
  (forall x e, valid_roa v x -> In e (roa_entries x) -> decoded_entry e).

(** Valid certificates with well-formed resources, where a trust anchor does not
    inherit and at most every other certificate of a chain inherits. *)
Definition conforming_state (anchor : cert -> Prop) (v : validator) : Prop :=
  (forall c, valid_cert v c -> Forall wf_claim (c_ips c)) /\
  (forall c fam, valid_cert v c -> anchor c -> ~ inherited (c_ips c) fam) /\
  (forall c p fam, valid_cert v c -> valid_cert v p -> c_aki c = c_ski p ->
     inherited (c_ips c) fam -> ~ inherited (c_ips p) fam) /\
  (forall x e, valid_roa v x -> In e (roa_entries x) -> decoded_entry e).

(** One run of the validator per trust anchor locator: operations, time,
    resulting state. *)
Definition a_run := (list op * Z * validator)%type.
Definition run_ops (r : a_run) : list op := fst (fst r).
Definition run_now (r : a_run) : Z := snd (fst r).
Definition run_state (r : a_run) : validator := snd r.

(** The ROAs handed to the export, per locator: those valid after its run. *)
Definition produced (run : list op -> validator -> vres validator) (rs : list a_run) (tals : list (list roa)) : Prop :=
  Forall2 (fun r t => run (run_ops r) (new_validator (run_now r)) = VRet (run_state r) /\
                      lists_valid_roas (run_state r) t) rs tals.
