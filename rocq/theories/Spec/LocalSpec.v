(** What the list of localrpki must say. *)
From Coq Require Import List ZArith.
From Verif.Model Require Import Base NetIP CertRes Str Roa Tal Validator Explore NetText Octo Local.
From Verif.Spec Require Import Addr Resources Canon Trust Discovery.
Import ListNotations.
Open Scope Z_scope.

(** [part keep l s]: [s] are the elements of [l] that satisfy [keep], in
    order. *)
Inductive part {A} (keep : A -> Prop) : list A -> list A -> Prop :=
| part_nil : part keep [] []
| part_in x l s : keep x -> part keep l s -> part keep (x :: l) (x :: s)
| part_out x l s : ~ keep x -> part keep l s -> part keep (x :: l) s.

(** The entry's addresses are within those of the certificate. *)
Definition entry_covered (c : cert) (e : roa_entry) : Prop :=
  exists fam lo hi, entry_denotes e fam lo hi /\ covered (c_ips c) fam lo hi.

(** The line for the entry [e] of a ROA in file [f]. *)
Definition line_for (f : pkifile) (asn : Z) (e : roa_entry) : local_roa :=
  mkLocal ([65; 83] ++ dec asn) (ipnet_text (re_net e)) (re_maxlen e) (compute_path f).

(** Addresses that do not inherit, and entries that are prefixes. *)
Definition plain_roa (x : roa) : Prop :=
  wf_list (c_ips (roa_cert x)) /\ (forall fam, ~ inherited (c_ips (roa_cert x)) fam) /\
  forall e, In e (roa_entries x) -> exists fam lo hi, entry_denotes e fam lo hi /\ plain_bounds fam lo hi.

Section Local.
Variable disk : bytes -> option bytes.
Variable dec_roa : bytes -> option roa.

(** [x] is what [f], one of the files explored, contains. *)
Definition read_from (P : list pkifile) (x : roa) (f : pkifile) : Prop :=
  In f P /\ f_type f = TRoa /\ exists raw d, Discovery.holds disk f raw d /\ dec_roa d = Some x.

(** [l] has, for each valid ROA once, a line for each entry that is [kept],
    with the path of the file the ROA was read from. *)
Definition local_of (kept : roa -> list roa_entry -> Prop) (P : list pkifile) (v : validator) (l : list local_roa) : Prop :=
  exists rs : list (roa * pkifile),
    NoDup (map (fun r => c_ski (roa_cert (fst r))) rs) /\
    (forall x, valid_roa v x <-> exists f, In (x, f) rs) /\
    (forall x f, In (x, f) rs -> read_from P x f) /\
    exists parts, l = concat parts /\
      Forall2 (fun r p => exists es, kept (fst r) es /\ p = map (line_for (snd r) (roa_asn (fst r))) es) rs parts.
End Local.
