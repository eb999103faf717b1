(** The list made by localrpki: cmd/localrpki/localrpki.go:42-127.

    Not modelled: logging, the file the list is written to, the JSON syntax. *)
From Coq Require Import String.
From Verif.Model Require Import Base Str NetIP CertRes Roa Tal Validator Explore NetText RrdpXml Output.

(** The zero value of time.Time (the first second of year 1), in seconds from
    1970. *)
Definition zero_time : Z := - 62135596800.
(** time.Unix(_, 0): the seconds are kept, as an int64, from year 1. *)
Definition time_unix (n : Z) : Z :=
  (n - zero_time + 2 ^ 63) mod 2 ^ 64 - 2 ^ 63 + zero_time.

(** localrpki.go:59-68: the time of validation.  [rfc3339] is
    time.Parse(time.RFC3339, _). *)
Definition valid_time (now : Z) (rfc3339 : bytes -> option Z) (s : bytes) : Z :=
  if beq s (str "now"%string) then now
  else match parse_int64 s with
       | Some n => time_unix n
       | None => match rfc3339 s with Some t => t | None => zero_time end
       end.

(** localrpki.go:32-37 OutputROA *)
Record local_roa := mkLocal { lr_asn : bytes; lr_prefix : bytes; lr_maxlen : Z; lr_path : bytes }.

(** The manager of one locator: the files it has explored, its state, and an
    order in which its map ValidROA is iterated. *)
Record local := mkLoc { lc_files : list pkifile; lc_mgr : mgr; lc_roas : list (bytes * addr) }.

(** The map PathOfResource, the inverse of ResourceOfPath: pki.go:840-843 sets
    both, the latest file with a resource being the one kept. *)
Definition path_of_resource (q : local) (a : addr) : option pkifile :=
  find (fun f => match m_rop (lc_mgr q) (f_id f) with Some b => Nat.eqb b a | None => false end) (rev (lc_files q)).

(** localrpki.go:97-106, the loop over the entries of one ROA.  A resource that
    is not in PathOfResource gives a nil pointer, which ComputePath
    dereferences. *)
Fixpoint local_entries (q : local) (a : addr) (asn : Z) (l : list roa_entry) : go (list local_roa) :=
  match l with
  | [] => Ret []
  | e :: r =>
      match path_of_resource q a with
      | Some f =>
          let! t := local_entries q a asn r in
          Ret (mkLocal (str "AS"%string ++ dec asn) (ipnet_text (re_net e)) (re_maxlen e) (compute_path f) :: t)
      | None => Panic
      end
  end.
(** localrpki.go:95-107 *)
Definition local_tal (q : local) : go (list local_roa) :=
  gconcat (map (fun ka =>
    match nth_error (v_heap (m_v (lc_mgr q))) (snd ka) with
    | Some r => match r_obj r with
                | ORoa x => let! l := valids x in local_entries q (snd ka) (roa_asn x) l
                | _ => Panic
                end
    | None => Panic
    end) (lc_roas q)).
(** localrpki.go:74-108, the loop over the locators *)
Definition local_list (qs : list local) : go (list local_roa) := gconcat (map local_tal qs).
