(** Conditions under which the validator does not panic. *)
From Coq Require Import List ZArith.
From Verif.Model Require Import Base NetIP CertRes Str Tal Validator.
Import ListNotations.
Open Scope Z_scope.

(** No prefix without an address, and RSA keys as crypto/x509 parses them. *)
Definition safe_key (alg : Z) (k : pubkey) : Prop := alg = alg_rsa -> exists n e, k = RSAPtr n e.
Definition safe_cert (c : cert) : Prop :=
  (forall i, In i (c_ips c) -> i <> INet None) /\ safe_key (c_alg c) (c_key c).
Definition safe_obj (o : obj) : Prop :=
  match o with
  | OCert c => safe_cert c
  | OTal t => safe_key (t_alg t) (t_key t)
  | _ => True
  end.

(** The objects an operation brings. *)
Definition carried (dec_tal : bytes -> option tal) (dec_cert : bytes -> option cert)
  (dec_roa : bytes -> option roa) (dec_mft : bytes -> option mft) (dec_crl : bytes -> option crl) (o : op) : list obj :=
  let of_roa r := [OCert (roa_cert r); ORoa r] in
  let of_mft m := [OCert (mft_cert m); OMft m] in
  match o with
  | DoResource f d =>
      match f_type f with
      | TTal => match dec_tal d with Some t => [OTal t] | None => [] end
      | TCer => match dec_cert d with Some c => [OCert c] | None => [] end
      | TRoa => match dec_roa d with Some r => of_roa r | None => [] end
      | TMft => match dec_mft d with Some m => of_mft m | None => [] end
      | TCrl => match dec_crl d with Some l => [OCrl l] | None => [] end
      | _ => []
      end
  | DoTal t => [OTal t]
  | DoCert c _ => [OCert c]
  | DoRoa _ r => of_roa r
  | DoMft _ m => of_mft m
  | DoCrl l => [OCrl l]
  | DoInvalidate _ => []
  end.

(** A CRL handed in as a file: the file has a grandparent, and the key
    identifier in the CRL is that of a known certificate read from a file. *)
Definition crl_file_ok (dec_crl : bytes -> option crl) (o : op) (v : validator) : Prop :=
  match o with
  | DoResource f d =>
      f_type f = TCrl -> forall l, dec_crl d = Some l ->
        (exists p g, f_parent f = Some p /\ f_parent p = Some g) /\
        exists a r file, v_objects v (crl_aki (crl_exts l) []) = Some a /\
          nth_error (v_heap v) a = Some r /\ r_file r = Some file
  | _ => True
  end.
(** No CRL handed in as a file. *)
Definition no_crl_file (o : op) : Prop :=
  match o with DoResource f _ => f_type f <> TCrl | _ => True end.
