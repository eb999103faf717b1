(** Vocabulary for the texts and tags of errors. *)
From Coq Require Import List ZArith String.
From Verif.Model Require Import Base NetIP CertRes Roa Str NetText Ber Tal Validator Explore ErrReport ErrText.
From Verif.Spec Require Import Resources Trust ErrReportSpec.
Import ListNotations.
Open Scope Z_scope.

(** What [ErrReport] says of an error: its type and the files in its fields. *)
Definition type_of (e : err) : ekind :=
  match e with ErrPlain _ => EUnknown | ErrCert c | ErrFile c => ce_kind c | ErrRes k _ _ _ => k end.
Definition file_of (e : err) : option pkifile :=
  match e with ErrPlain _ => None | ErrCert c | ErrFile c => ce_file c | ErrRes _ _ f _ => f end.
Definition inner_of (e : err) : option pkifile :=
  match e with ErrCert c | ErrFile c => ce_innerfile c | _ => None end.
Definition as_report (o : option err) : report :=
  match o with
  | None => mkRep None None None
  | Some e => mkRep (Some (type_of e)) (file_of e) (inner_of e)
  end.

(** The certificate an error is about. *)
Fixpoint cert_of (e : err) : option cert :=
  match e with
  | ErrPlain _ => None
  | ErrCert c | ErrFile c => ce_cert c
  | ErrRes _ i _ _ => cert_of i
  end.

(** The repository of a file, or of the file that names it; [None] if both are
    empty. *)
Definition repository (f : pkifile) (r : option bytes) : Prop :=
  (fd_repo (f_desc f) <> [] /\ r = Some (fd_repo (f_desc f))) \/
  (fd_repo (f_desc f) = [] /\ exists p, f_parent f = Some p /\ fd_repo (f_desc p) <> [] /\ r = Some (fd_repo (f_desc p))) \/
  (fd_repo (f_desc f) = [] /\ (forall p, f_parent f = Some p -> fd_repo (f_desc p) = []) /\ r = None).

(** [tagged e t]: the final tags [t] tell type, files and certificate of the
    error [e]. *)
Definition tagged (e : err) (t : bytes -> option bytes) : Prop :=
  t (str "Type") = Some (kind_name (type_of e)) /\
  t (str "File.Path") = option_map f_path (file_of e) /\
  t (str "File.Type") = option_map (fun f => type_name (f_type f)) (file_of e) /\
  (forall f, file_of e = Some f -> repository f (t (str "File.Repository"))) /\
  t (str "InnerFile.Path") = option_map f_path (inner_of e) /\
  t (str "InnerFile.Type") = option_map (fun f => type_name (f_type f)) (inner_of e) /\
  t (str "Certificate.SubjectKeyId") = option_map (fun c => hexs (c_ski c)) (cert_of e) /\
  t (str "Certificate.AuthorityKeyId") = option_map (fun c => hexs (c_aki c)) (cert_of e) /\
  t (str "Certificate.SerialNumber") = option_map (fun c => dec (c_serial c)) (cert_of e).

(** Identifiers made of octets. *)
Definition octet_ids (c : cert) : Prop := bytes_ok (c_ski c) = true /\ bytes_ok (c_aki c) = true.

(** The certificate valid under the key [k]. *)
Definition valid_under (v : validator) (k : bytes) (p : cert) : Prop :=
  exists a r, v_valid v k = Some a /\ nth_error (v_heap v) a = Some r /\ r_obj r = OCert p.

(** An element is not held: neither by the issuer [p] nor, where the issuer
    inherits, by the certificate [p] is issued by. *)
Definition ip_not_held (v : validator) (p : cert) (i : ipinfo) : Prop :=
  exists fam lo hi, denotes i fam lo hi /\
    ((~ covered (c_ips p) fam lo hi /\ ~ inherited (c_ips p) fam) \/
     (inherited (c_ips p) fam /\
      exists g, valid_under v (c_aki p) g /\ (wf_list (c_ips g) -> ~ covered (c_ips g) fam lo hi /\ ~ inherited (c_ips g) fam))).
Definition as_not_held (v : validator) (p : cert) (i : asinfo) : Prop :=
  exists lo hi, as_denotes i lo hi /\
    ((~ as_covered (c_asns p) lo hi /\ ~ In ASNull (c_asns p)) \/
     (In ASNull (c_asns p) /\
      exists g, valid_under v (c_aki p) g /\ ~ as_covered (c_asns g) lo hi /\ ~ In ASNull (c_asns g))).

(** The texts of a list of elements, and the sentence that lists them. *)
Inductive ip_shown : ipinfo -> bytes -> Prop :=
| is_net n : ip_shown (INet (Some n)) (ipnet_text n)
| is_range a b : ip_shown (IRange a b) (str "Min: " ++ ip_text a ++ str " max: " ++ ip_text b).
Inductive as_shown : asinfo -> bytes -> Prop :=
| as_range a b : as_shown (ASRange a b) (str "Min: " ++ dec a ++ str " max: " ++ dec b)
| as_num a : as_shown (ASNum a) (dec a).
Inductive listing (what : bytes) : list bytes -> bytes -> Prop :=
| li_none : listing what [] []
| li_some x l : listing what (x :: l)
    (str " invalid " ++ what ++ str " resources (" ++ dec (Z.of_nat (List.length (x :: l))) ++ str "): [" ++
     x ++ concat (map (fun y => str ", " ++ y) l) ++ str "]").
