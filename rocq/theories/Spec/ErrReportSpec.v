(** Vocabulary for the reports of the manager. *)
From Coq Require Import List ZArith.
From Verif.Model Require Import Base Roa Str Ber Tal Validator Explore ErrReport.
From Verif.Spec Require Import Trust Discovery.
From Coq Require Import String.
Import ListNotations.
Open Scope Z_scope.

(** [explored_with iter s l s']: the loop body [iter] goes from [s] to [s']
    taking files from the queue; [l] has the files, each with the reports sent
    while it was looked at. *)
Inductive explored_with (iter : mgr -> vres (mgr * list report)) : mgr -> list (pkifile * list report) -> mgr -> Prop :=
| ew_done s : explored_with iter s [] s
| ew_step s f q s1 r l s2 : m_queue s = f :: q -> iter s = VRet (s1, r) -> explored_with iter s1 l s2 ->
    explored_with iter s ((f, r) :: l) s2.

(** The file itself is reported, as opposed to one it belongs to. *)
Definition own_report (f : pkifile) (r : report) : Prop :=
  rp_file r = Some f /\ rp_inner r = None /\ rp_kind r <> None.

(** The report of a CA that is given up because of the file [f]. *)
Definition ca_report (f : pkifile) (r : report) : Prop :=
  rp_inner r = Some f /\ (rp_kind r = Some EManifest \/ rp_kind r = Some ECrl) /\
  exists p g, f_parent f = Some p /\ f_parent p = Some g /\ rp_file r = Some g /\ f_type g = TCer.

(** The cache has no readable copy of the file. *)
Definition unreadable (disk : bytes -> option bytes) (f : pkifile) : Prop := ~ exists raw d, holds disk f raw d.

Section Reason.
Variable sig_ok : cert -> cert -> bool.
Variable dec_tal : bytes -> option tal.
Variable dec_cert : bytes -> option cert.
Variable dec_roa : bytes -> option roa.
Variable dec_mft : bytes -> option mft.
Variable dec_crl : bytes -> option crl.

(** The certificate that the object [d] of file [f] is, or has inside. *)
Definition cert_in (f : pkifile) (d : bytes) (c : cert) : Prop :=
  (f_type f = TCer /\ dec_cert d = Some c) \/
  (f_type f = TRoa /\ exists r, dec_roa d = Some r /\ roa_cert r = c) \/
  (f_type f = TMft /\ exists m, dec_mft d = Some m /\ mft_cert m = c).

(** [p] is valid and signed [c]. *)
Definition issued (v : validator) (p c : cert) : Prop := valid_cert v p /\ c_aki c = c_ski p /\ sig_ok p c = true.
Definition revoked_in (v : validator) (c : cert) : Prop := v_revoked v (serial_key (c_aki c) (c_serial c)) <> None.

(** What a report of type [k] on the object [d] of file [f] says about it. *)
Definition reason (k : ekind) (f : pkifile) (d : bytes) (v : validator) : Prop :=
  match k with
  | EExpiration => exists c, cert_in f d c /\ ~ in_window c (v_time v)
  | EConflict => exists c, cert_in f d c /\ v_objects v (c_ski c) <> None
  | EParent => exists c, cert_in f d c /\
      ((forall p, ~ issued v p c) \/ exists p, issued v p c /\ v_valid v (c_aki p) = None)
  | ERevocation => exists c, cert_in f d c /\ revoked_in v c /\ exists p, issued v p c
  | EResource => exists c p, cert_in f d c /\ issued v p c /\ ~ revoked_in v c /\ in_window c (v_time v) /\
      (c_ips c <> [] \/ c_asns c <> [])
  | EUnknown => (exists r, f_type f = TRoa /\ dec_roa d = Some r /\ (roa_inner r = false \/ validate_entries (roa_entries r) = false)) \/
      (exists m, f_type f = TMft /\ dec_mft d = Some m /\ mft_inner m = false)
  | EFile =>
      match f_type f with
      | TTal => dec_tal d = None
      | TCer => dec_cert d = None \/ exists p, f_parent f = Some p /\ f_type p = TTal
      | TRoa => dec_roa d = None
      | TMft => dec_mft d = None \/ exists m n h, dec_mft d = Some m /\ In (n, h) (mft_files m) /\
          exists a b, n = a ++ str "../" ++ b \/ n = a ++ str "..\" ++ b
      | TCrl => dec_crl d = None \/ exists l g, dec_crl d = Some l /\ (exists p, f_parent f = Some p /\ f_parent p = Some g) /\
          forall a r file, v_objects v (crl_aki (crl_exts l) []) = Some a -> nth_error (v_heap v) a = Some r ->
            r_file r = Some file -> f_path file <> f_path g
      | _ => True
      end
  | EManifest | EHash | ECrl => False
  end.
End Reason.
