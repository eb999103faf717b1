(** C90: the error reports of the manager. *)
From Coq Require Import Lia String.
From Verif.Model Require Import Base NetIP CertRes Roa Str Ber Tal Validator Explore ErrReport.
From Verif.Spec Require Import Trust Discovery ErrReportSpec.
From Verif.Proofs Require Import Witness ValidatorWitness ExploreWitness ErrReportProofs ErrReportThm ErrReportWitness.

Section Props.
Variable sig_ok : cert -> cert -> bool.
Variable crl_sig_ok : cert -> crl -> bool.
Variable dec_tal : bytes -> option tal.
Variable dec_cert : bytes -> option cert.
Variable dec_roa : bytes -> option roa.
Variable dec_mft : bytes -> option mft.
Variable dec_crl : bytes -> option crl.
Variable hex_sha1 : bytes -> bytes.
Variable disk : bytes -> option bytes.
Variable synced : bytes -> bool.
Variable sha256 : bytes -> bytes.
Variable clock : nat -> Z * Z.
Variable strict_manifests : bool.
Variable strict_hash : bool.
Variable add_invalid : bool.
Variable init : list fdesc.
Notation run := (run sig_ok crl_sig_ok dec_tal dec_cert dec_roa dec_mft dec_crl hex_sha1).
Notation add_resource := (add_resource sig_ok crl_sig_ok dec_tal dec_cert dec_roa dec_mft dec_crl hex_sha1).
Notation explore_iter b := (explore_iter sig_ok crl_sig_ok dec_tal dec_cert dec_roa dec_mft dec_crl hex_sha1 disk synced sha256 clock strict_manifests strict_hash b).
Notation explore b := (explore sig_ok crl_sig_ok dec_tal dec_cert dec_roa dec_mft dec_crl hex_sha1 disk synced sha256 clock strict_manifests strict_hash b).
Notation iter_rep b := (iter_rep sig_ok crl_sig_ok dec_tal dec_cert dec_roa dec_mft dec_crl hex_sha1 disk synced sha256 clock strict_manifests strict_hash b).
Notation explore_rep b := (explore_rep sig_ok crl_sig_ok dec_tal dec_cert dec_roa dec_mft dec_crl hex_sha1 disk synced sha256 clock strict_manifests strict_hash b).
Notation resource_error := (resource_error sig_ok crl_sig_ok dec_tal dec_cert dec_roa dec_mft dec_crl).

(** Exploring with reports is exploring: the same end, panic or lack of fuel. *)
Theorem C90_same_exploration : forall fuel s,
  (do! (s', _) := explore add_invalid fuel s in VRet s') = (do! (s', _) := explore_rep add_invalid fuel s in VRet s').
Proof. exact (explore_drop sig_ok crl_sig_ok dec_tal dec_cert dec_roa dec_mft dec_crl hex_sha1 disk synced sha256 clock strict_manifests strict_hash add_invalid). Qed.

(** A finished exploration looks at files one by one; the reports are those of
    the single files, in that order. *)
Theorem C90_reports_of_files : forall fuel s s' rs, explore_rep add_invalid fuel s = VRet (s', rs) ->
  exists l, explored_with (iter_rep add_invalid) s l s' /\ m_queue s' = [] /\ rs = concat (map snd l) /\
    explores (explore_iter add_invalid) s (map fst l) s'.
Proof. exact (reports_of_files sig_ok crl_sig_ok dec_tal dec_cert dec_roa dec_mft dec_crl hex_sha1 disk synced sha256 clock strict_manifests strict_hash add_invalid). Qed.

(** Every file looked at is accepted, and then only its CA is reported if at
    all; or it is reported itself; or it could not be read and its repository
    is not synchronised; or it is a revocation list, reported by a nil error. *)
Theorem C90_files_accounted_partial : forall now l s f rs,
  explored_with (iter_rep false) (init_mgr now init) l s -> In (f, rs) l ->
  (registered s f /\ forall r, In r rs -> ca_report f r) \/
  (~ registered s f /\
   (((exists r, In r rs /\ own_report f r) /\ forall r, In r rs -> own_report f r \/ ca_report f r) \/
    (unreadable disk f /\ synced (f_path f) = false /\ forall r, In r rs -> ca_report f r) \/
    (f_type f = TCrl /\ In (mkRep None None None) rs /\ forall r, In r rs -> r = mkRep None None None \/ ca_report f r))).
Proof. exact (accounted sig_ok crl_sig_ok dec_tal dec_cert dec_roa dec_mft dec_crl hex_sha1 disk synced sha256 clock strict_manifests strict_hash init). Qed.

(** A certificate that stops being valid does so with a revocation list or with
    the report of a CA. *)
Theorem C90_no_silent_loss : forall s s' rs k, iter_rep add_invalid s = VRet (s', rs) ->
  v_valid (m_v s) k <> None -> v_valid (m_v s') k = None ->
  exists f q, m_queue s = f :: q /\ (f_type f = TCrl \/ exists r, In r rs /\ ca_report f r).
Proof. exact (iter_loss sig_ok crl_sig_ok dec_tal dec_cert dec_roa dec_mft dec_crl hex_sha1 disk synced sha256 clock strict_manifests strict_hash add_invalid). Qed.

(** The validator's error is the one reported: there is one exactly if
    AddResource returns one, and its type states the reason. *)
Theorem C90_error_type : forall ops now v f d v' valid ps a err, run ops (new_validator now) = VRet v ->
  add_resource f d v = VRet (v', (valid, ps, a, err)) ->
  (err = false /\ resource_error f d v = VRet None) \/
  (err = true /\ valid = false /\ exists k, resource_error f d v = VRet (Some k) /\
     reason sig_ok dec_tal dec_cert dec_roa dec_mft dec_crl k f d v).
Proof. exact (error_type sig_ok crl_sig_ok dec_tal dec_cert dec_roa dec_mft dec_crl hex_sha1 clock). Qed.
End Props.
Print Assumptions C90_same_exploration.
Print Assumptions C90_reports_of_files.
Print Assumptions C90_files_accounted_partial.
Print Assumptions C90_no_silent_loss.
Print Assumptions C90_error_type.

(** An altered ROA: the CA and the ROA are reported.  A manifest out of date:
    the CA is reported and the ROA has no valid issuer any more. *)
Example C90_example :
  e_show (e_explore (fun _ => true) [] (blob 21) 100) = Some [] /\
  e_show (e_explore (fun _ => true) [] (blob 22) 100) =
    Some [(Some EManifest, Some (str "rsync://r/a.cer"), Some (str "rsync://r/a/o.roa"));
          (Some EHash, Some (str "rsync://r/a/o.roa"), None)] /\
  e_show (e_explore (fun _ => true) [] (blob 21) 49) =
    Some [(Some EManifest, Some (str "rsync://r/a.cer"), Some (str "rsync://r/a/o.roa"));
          (Some EParent, Some (str "rsync://r/a/o.roa"), None)].
Proof. vm_compute. auto. Qed.

(** A revocation list with a wrong signature is there and as listed; all that
    is reported is a nil error, without the file. *)
Theorem C90_nil_error_refuted : exists sig_ok crl_sig_ok dec_tal dec_cert dec_roa dec_mft dec_crl disk l s f rs,
  explored_with (ErrReport.iter_rep sig_ok crl_sig_ok dec_tal dec_cert dec_roa dec_mft dec_crl (fun x => x) disk (fun _ => true) (fun x => x)
    (fun _ => (50, 50)) true true false) (init_mgr 50 r_init) l s /\ m_queue s = [] /\
  In (f, rs) l /\ ~ registered s f /\ rs = [mkRep None None None] /\ good_copy disk (fun x => x) f.
Proof. exact unnamed_list. Qed.
Print Assumptions C90_nil_error_refuted.

(** A revocation list that is not there and whose repository was never
    synchronised leaves no trace. *)
Theorem C90_silent_refuted : exists sig_ok crl_sig_ok dec_tal dec_cert dec_roa dec_mft dec_crl disk l s f rs,
  explored_with (ErrReport.iter_rep sig_ok crl_sig_ok dec_tal dec_cert dec_roa dec_mft dec_crl (fun x => x) disk (fun _ => false) (fun x => x)
    (fun _ => (50, 50)) true true false) (init_mgr 50 r_init) l s /\ m_queue s = [] /\
  In (f, rs) l /\ ~ registered s f /\ f_type f = TCrl /\ rs = [].
Proof. exact silent_loss. Qed.
Print Assumptions C90_silent_refuted.
