(** Vocabulary for the exploration properties: which files were looked at, what
    the cache holds for them. *)
From Coq Require Import List ZArith.
From Verif.Model Require Import Base Str Ber Tal Validator Explore.
From Verif.Spec Require Import Trust.
Import ListNotations.
Open Scope Z_scope.

Section Disk.
Variable disk : bytes -> option bytes.
Variable sha256 : bytes -> bytes.

(** The cache holds [raw] for file [f], which is [d] once converted to DER.
    Trust anchor locators are not converted. *)
Definition holds (f : pkifile) (raw d : bytes) : Prop :=
  disk (compute_path f) = Some raw /\
  (if is_tal (f_type f) then d = raw else ber2der raw = BOk d).

(** The cache holds a copy of [f] with the digest its manifest lists. *)
Definition good_copy (f : pkifile) : Prop :=
  exists raw d, holds f raw d /\ forall h, fd_hash (f_desc f) = Some h -> sha256 raw = h.

(** Decoded contents. *)
Definition contents {A} (dec : bytes -> option A) (f : pkifile) (x : A) : Prop :=
  exists raw d, holds f raw d /\ dec d = Some x.
End Disk.

(** [f] is listed by the manifest file [p] of the certificate file [g]. *)
Definition listed (f p g : pkifile) : Prop :=
  f_parent f = Some p /\ f_type p = TMft /\ f_parent p = Some g /\ f_type g = TCer.

(** The URI of an entry of a manifest in repository [repo]. *)
Definition entry_uri (repo name : bytes) : bytes :=
  if ends_slash repo then repo ++ name else repo ++ [47] ++ name.

(** ResourceOfPath has an entry for this file: it was accepted. *)
Definition registered (s : mgr) (f : pkifile) : Prop := m_rop s (f_id f) <> None.

(** [explores iter s l s']: the loop body [iter] goes from [s] to [s'] taking
    the files [l] from the queue. *)
Inductive explores (iter : mgr -> vres mgr) : mgr -> list pkifile -> mgr -> Prop :=
| ex_done s : explores iter s [] s
| ex_step s f q s1 l s2 : m_queue s = f :: q -> iter s = VRet s1 -> explores iter s1 l s2 ->
    explores iter s (f :: l) s2.

(** [chain_to sig_ok anchor v c]: [c] is valid and its issuers up to a
    certificate with property [anchor] are valid, inside their validity windows
    and linked by verified signatures. *)
Inductive chain_to (sig_ok : cert -> cert -> bool) (anchor : cert -> Prop) (v : validator) : cert -> Prop :=
| ct_anchor c : valid_cert v c -> in_window c (v_time v) -> anchor c -> chain_to sig_ok anchor v c
| ct_link c p : valid_cert v c -> in_window c (v_time v) -> c_aki c = c_ski p -> sig_ok p c = true ->
    chain_to sig_ok anchor v p -> chain_to sig_ok anchor v c.

(** [c] was read from a file among [P] that stands for the location named by a
    trust anchor locator among [P], and both have the same RSA key. *)
Definition tal_anchor (dec_tal : bytes -> option tal) (dec_cert : bytes -> option cert) (hex_sha1 : bytes -> bytes)
  (disk : bytes -> option bytes) (P : list pkifile) (c : cert) : Prop :=
  exists f p t n e, In f P /\ f_type f = TCer /\ contents disk dec_cert f c /\
    In p P /\ f_type p = TTal /\ contents disk dec_tal p t /\ get_rsync_uri hex_sha1 t = f_path f /\
    t_key t = RSAPtr n e /\ c_key c = RSAPtr n e.

(** The update window of a manifest contains both readings of the clock. *)
Definition mft_current (t : Z * Z) (m : mft) : Prop := fst t <= mft_next m /\ mft_this m <= snd t.

(** A bound on the number of files found through the file stored for a path. *)
Definition found_bound (dec_cert : bytes -> option cert) (dec_mft : bytes -> option mft) (disk : bytes -> option bytes)
  (k : bytes) : nat :=
  match disk k with
  | Some raw =>
      match ber2der raw with
      | BOk d =>
          S (match dec_cert d with Some c => S (length (c_crldp c)) | None => 0 end +
             match dec_mft d with Some m => length (mft_files m) | None => 0 end)%nat
      | _ => 1%nat
      end
  | None => 0%nat
  end.

(** The file [p] names the location of [x]: a locator names its anchor, a
    certificate its repository objects, a manifest its entries. *)
Definition names (dec_tal : bytes -> option tal) (dec_cert : bytes -> option cert) (dec_mft : bytes -> option mft)
  (hex_sha1 : bytes -> bytes) (disk : bytes -> option bytes) (p : pkifile) (x : fdesc) : Prop :=
  match f_type p with
  | TTal => exists t, contents disk dec_tal p t /\ x = mkFile [] (get_rsync_uri hex_sha1 t) TCer true None
  | TCer => exists c, contents disk dec_cert p c /\ fd_trust x = false /\ fd_hash x = None /\
      (fd_type x = TCrl /\ In (fd_path x) (c_crldp c) \/ fd_type x = TMft /\ In (SiaManifest, fd_path x) (c_sia c))
  | TMft => exists m name h, contents disk dec_mft p m /\ In (name, h) (mft_files m) /\
      x = mkFile [] name (determine_type name) false (Some h)
  | _ => False
  end.
