(** Trust anchor locators: validator/lib/tal.go (selection and key check). *)
From Coq Require Import String.
From Verif.Model Require Import Base Str.

(** The interface values stored in a PublicKey field: a pointer to an RSA key,
    an RSA key by value (which CreateTAL stores, tal.go:86-102), any other. *)
Inductive pubkey :=
| RSAPtr (n e : Z)
| RSAVal (n e : Z)
| OtherKey (k : bytes).

(** x509.PublicKeyAlgorithm: RSA is 1. *)
Definition alg_rsa : Z := 1.

(** tal.go:20-25 RPKITAL *)
Record tal := mkTal { t_uris : list bytes; t_alg : Z; t_key : pubkey }.

Definition rsync_scheme : bytes := str "rsync://".

(** tal.go:27-34 HasRsync *)
Definition has_rsync (t : tal) : bool := existsb (fun u => has_prefix u rsync_scheme) (t_uris t).

(** tal.go:41-48, the loop: the first rsync URI, or else the last other. *)
Fixpoint pick_uri (l : list bytes) (other : bytes) : bytes * bytes :=
  match l with
  | [] => ([], other)
  | u :: l' => if has_prefix u rsync_scheme then (u, other) else pick_uri l' u
  end.

(** tal.go:38-52 GetRsyncURI; [hex_sha1] stands for the hexadecimal SHA-1
    digest. *)
Definition get_rsync_uri (hex_sha1 : bytes -> bytes) (t : tal) : bytes :=
  let (rsync, other) := pick_uri (t_uris t) [] in
  match rsync with
  | [] => str "rsync://rfc8630/certs/" ++ hex_sha1 other ++ str ".cer"
  | _ => rsync
  end.

(** tal.go:54-60 GetURI *)
Definition get_uri (t : tal) : bytes :=
  match t_uris t with [] => str "unknown" | u :: _ => u end.

(** The type assertion [.( *rsa.PublicKey)]. *)
Definition as_rsa_ptr (k : pubkey) : go (Z * Z) :=
  match k with RSAPtr n e => Ret (n, e) | _ => Panic end.

(** tal.go:62-74 CheckCertificate *)
Definition check_certificate (t : tal) (calg : Z) (ckey : pubkey) : go bool :=
  if t_alg t =? calg then
    if t_alg t =? alg_rsa then
      let! (an, ae) := as_rsa_ptr (t_key t) in
      let! (bn, be) := as_rsa_ptr ckey in
      Ret ((an =? bn) && (ae =? be))
    else Ret false
  else Ret false.
