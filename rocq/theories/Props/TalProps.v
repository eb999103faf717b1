(** C29, C30, C35: trust anchor locators as text, their location, base64. *)
From Coq Require Import String Lia.
From Verif.Model Require Import Base Str NetIP CertRes Tal Base64 TalText TalDer.
From Verif.Spec Require Import B64 IpExtSpec TalSpec.
From Verif.Proofs Require Import StrProofs Base64Proofs TalTextProofs TalDerProofs.

(** C35. What is delivered is exactly the base64 decoding of the text without
    blanks and line ends; everything else is refused. *)
Theorem C35_exact : forall value d,
  decode_rrdp_base64 value = Some d <-> b64_text (strip value) d.
Proof. exact decode_rrdp_base64_exact. Qed.
Print Assumptions C35_exact.

Theorem C35_unambiguous : forall t d d', b64_text t d -> b64_text t d' -> d = d'.
Proof. exact b64_text_fun. Qed.
Print Assumptions C35_unambiguous.

Example C35_example :
  decode_rrdp_base64 (str "  aGVs" ++ [13; 10] ++ str " bG 8 =" ++ [10]) = Some (str "hello") /\
  decode_rrdp_base64 (str "aGVsbG8") = None /\ decode_rrdp_base64 (str "aGVs" ++ [9] ++ str "bG8=") = None.
Proof. vm_compute. auto. Qed.

(** C29. A TAL that is written and read back has the same URIs in the same
    order and the same key, for every line width, when the length of the key
    encoding is a multiple of three.  The modulus has fewer than 2^30 bits, the
    exponent fits the 64 bits of its type. *)
Theorem C29_round_trip_partial : forall uris k n e t split text,
  Forall good_uri uris -> k = RSAPtr n e \/ k = RSAVal n e ->
  Z.log2 (Z.abs n) < 2 ^ 30 /\ - 2 ^ 63 <= e < 2 ^ 63 ->
  create_tal uris k = Some t -> encode_tal_size spki_octets t split = Ret (Some text) ->
  (List.length (spki_octets n e) mod 3 = 0)%nat ->
  decode_tal read_spki text = Some (mkTal uris alg_rsa (RSAPtr n e)).
Proof. exact tal_der_round_trip. Qed.
Print Assumptions C29_round_trip_partial.

(** For any other length it cannot be read back at all: the writer leaves
    out the padding that the reader wants. *)
Theorem C29_length_refuted : forall uris k n e t split text,
  Forall good_uri uris -> k = RSAPtr n e \/ k = RSAVal n e ->
  create_tal uris k = Some t -> encode_tal_size spki_octets t split = Ret (Some text) ->
  (List.length (spki_octets n e) mod 3 <> 0)%nat ->
  decode_tal read_spki text = None.
Proof. exact tal_der_unreadable. Qed.
Print Assumptions C29_length_refuted.

(** With the usual exponent: moduli of 1024 and 2048 bits are read back, those
    of 3072 and 4096 bits never are. *)
Theorem C29_1024_2048 : forall uris k n b t split text,
  Forall good_uri uris -> k = RSAPtr n 65537 \/ k = RSAVal n 65537 ->
  b = 1024 \/ b = 2048 -> 2 ^ (b - 1) <= n < 2 ^ b ->
  create_tal uris k = Some t -> encode_tal_size spki_octets t split = Ret (Some text) ->
  decode_tal read_spki text = Some (mkTal uris alg_rsa (RSAPtr n 65537)).
Proof. exact tal_1024_2048. Qed.
Print Assumptions C29_1024_2048.

Theorem C29_3072_4096_refuted : forall uris k n b t split text,
  Forall good_uri uris -> k = RSAPtr n 65537 \/ k = RSAVal n 65537 ->
  b = 3072 \/ b = 4096 -> 2 ^ (b - 1) <= n < 2 ^ b ->
  create_tal uris k = Some t -> encode_tal_size spki_octets t split = Ret (Some text) ->
  decode_tal read_spki text = None.
Proof. exact tal_3072_4096. Qed.
Print Assumptions C29_3072_4096_refuted.

Theorem C29_written : forall uris k split, (forall b, k <> OtherKey b) ->
  exists t text, create_tal uris k = Some t /\ encode_tal_size spki_octets t split = Ret (Some text).
Proof. exact (create_encode_total spki_octets). Qed.
Print Assumptions C29_written.

(** In the other direction there is no round trip: writing a TAL that was
    read panics. *)
Theorem C29_read_then_write_refuted : forall data t split,
  decode_tal read_spki data = Some t -> t_alg t = alg_rsa ->
  encode_tal_size spki_octets t split = Panic.
Proof. exact tal_der_panics. Qed.
Print Assumptions C29_read_then_write_refuted.

(** Every TAL that is accepted has the text form: URIs, an empty line, base64
    of a SubjectPublicKeyInfo, and is returned with these URIs and this key. *)
Theorem C29_accepted : forall data t, decode_tal read_spki data = Some t ->
  exists key d alg b, tal_read data (t_uris t) key /\
    b64_text (filter (fun c => negb ((c =? 10) || (c =? 13))) key) d /\ key_info alg d b /\
    ((alg = [1; 2; 840; 113549; 1; 1; 1] /\ t_alg t = alg_rsa /\
        exists n e, t_key t = RSAPtr n e /\ rsa_key (bs_bytes b) n e) \/
     (alg <> [1; 2; 840; 113549; 1; 1; 1] /\ t_alg t = 0 /\ t_key t = OtherKey (bs_bytes b))).
Proof. exact tal_accepted. Qed.
Print Assumptions C29_accepted.

(** The text layer alone, for every list of URIs and every key encoding. *)
Theorem C29_text_layer : forall uris der split, Forall good_uri uris -> bytes_ok der = true ->
  tal_scan (tal_text uris der split) = (uris, b64_raw der).
Proof. exact tal_scan_text. Qed.
Print Assumptions C29_text_layer.

(** Two URIs and a small key, in lines of sixteen characters: the text, and
    what is read from it.  The same text with a comment and carriage returns. *)
Example C29_example :
  let uris := [str "https://a/x.cer"; str "rsync://a/x.cer"] in
  Forall good_uri uris /\
  encode_tal_size spki_octets (mkTal uris alg_rsa (RSAVal 35 3)) 16 =
    Ret (Some (str "https://a/x.cer" ++ [10] ++ str "rsync://a/x.cer" ++ [10; 10] ++
               str "MBowDQYJKoZIhvcN" ++ [10] ++ str "AQEBBQADCQAwBgIB" ++ [10] ++ str "IwIBAw")) /\
  encode_tal_size spki_octets (mkTal uris alg_rsa (RSAVal 8995 3)) 16 =
    Ret (Some (str "https://a/x.cer" ++ [10] ++ str "rsync://a/x.cer" ++ [10; 10] ++
               str "MBswDQYJKoZIhvcN" ++ [10] ++ str "AQEBBQADCgAwBwIC" ++ [10] ++ str "IyMCAQM")) /\
  decode_tal read_spki (str "# c" ++ [13; 10] ++ str "rsync://a/x.cer" ++ [13; 10; 13; 10] ++
     str "MBswDQYJKoZIhvcN" ++ [13; 10] ++ str "AQEBBQADCgAwBwICIyMCAQM=" ++ [13; 10]) =
    Some (mkTal [str "rsync://a/x.cer"] alg_rsa (RSAPtr 8995 3)).
Proof.
  cbv zeta. split; [|split; [|split]; vm_compute; reflexivity].
  repeat constructor; try discriminate; cbn; intros H;
    repeat (destruct H as [H|H]; [discriminate|]); exact H.
Qed.

(** A modulus of 2048 bits written and read, one of 4096 bits written. *)
Example C29_example_sizes :
  let uris := [str "rsync://a/x.cer"] in
  exists t1 x1 t2 x2,
  create_tal uris (RSAVal (2 ^ 2047 + 1) 65537) = Some t1 /\ encode_tal_size spki_octets t1 64 = Ret (Some x1) /\
  decode_tal read_spki x1 = Some (mkTal uris alg_rsa (RSAPtr (2 ^ 2047 + 1) 65537)) /\
  create_tal uris (RSAVal (2 ^ 4095 + 1) 65537) = Some t2 /\ encode_tal_size spki_octets t2 64 = Ret (Some x2) /\
  decode_tal read_spki x2 = None.
Proof.
  cbv zeta. set (uris := [str "rsync://a/x.cer"]).
  assert (G : Forall good_uri uris).
  { repeat constructor; try discriminate; cbn; intros H; repeat (destruct H as [H|H]; [discriminate|]); exact H. }
  destruct (C29_written uris (RSAVal (2 ^ 2047 + 1) 65537) 64 ltac:(intros; discriminate)) as (t1 & x1 & A1 & B1).
  destruct (C29_written uris (RSAVal (2 ^ 4095 + 1) 65537) 64 ltac:(intros; discriminate)) as (t2 & x2 & A2 & B2).
  exists t1, x1, t2, x2. split; [exact A1|]. split; [exact B1|].
  split.
  { apply (C29_1024_2048 uris (RSAVal (2 ^ 2047 + 1) 65537) (2 ^ 2047 + 1) 2048 t1 64 x1); auto.
    split; [intros H; vm_compute in H; discriminate H|vm_compute; reflexivity]. }
  split; [exact A2|]. split; [exact B2|].
  apply (C29_3072_4096_refuted uris (RSAVal (2 ^ 4095 + 1) 65537) (2 ^ 4095 + 1) 4096 t2 64 x2); auto.
  split; [intros H; vm_compute in H; discriminate H|vm_compute; reflexivity].
Qed.

(** C30. The location is the first rsync URI ... *)
Theorem C30_first_rsync : forall hex_sha1 t a u b,
  t_uris t = a ++ u :: b -> has_prefix u (str "rsync://") = true ->
  Forall (fun x => has_prefix x (str "rsync://") = false) a -> get_rsync_uri hex_sha1 t = u.
Proof. exact rsync_uri_first. Qed.
Print Assumptions C30_first_rsync.

(** ... or a made up name, shared only when digests collide ... *)
Theorem C30_made_up : forall hex_sha1 t,
  Forall (fun x => has_prefix x (str "rsync://") = false) (t_uris t) ->
  get_rsync_uri hex_sha1 t =
  str "rsync://rfc8630/certs/" ++ hex_sha1 (last (t_uris t) []) ++ str ".cer".
Proof. exact rsync_uri_none. Qed.
Print Assumptions C30_made_up.

Theorem C30_made_up_injective : forall hex_sha1 t t',
  Forall (fun x => has_prefix x (str "rsync://") = false) (t_uris t) ->
  Forall (fun x => has_prefix x (str "rsync://") = false) (t_uris t') ->
  get_rsync_uri hex_sha1 t = get_rsync_uri hex_sha1 t' <->
  hex_sha1 (last (t_uris t) []) = hex_sha1 (last (t_uris t') []).
Proof. exact rsync_uri_none_inj. Qed.
Print Assumptions C30_made_up_injective.

(** ... and hit by a TAL with an rsync URI only if that TAL names it. *)
Theorem C30_collision_partial : forall hex_sha1 t t',
  Forall (fun x => has_prefix x (str "rsync://") = false) (t_uris t) ->
  has_rsync t' = true -> get_rsync_uri hex_sha1 t = get_rsync_uri hex_sha1 t' ->
  In (str "rsync://rfc8630/certs/" ++ hex_sha1 (last (t_uris t) []) ++ str ".cer") (t_uris t').
Proof. exact rsync_uri_collision. Qed.
Print Assumptions C30_collision_partial.

(** Nothing stops a TAL from naming it. *)
Theorem C30_name_taken_refuted : forall hex_sha1, exists t t',
  t_uris t <> t_uris t' /\ has_rsync t = false /\ has_rsync t' = true /\
  get_rsync_uri hex_sha1 t = get_rsync_uri hex_sha1 t'.
Proof.
  intros h. exists (mkTal [str "https://a/x.cer"] 1 (RSAPtr 1 1)),
    (mkTal [str "rsync://rfc8630/certs/" ++ h (str "https://a/x.cer") ++ str ".cer"] 1 (RSAPtr 2 3)).
  split; [|split; [reflexivity|split; reflexivity]]. discriminate.
Qed.
Print Assumptions C30_name_taken_refuted.

(** The name a TAL goes by is its first URI, of whatever scheme. *)
Theorem C30_name : forall t, (forall u l, t_uris t = u :: l -> get_uri t = u) /\
  (t_uris t = [] -> get_uri t = str "unknown").
Proof. intros t. unfold get_uri. split; [intros u l ->|intros ->]; reflexivity. Qed.
Print Assumptions C30_name.

Example C30_example :
  get_uri (mkTal [str "https://a"; str "rsync://b"] 1 (RSAPtr 1 1)) = str "https://a" /\
  get_rsync_uri (fun b => b) (mkTal [str "https://a"; str "rsync://b"; str "rsync://c"] 1 (RSAPtr 1 1)) = str "rsync://b" /\
  get_rsync_uri (fun b => b) (mkTal [str "https://a"; str "https://b"] 1 (RSAPtr 1 1)) =
    str "rsync://rfc8630/certs/https://b.cer".
Proof. vm_compute. auto. Qed.
