(** C91: extensions for certificates to be made, and identifiers of keys. *)
From Coq Require Import String Lia Bool.
From Verif.Model Require Import Base Str NetIP CertRes Roa Asn1 GoTime Der Tal Cms Validator ObjDer TalText TalDer X509 ExtMake.
From Verif.Spec Require Import Addr Resources Bits Canon BerSpec IpExtSpec ContentSpec ObjSpec TalSpec JsonSpec ExtMakeSpec.
From Verif.Proofs Require Import ObjEncode ObjTop ObjWitness TalDerProofs X509Proofs ExtMakeProofs.

(** An address is written into an access description, as RFC 5280 wants it, if
    it is Unicode, and is refused otherwise. *)
Theorem C91_access_partial : forall path, bytes_ok path = true -> Z.of_nat (List.length path) < 2 ^ 31 ->
  (unicode path ->
    (exists d, info_access_ext true path = Some (mkExt [1; 3; 6; 1; 5; 5; 7; 1; 1] false d) /\
       access_value [1; 3; 6; 1; 5; 5; 7; 48; 2] path d) /\
    (exists d, info_access_ext false path = Some (mkExt [1; 3; 6; 1; 5; 5; 7; 1; 11] false d) /\
       access_value [1; 3; 6; 1; 5; 5; 7; 48; 11] path d)) /\
  (~ unicode path -> forall a, info_access_ext a path = None).
Proof.
  intros path O L. split.
  - intros U. split; [exact (access_written true path U O L)|exact (access_written false path U O L)].
  - intros N a. exact (access_refused a path O N).
Qed.
Print Assumptions C91_access_partial.

(** Such an extension is read back, and EncodeSIA writes the same. *)
Theorem C91_access_read : forall path x, bytes_ok path = true -> Z.of_nat (List.length path) < 2 ^ 30 ->
  info_access_ext false path = Some x ->
  (forall rest, decode_sia (e_value x ++ rest) = Some [([1; 3; 6; 1; 5; 5; 7; 48; 11], path)]) /\
  sia_ext [([1; 3; 6; 1; 5; 5; 7; 48; 11], path)] = Some x.
Proof. intros path x O L H. split; [exact (access_read false path x O L H)|exact (access_is_sia path x O H)]. Qed.
Print Assumptions C91_access_read.

(** The address ought to be an IA5String: other characters are written all the
    same. *)
Theorem C91_ia5_refuted : exists path d, info_access_ext false path = Some (mkExt [1; 3; 6; 1; 5; 5; 7; 1; 11] false d) /\
  access_value [1; 3; 6; 1; 5; 5; 7; 48; 11] path d /\ ~ ascii_text path.
Proof. exists accented. exact non_ascii_written. Qed.
Print Assumptions C91_ia5_refuted.

(** A statement of practice is written as RFC 5280 wants it, *)
Theorem C91_policy_partial : forall cps, cps <> [] -> bytes_ok cps = true -> Z.of_nat (List.length cps) < 2 ^ 31 ->
  (ascii_text cps -> exists d, policy_ext cps = Some (mkExt [2; 5; 29; 32] true d) /\
     policy_value [1; 3; 6; 1; 5; 5; 7; 14; 2] (Some cps) d) /\
  (~ ascii_text cps -> policy_ext cps = None).
Proof. intros cps N O L. split; [intros A; exact (policy_written cps N A L)|exact (policy_refused cps O)]. Qed.
Print Assumptions C91_policy_partial.

(** but without one an empty list of qualifiers is written, which RFC 5280 does
    not allow. *)
Theorem C91_no_policy_refuted : exists d, policy_ext [] = Some (mkExt [2; 5; 29; 32] true d) /\
  forall cps, ~ policy_value [1; 3; 6; 1; 5; 5; 7; 14; 2] cps d.
Proof. exact empty_qualifiers. Qed.
Print Assumptions C91_no_policy_refuted.

(** Extensions are critical where RFC 6487 says so. *)
Theorem C91_critical :
  (forall l x, ip_ext l = Ret (Some x) -> In (e_id x, e_critical x) critical_rfc6487) /\
  (forall a b x, as_ext a b = Some x -> In (e_id x, e_critical x) critical_rfc6487) /\
  (forall l x, sia_ext l = Some x -> In (e_id x, e_critical x) critical_rfc6487) /\
  (forall a p x, info_access_ext a p = Some x -> In (e_id x, e_critical x) critical_rfc6487) /\
  (forall p x, policy_ext p = Some x -> In (e_id x, e_critical x) critical_rfc6487).
Proof. exact marks. Qed.
Print Assumptions C91_critical.

(** A certificate that has the extensions the library made, in any order and
    among any others, is read with exactly those resources and locations. *)
Theorem C91_certificate : forall x509_parse d c0 exts l nums rdi sias xi xa xs,
  x509_parse d = Some (c0, map (fun x => (e_id x, e_value x)) exts) ->
  all_canonical l -> as_list nums -> as_list rdi -> Forall (fun s => object_id (fst s)) sias ->
  ip_ext l = Ret (Some xi) -> as_ext nums rdi = Some xa -> sia_ext sias = Some xs ->
  Forall (fun x => Z.of_nat (List.length (e_value x)) < 2 ^ 31) [xi; xa; xs] ->
  only_one xi exts -> only_one xa exts -> only_one xs exts ->
  exists c, decode_certificate x509_parse d = Some c /\
    c_ips c = family_part 4 l ++ family_part 16 l /\ c_asns c = nums /\
    c_sia c = map (fun s => (method_of (fst s), snd s)) sias /\
    c_ski c = c_ski c0 /\ c_aki c = c_aki c0 /\ c_key c = c_key c0 /\ c_serial c = c_serial c0.
Proof. exact certificate_read. Qed.
Print Assumptions C91_certificate.

(** Without an extension there is nothing of its kind, whatever the parser of
    certificates left. *)
Theorem C91_absent : forall x509_parse d c0 exts c, x509_parse d = Some (c0, exts) -> decode_certificate x509_parse d = Some c ->
  ((forall b, ~ In ([1; 3; 6; 1; 5; 5; 7; 1; 7], b) exts) -> c_ips c = []) /\
  ((forall b, ~ In ([1; 3; 6; 1; 5; 5; 7; 1; 8], b) exts) -> c_asns c = []) /\
  ((forall b, ~ In ([1; 3; 6; 1; 5; 5; 7; 1; 11], b) exts) -> c_sia c = []).
Proof. exact certificate_absent. Qed.
Print Assumptions C91_absent.

(** The identifier of a key is the hash of the subjectPublicKey: RFC 5280,
    4.2.1.2, method 1. *)
Theorem C91_key_identifier : forall sha1 n e k, k = RSAPtr n e \/ k = RSAVal n e ->
  Z.log2 (Z.abs n) < 2 ^ 30 -> - 2 ^ 63 <= e < 2 ^ 63 ->
  exists b, key_info [1; 2; 840; 113549; 1; 1; 1] (spki_octets n e) b /\ rsa_key (bs_bytes b) n e /\
    hash_public_key sha1 k = Some (sha1 (bs_bytes b)).
Proof. intros sha1 n e k K N E. exact (key_id sha1 n e k K (conj N E)). Qed.
Print Assumptions C91_key_identifier.

(** Two keys have the same identifier only if the hash function collides. *)
Theorem C91_key_identifier_injective : forall sha1 n e n' e' k k',
  k = RSAPtr n e \/ k = RSAVal n e -> k' = RSAPtr n' e' \/ k' = RSAVal n' e' ->
  Z.log2 (Z.abs n) < 2 ^ 30 -> - 2 ^ 63 <= e < 2 ^ 63 -> Z.log2 (Z.abs n') < 2 ^ 30 -> - 2 ^ 63 <= e' < 2 ^ 63 ->
  hash_public_key sha1 k = hash_public_key sha1 k' ->
  (n = n' /\ e = e') \/ exists a b, a <> b /\ sha1 a = sha1 b.
Proof.
  intros sha1 n e n' e' k k' K K' N E N' E'. exact (key_id_injective sha1 n e n' e' k k' K K' (conj N E) (conj N' E')).
Qed.
Print Assumptions C91_key_identifier_injective.

(** A locator that CreateTAL made cannot be compared with a certificate: the
    type assertion fails. *)
Theorem C91_created_locator_refuted : forall uris k n e t, k = RSAPtr n e \/ k = RSAVal n e ->
  create_tal uris k = Some t -> forall key, check_certificate t alg_rsa key = Panic.
Proof. exact created_tal_crashes. Qed.
Print Assumptions C91_created_locator_refuted.

Definition some_ext (o : option extension) : extension := match o with Some x => x | None => mkExt [] false [] end.
Definition ip_x : extension := mkExt [1; 3; 6; 1; 5; 5; 7; 1; 7] true ip_ext0.
Definition as_x : extension := some_ext (as_ext [ASNum 65000] []).
Definition sia_x : extension := some_ext (sia_ext [([1; 3; 6; 1; 5; 5; 7; 48; 10], str "rsync://a/b.mft"%string)]).
Definition pol_x : extension := some_ext (policy_ext (str "http://a/cps"%string)).
Definition aia_x : extension := some_ext (info_access_ext true (str "rsync://a/c.cer"%string)).
Example C91_example :
  ip_ext [INet (Some net10)] = Ret (Some ip_x) /\ as_ext [ASNum 65000] [] = Some as_x /\
  sia_ext [([1; 3; 6; 1; 5; 5; 7; 48; 10], str "rsync://a/b.mft"%string)] = Some sia_x /\
  only_one ip_x [pol_x; sia_x; aia_x; ip_x; as_x] /\ only_one as_x [pol_x; sia_x; aia_x; ip_x; as_x] /\
  only_one sia_x [pol_x; sia_x; aia_x; ip_x; as_x] /\
  e_value pol_x = [48; 40; 48; 38; 6; 8; 43; 6; 1; 5; 5; 7; 14; 2; 48; 26; 48; 24; 6; 8; 43; 6; 1; 5; 5; 7; 2; 1; 22; 12] ++ str "http://a/cps"%string /\
  e_value aia_x = [48; 29; 48; 27; 6; 8; 43; 6; 1; 5; 5; 7; 48; 2; 134; 15] ++ str "rsync://a/c.cer"%string /\
  hash_public_key (fun b => b) (RSAPtr 143 3) = Some [48; 7; 2; 2; 0; 143; 2; 1; 3].
Proof.
  assert (U : forall x l, forallb (fun y => negb (oid_eqb (e_id y) (e_id x))) l = true -> forall l', l' = l ++ [x] \/ (exists a b, l' = a ++ x :: b /\ l = a ++ b) -> only_one x l').
  { intros x l F l' H. rewrite forallb_forall in F.
    assert (N : forall y, In y l -> e_id y <> e_id x).
    { intros y I E. specialize (F y I). rewrite E, oid_eqb_refl in F. discriminate. }
    assert (S : exists a b, l' = a ++ x :: b /\ l = a ++ b).
    { destruct H as [->|H]; [exists l, []; rewrite app_nil_r; auto|exact H]. }
    destruct S as (a & b & -> & ->). split; [apply in_or_app; right; now left|].
    intros y I E. apply in_app_or in I. destruct I as [I|[I|I]]; [|now symmetry|].
    - destruct (N y (in_or_app _ _ _ (or_introl I)) E).
    - destruct (N y (in_or_app _ _ _ (or_intror I)) E). }
  split; [vm_compute; reflexivity|]. split; [vm_compute; reflexivity|]. split; [vm_compute; reflexivity|].
  split; [apply (U ip_x [pol_x; sia_x; aia_x; as_x]); [vm_compute; reflexivity|right; exists [pol_x; sia_x; aia_x], [as_x]; auto]|].
  split; [apply (U as_x [pol_x; sia_x; aia_x; ip_x]); [vm_compute; reflexivity|left; reflexivity]|].
  split; [apply (U sia_x [pol_x; aia_x; ip_x; as_x]); [vm_compute; reflexivity|right; exists [pol_x], [aia_x; ip_x; as_x]; auto]|].
  split; [vm_compute; reflexivity|]. split; vm_compute; reflexivity.
Qed.
