(** Signatures made with an RSA key: the objects and lists that are accepted;
    a key. *)
From Coq Require Import Lia ZArith Znumtheory Zpow_facts List Bool.
From Verif.Model Require Import Base Str NetIP CertRes Roa Ber Asn1 GoTime Der Tal Cms Validator ObjDer X509 CrlMake RsaPriv.
From Verif.Spec Require Import Addr Resources Bits Canon BerSpec CmsSpec ObjSpec X509Spec CrlMakeSpec RsaSpec.
From Verif.Proofs Require Import StrProofs NetIPProofs BerProofs DerPrim CmsProofs ObjEncode ObjRound ObjTop X509Proofs Fermat RsaProofs.
Import ListNotations.
Open Scope Z_scope.

Lemma sign_total : forall r ir k data, rsa_key k -> prepared k -> sign_pkcs1v15 r ir k data <> Panic.
Proof.
  intros r ir k data K PR. unfold sign_pkcs1v15. destruct (_ <? _); [discriminate|]. destruct (_ <? _); [discriminate|].
  rewrite private_op_spec by auto. cbn [bind_go]. destruct (_ =? _); discriminate.
Qed.

Lemma all_255 : forall ps, Forall (fun x => x = 255) ps -> ps = repeat 255 (length ps).
Proof. induction 1 as [|x l -> F IH]; [reflexivity|]. cbn [length repeat]. now rewrite <- IH. Qed.

(** The signatures of digests that EncryptSignatureRSA makes. *)
Theorem good_key_pair : forall k rsa_sign, rsa_key k -> prepared k -> 62 <= octets_of (pk_n k) -> signer_of k [] rsa_sign ->
  key_pair rsa_sign (pk_n k) (Zpos (pk_e k)).
Proof.
  intros k rsa_sign K PR L SG. pose proof (key_pos k K) as N. split; [lia|]. split; [lia|]. intros h Lh Oh.
  destruct (SG (digest_info h)) as (r & ir & RI & E). cbn [app] in E.
  assert (OD : bytes_ok (digest_info h) = true) by (unfold digest_info; apply bytes_ok_app; split; [reflexivity|exact Oh]).
  assert (LD : length (digest_info h) = 51%nat) by (unfold digest_info; rewrite app_length, Lh; reflexivity).
  destruct (sign_complete r ir k (digest_info h) K PR RI OD) as (em & _ & S); [unfold fits_key; lia|].
  rewrite S in E. injection E as E. rewrite <- E in *. eexists. split; [reflexivity|].
  destruct (sign_sound r ir k (digest_info h) _ ltac:(lia) OD S) as (em' & (ps & EP & FP & LP & LE) & _ & V).
  exists em'. split; [|exact V]. exists (length ps). rewrite <- (all_255 ps FP). split; [exact EP|]. auto.
Qed.

Theorem roa_signed_with : forall sha256 k rsa_sign x509_parse certificate ski time ee,
  rsa_key k -> prepared k -> 62 <= octets_of (pk_n k) -> signer_of k [] rsa_sign ->
  hash32 sha256 -> sequence certificate -> Z.of_nat (length certificate) < 2 ^ 31 -> ski <> [] -> calendar time ->
  decode_certificate x509_parse certificate = Some ee -> c_key ee = RSAPtr (pk_n k) (Zpos (pk_e k)) ->
  Forall (fun i => i <> INet None) (c_ips ee) ->
  forall asn l, entries_ok l -> int64 asn ->
  exists blocks content d,
    encode_roa_entries l = Ret blocks /\ marshal t_roa_content (v_roa_content asn blocks) = Some content /\
    signed_as sha256 rsa_sign certificate ski time oid_roa content d /\
    (Z.of_nat (length d) < 2 ^ 31 -> forall rest,
      exists split, validate_roa_list (by_family l) (c_ips ee) = Ret split /\
        decode_roa sha256 x509_parse false (d ++ rest) = Ret (Some (mkRoa ee asn (by_family l) true, split))).
Proof.
  intros sha256 k rsa_sign x509_parse certificate ski time ee K PR L SG H S LC NS C D E. apply roa_accepted_roa with (n := pk_n k) (e := Zpos (pk_e k)).
  split; [exact H|]. split; [now apply good_key_pair|]. auto 10.
Qed.

(** The signatures of lists. *)
Theorem any_key_signs : forall k rsa_sign h sig, 0 < pk_n k -> signer_of k sha256_info rsa_sign -> bytes_ok h = true ->
  rsa_sign h = Some sig -> pkcs1_signature (pk_n k) (Zpos (pk_e k)) h sig.
Proof.
  intros k rsa_sign h sig N SG O E. destruct (SG h) as (r & ir & _ & S). rewrite E in S.
  assert (OD : bytes_ok (sha256_info ++ h) = true) by (apply bytes_ok_app; split; [reflexivity|exact O]).
  destruct (sign_sound r ir k _ sig N OD S) as (em & (ps & EP & FP & LP & LE) & LS & V).
  exists ps. split; [exact FP|]. split; [exact LP|]. cbv zeta. rewrite <- EP. split; [lia|]. split; [|exact V].
  destruct (key_size_spec (pk_n k) N) as (K1 & K2). destruct (key_octets_size (pk_n k) N) as (_ & ES).
  assert (EL : key_size (pk_n k) = length em) by lia. now rewrite EL in K2.
Qed.

Theorem list_signer : forall sha256 k rsa_sign c y, (forall m, bytes_ok (sha256 m) = true) -> 0 < pk_n k ->
  signer_of k sha256_info rsa_sign -> x509_read (c_body c) = Some y -> key_of y = Some (RSAPtr (pk_n k) (Zpos (pk_e k))) ->
  signs_for sha256 rsa_sign c.
Proof.
  intros sha256 k rsa_sign c y O N SG R K. exists y, (pk_n k), (pk_e k). split; [exact R|]. split; [exact K|].
  intros m sig E. now apply (any_key_signs k rsa_sign).
Qed.

(** ** Making what is computed beforehand *)
Definition inverse (x p : Z) : Z := pow_mod (x mod p) (Z.to_pos (p - 2)) p.
Fixpoint values_for (d r : Z) (primes : list Z) : list crt_value :=
  match primes with
  | [] => []
  | p :: primes' => mkCrt (d mod (p - 1)) (inverse r p) r :: values_for d (r * p) primes'
  end.
Definition prepare (k : privkey) : privkey :=
  match pk_primes k with
  | p :: q :: more =>
      mkPriv (pk_n k) (pk_e k) (pk_d k) (pk_primes k)
        (Some (mkPre (pk_d k mod (p - 1)) (pk_d k mod (q - 1)) (inverse q p) (values_for (pk_d k) (p * q) more)))
  | _ => k
  end.

Lemma inverse_spec : forall x p, prime p -> 2 < p -> ~ (p | x) -> inverse x p * x mod p = 1.
Proof.
  intros x p P G NX. unfold inverse. rewrite pow_mod_spec by lia. rewrite <- Zpower_mod by lia. rewrite Z2Pos.id, Zmult_mod_idemp_l by lia.
  rewrite Z.mul_comm, <- Z.pow_succ_r by lia. replace (Z.succ (p - 2)) with (p - 1) by lia.
  destruct (fermat p x P NX) as (q & F). replace (x ^ (p - 1)) with (1 + q * p) by lia. rewrite Z.mod_add by lia. apply Z.mod_small. lia.
Qed.

Lemma values_spec : forall d more l, Forall prime (l ++ more) -> Forall (fun p => 2 < p) more -> NoDup (l ++ more) ->
  further_values d (zprod l) (values_for d (zprod l) more) more.
Proof.
  intros d more. induction more as [|p more IH]; intros l F G N; cbn [values_for further_values]; [exact I|].
  apply Forall_cons_iff in G. destruct G as (G & GM). cbn [cv_exp cv_r cv_coeff]. split; [reflexivity|]. split; [reflexivity|].
  pose proof F as F1. apply Forall_app in F1. destruct F1 as (FL & F1). apply Forall_cons_iff in F1. destruct F1 as (P & _).
  split.
  - apply inverse_spec; auto. intros D. apply prime_zprod in D; [|exact P]. destruct D as (q & Q & D).
    rewrite Forall_forall in FL. apply prime_div_prime in D; auto. subst q. apply NoDup_remove_2 in N. apply N. apply in_or_app. now left.
  - assert (EP : zprod (l ++ [p]) = zprod l * p) by (rewrite zprod_app; unfold zprod; cbn [fold_right]; lia).
    rewrite <- EP. apply IH; auto; now rewrite <- app_assoc.
Qed.

Theorem prepare_spec : forall k, rsa_key k -> (2 <= length (pk_primes k))%nat ->
  rsa_key (prepare k) /\ prepared (prepare k) /\ pk_pre (prepare k) <> None /\ pk_n (prepare k) = pk_n k.
Proof.
  intros k K L. pose proof (key_primes k K) as FP. unfold prepare. destruct (pk_primes k) as [|p [|q more]] eqn:E; [cbn in L; lia..|].
  split; [|split; [|split; [discriminate|reflexivity]]].
  - unfold rsa_key in *. cbn [pk_n pk_e pk_d pk_primes]. now rewrite E in K.
  - unfold prepared. cbn [pk_pre pk_primes pk_d pc_dp pc_dq pc_qinv pc_crt]. exists p, q, more. split; [reflexivity|].
    split; [reflexivity|]. split; [reflexivity|]. destruct K as (_ & N & _ & _ & F). rewrite E in *.
    assert (G : Forall (fun p => 2 < p) (p :: q :: more)) by (eapply Forall_impl; [|exact F]; intros x X; apply X).
    pose proof FP as F1. apply Forall_cons_iff in F1. destruct F1 as (Pp & F1). apply Forall_cons_iff in F1. destruct F1 as (Pq & F1).
    apply Forall_cons_iff in G. destruct G as (Gp & G). apply Forall_cons_iff in G. destruct G as (Gq & G).
    split.
    + apply inverse_spec; auto. intros D. apply prime_div_prime in D; auto. subst q. apply NoDup_cons_iff in N. apply (proj1 N). now left.
    + assert (EZ : zprod [p; q] = p * q) by (unfold zprod; cbn [fold_right]; lia). rewrite <- EZ. now apply values_spec.
Qed.

(** ** A key of 31 primes *)
Fixpoint no_factor (fuel : nat) (i p : Z) : bool :=
  match fuel with
  | O => false
  | S f => if p <? i * i then true else if p mod i =? 0 then false else no_factor f (i + 1) p
  end.
Lemma no_factor_spec : forall fuel i p, 1 < i -> no_factor fuel i p = true ->
  forall j, i <= j -> j * j <= p -> ~ (j | p).
Proof.
  induction fuel as [|fuel IH]; intros i p I H j J L D; cbn [no_factor] in H; [discriminate|].
  destruct (p <? i * i) eqn:E; [nia|]. destruct (p mod i =? 0) eqn:E1; [discriminate|].
  destruct (Z.eq_dec j i) as [->|]; [apply Z.mod_divide in D; lia|]. apply (IH (i + 1) p ltac:(lia) H j); auto. lia.
Qed.
Lemma no_factor_prime : forall fuel p, 1 < p -> no_factor fuel 2 p = true -> prime p.
Proof.
  intros fuel p P H. apply prime_alt. split; [exact P|]. intros j J (q & D).
  pose proof (no_factor_spec fuel 2 p ltac:(lia) H) as G. destruct (Z.le_ge_cases j q) as [C|C].
  - apply (G j); [lia|nia|]. exists q. exact D.
  - apply (G q); [nia|nia|]. exists j. lia.
Qed.

Fixpoint distinct (l : list Z) : bool := match l with [] => true | x :: l' => negb (existsb (Z.eqb x) l') && distinct l' end.
Lemma distinct_spec : forall l, distinct l = true -> NoDup l.
Proof.
  induction l as [|x l IH]; intros H; cbn [distinct] in H; constructor; apply andb_true_iff in H as [H1 H2]; auto.
  intros I. apply negb_true_iff in H1. assert (E : existsb (Z.eqb x) l = true) by (apply existsb_exists; exists x; split; [exact I|apply Z.eqb_refl]).
  congruence.
Qed.

Definition check_key (fuel : nat) (k : privkey) : bool :=
  (pk_n k =? product (pk_primes k)) && distinct (pk_primes k) && (0 <? pk_d k)
  && forallb (fun p => (2 <? p) && no_factor fuel 2 p && ((Zpos (pk_e k) * pk_d k - 1) mod (p - 1) =? 0)) (pk_primes k).
Lemma check_key_spec : forall fuel k, pk_primes k <> [] -> check_key fuel k = true -> rsa_key k.
Proof.
  intros fuel k NE H. unfold check_key in H. apply andb_true_iff in H as [H H4]. apply andb_true_iff in H as [H H3].
  apply andb_true_iff in H as [H1 H2]. split; [lia|]. split; [now apply distinct_spec|]. split; [exact NE|]. split; [lia|].
  apply Forall_forall. intros p I. rewrite forallb_forall in H4. specialize (H4 p I).
  apply andb_true_iff in H4 as [H4 H6]. apply andb_true_iff in H4 as [H4 H5]. split; [|split; [lia|apply Z.mod_divide; lia]].
  apply (no_factor_prime fuel); [lia|exact H5].
Qed.

Definition k_primes : list Z :=
  [65519; 65447; 65423; 65393; 65381; 65357; 65327; 65309; 65267; 65213; 65183; 65171; 65147; 65141; 65129; 65123; 65111;
   65099; 65063; 65033; 65027; 65003; 64997; 64937; 64919; 64901; 64877; 64871; 64853; 64817; 64811].
Definition k_plain : privkey :=
  mkPriv (product k_primes) 3
    149585019328392402055477784592165784171457063229924447390766231875389586358843196972461841464678871243559933326267
    k_primes None.
Definition k_key : privkey := prepare k_plain.
Definition k_digest : bytes := repeat 0 31 ++ [251].

Lemma k_plain_good : rsa_key k_plain.
Proof. apply (check_key_spec 300); [discriminate|]. vm_compute. reflexivity. Qed.
Lemma k_good : rsa_key k_key /\ prepared k_key /\ pk_pre k_key <> None /\ pk_n k_key = product k_primes.
Proof. apply (prepare_spec k_plain k_plain_good). vm_compute. lia. Qed.
Lemma k_size : octets_of (pk_n k_key) = 62.
Proof. vm_compute. reflexivity. Qed.

Definition k_sign (info data : bytes) : option bytes :=
  match sign_pkcs1v15 1 1 k_key (info ++ data) with Ret o => o | Panic => None end.
Lemma k_signer : forall info, signer_of k_key info (k_sign info).
Proof.
  intros info data. exists 1, 1. split; [vm_compute; reflexivity|]. unfold k_sign. destruct k_good as (K & PR & _).
  pose proof (sign_total 1 1 k_key (info ++ data) K PR). destruct (sign_pkcs1v15 1 1 k_key (info ++ data)); [reflexivity|congruence].
Qed.

(** The result of PrivateEncrypt for [k_digest] has 61 octets. *)
Lemma k_short : exists sig, private_encrypt k_key (sha256_info ++ k_digest) = Ret (Some sig) /\ length sig = 61%nat.
Proof.
  assert (X : match private_encrypt k_key (sha256_info ++ k_digest) with Ret (Some s) => Nat.eqb (length s) 61 | _ => false end = true)
    by (vm_compute; reflexivity).
  destruct (private_encrypt k_key (sha256_info ++ k_digest)) as [[sig|]|]; try discriminate.
  exists sig. split; [reflexivity|]. now apply Nat.eqb_eq.
Qed.

Theorem short_refuted : ~ (forall k h sig, rsa_key k -> prepared k -> length h = 32%nat -> bytes_ok h = true ->
  private_encrypt k (sha256_info ++ h) = Ret (Some sig) -> pkcs1_signature (pk_n k) (Zpos (pk_e k)) h sig).
Proof.
  intros H. destruct k_good as (K & PR & _). destruct k_short as (sig & E & L).
  destruct (H k_key k_digest sig K PR eq_refl eq_refl E) as (ps & F & LP & LS & B & _). cbv zeta in LS.
  change (pk_n k_key) with (pk_n k_plain) in B.
  set (em := [0; 1] ++ ps ++ [0] ++ sha256_info ++ k_digest) in *. rewrite <- LS, L in B. destruct B as (_ & B).
  assert (X : pk_n k_plain <? 256 ^ Z.of_nat 61 = false) by (vm_compute; reflexivity). lia.
Qed.
