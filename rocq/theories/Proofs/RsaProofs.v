(** RSA: the private operation undoes the public one. *)
From Coq Require Import Lia ZArith Znumtheory Zpow_facts List Bool.
From Verif.Model Require Import Base Str NetIP Cms Der X509 RsaPriv.
From Verif.Spec Require Import Addr BerSpec CmsSpec X509Spec RsaSpec.
From Verif.Proofs Require Import StrProofs NetIPProofs BerProofs DerPrim CmsProofs X509Proofs Fermat.
Import ListNotations.
Open Scope Z_scope.

Lemma product_zprod : forall l, product l = zprod l.
Proof. reflexivity. Qed.

Lemma key_primes : forall k, rsa_key k -> Forall prime (pk_primes k).
Proof. intros k (_ & _ & _ & _ & F). eapply Forall_impl; [|exact F]. intros p H. apply H. Qed.

Lemma key_pos : forall k, rsa_key k -> 1 < pk_n k.
Proof.
  intros k K. pose proof (key_primes k K) as P. destruct K as (-> & _ & NE & _ & F). rewrite product_zprod.
  destruct (pk_primes k) as [|p l]; [congruence|]. apply Forall_cons_iff in F. destruct F as ((_ & G & _) & _).
  apply Forall_cons_iff in P. destruct P as (_ & P). pose proof (zprod_pos l P). unfold zprod in *. cbn [fold_right]. nia.
Qed.

Lemma exp_mod_spec : forall x y n, 0 < n -> 0 <= y -> exp_mod x y n = x ^ y mod n.
Proof. intros x y n N Y. destruct y as [|y|y]; [reflexivity|now apply pow_mod_spec|lia]. Qed.

(** The two exponents undo each other. *)
Theorem rsa_inverse : forall k m, rsa_key k -> 0 <= m < pk_n k -> (m ^ pk_d k mod pk_n k) ^ Zpos (pk_e k) mod pk_n k = m.
Proof.
  intros k m K M. pose proof (key_pos k K) as N. pose proof (key_primes k K) as FP. destruct K as (EN & ND & _ & D & F).
  rewrite <- Zpower_mod by lia. rewrite <- Z.pow_mul_r by lia. rewrite EN, product_zprod in *.
  pose proof (zprod_pos _ FP). apply (agree_equal (pk_primes k)); auto; [apply Z.mod_pos_bound; lia|].
  intros p I. rewrite mod_zprod by auto. rewrite Forall_forall in F. destruct (F p I) as (P & G & DV).
  rewrite <- (Z.pow_1_r m) at 2. apply pow_congruent; auto; [nia|lia|]. now rewrite Z.mul_comm.
Qed.

Theorem rsa_inverse_back : forall k m, rsa_key k -> 0 <= m < pk_n k -> (m ^ Zpos (pk_e k) mod pk_n k) ^ pk_d k mod pk_n k = m.
Proof.
  intros k m K M. pose proof K as (_ & _ & _ & D & _). pose proof (key_pos k K) as N. rewrite <- (rsa_inverse k m K M) at 2.
  rewrite <- !Zpower_mod by lia. rewrite <- !Z.pow_mul_r by lia. f_equal. f_equal. lia.
Qed.

(** ** Chinese remainders *)
Lemma short_exponent : forall k p c, rsa_key k -> In p (pk_primes k) -> c ^ (pk_d k mod (p - 1)) mod p = c ^ pk_d k mod p.
Proof.
  intros k p c (_ & _ & _ & D & F) I. rewrite Forall_forall in F. destruct (F p I) as (P & G & (q & DV)).
  pose proof (Z.mod_pos_bound (pk_d k) (p - 1) ltac:(lia)) as B. pose proof (Z.div_mod (pk_d k) (p - 1) ltac:(lia)) as E.
  apply pow_congruent; auto.
  - destruct (Z.eq_dec (pk_d k mod (p - 1)) 0) as [Z0|]; [exfalso|lia]. rewrite Z0 in E.
    assert (X : (p - 1 | 1)).
    { exists (Zpos (pk_e k) * (pk_d k / (p - 1)) - q). rewrite Z.mul_sub_distr_r, <- DV.
      replace (Zpos (pk_e k) * (pk_d k / (p - 1)) * (p - 1)) with (Zpos (pk_e k) * ((p - 1) * (pk_d k / (p - 1)))) by ring.
      replace ((p - 1) * (pk_d k / (p - 1))) with (pk_d k) by lia. lia. }
    apply Z.divide_1_r_nonneg in X; lia.
  - exists (- (pk_d k / (p - 1))). lia.
Qed.

(** One step: from [m] modulo [r] and [x] modulo [p] to both. *)
Lemma crt_step : forall m x r p co, 0 < r -> 0 < p -> 0 <= m < r -> co * r mod p = 1 ->
  let m' := m + (x - m) * co mod p * r in
  0 <= m' < r * p /\ m' mod p = x mod p /\ forall q, 0 < q -> (q | r) -> m' mod q = m mod q.
Proof.
  intros m x r p co R P M C m'. subst m'. pose proof (Z.mod_pos_bound ((x - m) * co) p P) as B. split; [nia|]. split.
  - rewrite Zplus_mod, Zmult_mod_idemp_l. replace ((x - m) * co * r) with ((x - m) * (co * r)) by ring.
    rewrite (Zmult_mod (x - m)), C, Z.mul_1_r, Z.mod_mod by lia. rewrite <- Zplus_mod. f_equal. lia.
  - intros q Q (a & ->). rewrite Z.mul_assoc. apply Z.mod_add. lia.
Qed.

Definition agrees (k : privkey) (c : Z) (l : list Z) (m : Z) : Prop :=
  0 <= m < zprod l /\ forall p, In p l -> m mod p = c ^ pk_d k mod p.

Lemma agrees_all : forall k c m, rsa_key k -> agrees k c (pk_primes k) m -> m = c ^ pk_d k mod pk_n k.
Proof.
  intros k c m K (B & A). pose proof (key_primes k K) as FP. pose proof K as (EN & ND & _). rewrite EN, product_zprod.
  pose proof (zprod_pos _ FP). apply (agree_equal (pk_primes k)); auto; [apply Z.mod_pos_bound; lia|].
  intros p I. rewrite mod_zprod by auto. auto.
Qed.

Lemma divides_zprod : forall l q, In q l -> (q | zprod l).
Proof.
  induction l as [|p l IH]; intros q I; [destruct I|]. cbn [zprod fold_right]. fold (zprod l). destruct I as [->|I].
  - apply Z.divide_factor_l.
  - apply Z.divide_mul_r. auto.
Qed.

Lemma crt_loop_spec : forall k c, rsa_key k -> forall vs primes l m,
  pk_primes k = l ++ primes -> further_values (pk_d k) (zprod l) vs primes -> agrees k c l m ->
  crt_loop c vs primes m = Ret (c ^ pk_d k mod pk_n k).
Proof.
  intros k c K vs. induction vs as [|v vs IH]; intros primes l m E FV A; cbn [crt_loop further_values] in *.
  - destruct primes as [|p primes]; [|contradiction]. f_equal. apply agrees_all; auto. now rewrite E, app_nil_r.
  - destruct primes as [|p primes]; [contradiction|]. destruct FV as (EX & ER & EC & FV).
    assert (I : In p (pk_primes k)) by (rewrite E; apply in_or_app; right; now left).
    pose proof (key_primes k K) as FP. pose proof K as (_ & _ & _ & D & F).
    pose proof F as F0. rewrite Forall_forall in F0. destruct (F0 p I) as (P & G & _).
    assert (FL : Forall prime l) by (rewrite E in FP; apply Forall_app in FP; apply FP).
    pose proof (zprod_pos l FL) as R. destruct (p =? 0) eqn:E0; [lia|].
    rewrite exp_mod_spec by (rewrite ?EX; pose proof (Z.mod_pos_bound (pk_d k) (p - 1)); lia).
    rewrite EX, (short_exponent k p c K I).
    pose proof (Z.mod_pos_bound ((c ^ pk_d k mod p - m) * cv_coeff v) p ltac:(lia)) as B.
    destruct (_ <? 0) eqn:E1; [lia|]. rewrite ER. destruct A as (A1 & A2).
    destruct (crt_step m (c ^ pk_d k mod p) (zprod l) p (cv_coeff v) R ltac:(lia) A1 EC) as (S1 & S2 & S3).
    assert (EP : zprod (l ++ [p]) = zprod l * p) by (rewrite zprod_app; unfold zprod; cbn [fold_right]; lia).
    apply (IH primes (l ++ [p])); [now rewrite <- app_assoc|now rewrite EP|].
    split; [now rewrite EP|]. intros q Q. apply in_app_iff in Q. destruct Q as [Q|[<-|[]]].
    + rewrite S3; [auto| |now apply divides_zprod]. rewrite Forall_forall in FL. destruct (FL q Q). lia.
    + rewrite S2. apply Z.mod_mod. lia.
Qed.

Theorem private_op_spec : forall k c, rsa_key k -> prepared k -> private_op k c = Ret (c ^ pk_d k mod pk_n k).
Proof.
  intros k c K PR. pose proof (key_pos k K) as N. pose proof K as (_ & _ & _ & D & F). unfold private_op, prepared in *.
  destruct (pk_pre k) as [pc|]; [|now rewrite exp_mod_spec by lia].
  destruct PR as (p & q & more & E & EP & EQ & EI & FV). pose proof (key_primes k K) as FP.
  assert (Ip : In p (pk_primes k)) by (rewrite E; now left). assert (Iq : In q (pk_primes k)) by (rewrite E; right; now left).
  rewrite Forall_forall in F. destruct (F p Ip) as (Pp & Gp & _). destruct (F q Iq) as (Pq & Gq & _).
  rewrite E. destruct (p =? 0) eqn:E0; [lia|].
  pose proof (Z.mod_pos_bound (pk_d k) (p - 1) ltac:(lia)). pose proof (Z.mod_pos_bound (pk_d k) (q - 1) ltac:(lia)).
  rewrite EP, EQ, !exp_mod_spec by lia. rewrite (short_exponent k p c K Ip), (short_exponent k q c K Iq).
  set (x := c ^ pk_d k mod p). set (m2 := c ^ pk_d k mod q).
  assert (B2 : 0 <= m2 < q) by (apply Z.mod_pos_bound; lia).
  assert (EM : (if x - m2 <? 0 then x - m2 + p else x - m2) * pc_qinv pc mod p = (x - m2) * pc_qinv pc mod p).
  { destruct (x - m2 <? 0); [|reflexivity]. rewrite Z.mul_add_distr_r. rewrite (Z.mul_comm p). apply Z.mod_add. lia. }
  rewrite EM. destruct (crt_step m2 x q p (pc_qinv pc) ltac:(lia) ltac:(lia) B2 EI) as (S1 & S2 & S3).
  replace ((x - m2) * pc_qinv pc mod p * q + m2) with (m2 + (x - m2) * pc_qinv pc mod p * q) by lia.
  assert (EZ : zprod [p; q] = p * q) by (unfold zprod; cbn [fold_right]; lia).
  apply (crt_loop_spec k c K (pc_crt pc) more [p; q]); [exact E|now rewrite EZ|].
  split; [rewrite EZ; lia|]. intros y [<-|[<-|[]]].
  - rewrite S2. apply Z.mod_mod. lia.
  - rewrite S3; [apply Z.mod_mod; lia|lia|apply Z.divide_refl].
Qed.

(** ** Blocks *)
Lemma key_octets_size : forall n, 0 < n -> (bit_len n + 7) / 8 = octets_of n /\ Z.to_nat (octets_of n) = key_size n.
Proof.
  intros n N. unfold bit_len, octets_of, key_size. destruct (n =? 0) eqn:E; [lia|]. pose proof (Z.log2_nonneg n).
  replace (Z.log2 n + 1 + 7) with (Z.log2 n + 1 * 8) by lia. replace (Z.log2 n + 8) with (Z.log2 n + 1 * 8) by lia.
  rewrite Z.div_add by lia. split; reflexivity.
Qed.

Lemma padded_block : forall n data, 0 < n -> fits_key n data -> block_type_1 (octets_of n) data (padded (Z.to_nat (octets_of n)) data).
Proof.
  intros n data N F. unfold fits_key in F. exists (repeat 255 (Z.to_nat (octets_of n) - length data - 3)). split; [reflexivity|].
  split; [apply Forall_forall; intros x X; exact (repeat_spec _ _ _ X)|]. rewrite repeat_length. split; [lia|].
  unfold padded. rewrite !app_length, repeat_length. cbn [length]. lia.
Qed.

Lemma padded_ok : forall k data, bytes_ok data = true -> bytes_ok (padded k data) = true.
Proof.
  intros k data O. unfold padded. apply bytes_ok_app. split; [reflexivity|]. apply bytes_ok_app. split.
  - generalize (k - length data - 3)%nat. induction n as [|n IH]; [reflexivity|]. cbn [repeat]. apply bytes_ok_cons. split; [lia|exact IH].
  - apply bytes_ok_cons. split; [lia|exact O].
Qed.

Lemma padded_less : forall n data, 0 < n -> bytes_ok data = true -> fits_key n data ->
  0 <= int_of_bytes (padded (Z.to_nat (octets_of n)) data) < n.
Proof.
  intros n data N O F. rewrite int_of_bytes_bval. destruct (key_octets_size n N) as (_ & EK).
  destruct (key_size_spec n N) as (K1 & K2 & K3). pose proof (padded_ok (Z.to_nat (octets_of n)) data O) as PO.
  destruct (padded_block n data N F) as (ps & _ & _ & _ & L). set (em := padded (Z.to_nat (octets_of n)) data) in *.
  assert (EM : exists l, em = 0 :: 1 :: l) by (eexists; reflexivity). destruct EM as (l & EM). rewrite EM in *.
  apply bytes_ok_cons in PO. destruct PO as (_ & PO). apply bytes_ok_cons in PO. destruct PO as (_ & PO).
  pose proof (bval_bound l PO) as B. cbn [bval length] in *. unfold fits_key in F.
  assert (EL : Z.of_nat (key_size n) - 1 = Z.of_nat (length l) + 1) by lia. rewrite EL in K2.
  rewrite Z.pow_add_r in K2 by lia. change (256 ^ 1) with 256 in K2. lia.
Qed.

(** What the library signs, with any key: a signature of the data. *)
Theorem sign_sound : forall r ir k data sig, 0 < pk_n k -> bytes_ok data = true -> sign_pkcs1v15 r ir k data = Ret (Some sig) ->
  exists em, block_type_1 (octets_of (pk_n k)) data em /\ Z.of_nat (length sig) = octets_of (pk_n k) /\
    addr_val sig ^ Zpos (pk_e k) mod pk_n k = addr_val em.
Proof.
  intros r ir k data sig N O H. unfold sign_pkcs1v15 in H. destruct (key_octets_size (pk_n k) N) as (EK & ES). rewrite EK in H.
  destruct (_ <? _) eqn:E1 in H; [discriminate|]. destruct (_ <? _) eqn:E2 in H; [discriminate|].
  destruct (private_op _ _) as [b|] in H; [|discriminate]. cbn [bind_go] in H. destruct (_ =? _) eqn:E3 in H; [|discriminate].
  injection H as <-. apply Z.eqb_eq in E3. rewrite pow_mod_spec in E3 by lia.
  exists (padded (Z.to_nat (octets_of (pk_n k))) data). split; [apply padded_block; [exact N|unfold fits_key; lia]|].
  destruct (key_size_spec (pk_n k) N) as (K1 & K2 & K3). rewrite be_length, ES. split.
  - unfold octets_of in *. pose proof (Z.log2_nonneg (pk_n k)). lia.
  - rewrite <- ES, ES. rewrite ES in E3. change (addr_val (padded (key_size (pk_n k)) data)) with (int_of_bytes (padded (key_size (pk_n k)) data)).
    rewrite <- E3. f_equal. f_equal.
    change (addr_val (be_bytes (key_size (pk_n k)) (b * ir mod pk_n k))) with (be_value (be_bytes (key_size (pk_n k)) (b * ir mod pk_n k))).
    rewrite be_value_bytes. apply Z.mod_small. pose proof (Z.mod_pos_bound (b * ir) (pk_n k) N). lia.
Qed.

(** With a good key there is a signature, whatever the random number. *)
Theorem sign_complete : forall r ir k data, rsa_key k -> prepared k -> r * ir mod pk_n k = 1 -> bytes_ok data = true ->
  fits_key (pk_n k) data ->
  exists em, block_type_1 (octets_of (pk_n k)) data em /\
    sign_pkcs1v15 r ir k data = Ret (Some (be_bytes (Z.to_nat (octets_of (pk_n k))) (addr_val em ^ pk_d k mod pk_n k))).
Proof.
  intros r ir k data K PR RI O F. pose proof (key_pos k K) as N. unfold sign_pkcs1v15. destruct (key_octets_size (pk_n k) ltac:(lia)) as (EK & _).
  rewrite EK. pose proof (padded_less (pk_n k) data ltac:(lia) O F) as B. set (em := padded _ data) in *. exists em.
  split; [apply padded_block; [lia|exact F]|]. unfold fits_key in F. destruct (_ <? _) eqn:E1; [lia|]. destruct (_ <? int_of_bytes em) eqn:E2; [lia|].
  rewrite pow_mod_spec, private_op_spec by (auto; lia). cbn [bind_go].
  change (addr_val em) with (int_of_bytes em). set (c := int_of_bytes em) in *. pose proof K as (_ & _ & _ & D & _).
  assert (EM : (c * (r ^ Zpos (pk_e k) mod pk_n k) mod pk_n k) ^ pk_d k mod pk_n k * ir mod pk_n k = c ^ pk_d k mod pk_n k).
  { assert (A : (c * (r ^ Zpos (pk_e k) mod pk_n k) mod pk_n k) ^ pk_d k mod pk_n k = c ^ pk_d k * (r ^ Zpos (pk_e k)) ^ pk_d k mod pk_n k).
    { rewrite Zmult_mod_idemp_r. rewrite <- Zpower_mod by lia. now rewrite Z.pow_mul_l. }
    assert (R : (r ^ Zpos (pk_e k)) ^ pk_d k mod pk_n k = r mod pk_n k).
    { rewrite <- (rsa_inverse_back k (r mod pk_n k) K ltac:(apply Z.mod_pos_bound; lia)).
      rewrite <- Zpower_mod by lia. rewrite (Zpower_mod (r ^ Zpos (pk_e k))), (Zpower_mod ((r mod pk_n k) ^ Zpos (pk_e k))) by lia.
      rewrite (Zpower_mod (r mod pk_n k)), Z.mod_mod by lia. rewrite <- (Zpower_mod r) by lia. reflexivity. }
    rewrite A, Zmult_mod_idemp_l. rewrite <- Z.mul_assoc, Zmult_mod, (Zmult_mod ((r ^ Zpos (pk_e k)) ^ pk_d k)), R.
    rewrite <- (Zmult_mod r), RI, Z.mul_1_r. apply Z.mod_mod. lia. }
  rewrite EM, pow_mod_spec, rsa_inverse by (auto; lia). now rewrite Z.eqb_refl.
Qed.

(** ** PrivateEncrypt and RSAPublicDecrypt *)
Lemma int_of_bytes_of_int : forall v, 0 <= v -> int_of_bytes (bytes_of_int v) = v.
Proof.
  intros v V. destruct (Z.eq_dec v 0) as [->|]; [reflexivity|]. destruct (nat_bytes v ltac:(lia)) as (l & O & NE & H & <-).
  rewrite bytes_of_int_bval by auto. apply int_of_bytes_bval.
Qed.

Lemma decrypt_block : forall j data, (8 <= j)%nat -> bytes_ok data = true ->
  let out := bytes_of_int (int_of_bytes ([0; 1] ++ repeat 255 j ++ 0 :: data)) in skipn (find_skip 2 (skipn 2 out)) out = data.
Proof.
  intros j data J O. cbv zeta. rewrite int_of_bytes_bval. destruct j as [|[|j]]; [lia..|].
  set (out := 1 :: 255 :: repeat 255 (S j) ++ 0 :: data).
  assert (B : bval ([0; 1] ++ repeat 255 (S (S j)) ++ 0 :: data) = bval out).
  { change ([0; 1] ++ repeat 255 (S (S j)) ++ 0 :: data) with (0 :: out). cbn [bval]. lia. }
  rewrite B, bytes_of_int_bval.
  - unfold out. cbn [skipn]. rewrite find_skip_pad.
    replace (2 + j + 2)%nat with (length ((1 :: 255 :: repeat 255 (S j)) ++ [0])).
    + change (1 :: 255 :: repeat 255 (S j) ++ 0 :: data) with ((1 :: 255 :: repeat 255 (S j)) ++ [0] ++ data).
      rewrite app_assoc. apply skipn_app_exact.
    + rewrite app_length. cbn [length]. rewrite repeat_length. lia.
  - unfold out. rewrite !bytes_ok_cons. split; [lia|]. split; [lia|]. apply bytes_ok_app. split.
    + generalize (S j). induction n as [|n IH]; [reflexivity|]. cbn [repeat]. apply bytes_ok_cons. split; [lia|exact IH].
    + apply bytes_ok_cons. split; [lia|exact O].
  - intros _. discriminate.
Qed.

Theorem encrypt_value : forall k data, rsa_key k -> prepared k -> bytes_ok data = true -> fits_key (pk_n k) data ->
  exists em, block_type_1 (octets_of (pk_n k)) data em /\
    private_encrypt k data = Ret (Some (bytes_of_int (addr_val em ^ pk_d k mod pk_n k))).
Proof.
  intros k data K PR O F. pose proof (key_pos k K) as N. unfold private_encrypt.
  destruct (key_octets_size (pk_n k) ltac:(lia)) as (EK & _). rewrite EK. pose proof (padded_less (pk_n k) data ltac:(lia) O F) as B.
  set (em := padded _ data) in *. exists em. split; [apply padded_block; [lia|exact F]|]. unfold fits_key in F.
  destruct (_ <? _) eqn:E1; [lia|]. destruct (_ <? int_of_bytes em) eqn:E2; [lia|].
  rewrite private_op_spec by auto. cbn [bind_go]. change (addr_val em) with (int_of_bytes em).
  rewrite Z.abs_eq; [reflexivity|]. apply Z.mod_pos_bound. lia.
Qed.

Theorem decrypt_encrypted : forall k data, rsa_key k -> prepared k -> bytes_ok data = true -> fits_key (pk_n k) data ->
  exists sig, private_encrypt k data = Ret (Some sig) /\ rsa_public_decrypt (pk_n k) (pk_e k) sig = data.
Proof.
  intros k data K PR O F. pose proof (key_pos k K) as N. destruct (encrypt_value k data K PR O F) as (em & (ps & EP & FP & LP & LE) & ->).
  eexists. split; [reflexivity|]. unfold rsa_public_decrypt. rewrite pow_mod_spec, int_of_bytes_of_int by (try apply Z.mod_pos_bound; lia).
  assert (ER : ps = repeat 255 (length ps)).
  { clear - FP. induction FP as [|x l -> FP IH]; [reflexivity|]. cbn [length repeat]. now rewrite <- IH. }
  pose proof (padded_less (pk_n k) data ltac:(lia) O F) as B.
  assert (EM : em = padded (Z.to_nat (octets_of (pk_n k))) data).
  { rewrite EP, ER. unfold padded. do 2 f_equal. f_equal. rewrite EP, !app_length in LE. cbn [length] in LE. lia. }
  rewrite <- EM in B. change (addr_val em) with (int_of_bytes em). rewrite rsa_inverse by (auto; lia).
  rewrite EP, ER. now apply decrypt_block.
Qed.

Theorem encrypt_refuses : forall k data, 0 < pk_n k -> ~ fits_key (pk_n k) data -> private_encrypt k data = Ret None.
Proof.
  intros k data N F. unfold private_encrypt, fits_key in *. destruct (key_octets_size (pk_n k) N) as (EK & _). rewrite EK.
  destruct (_ <? _) eqn:E1; [reflexivity|lia].
Qed.
