(** The key identifier read from a CRL is the one its extension holds. *)
From Coq Require Import Lia.
From Verif.Model Require Import Base Str NetIP CertRes Roa Ber Asn1 GoTime Der Tal Cms Validator ObjDer.
From Verif.Spec Require Import Trust CrlSpec.
From Verif.Proofs Require Import HeapProofs ValidatorInv ValidatorRun ValidatorFacts DerPrim DerProofs DerBytes ObjEncode.

Lemma crl_aki_skip : forall l cur, (forall e, In e l -> fst e = false) -> crl_aki l cur = cur.
Proof.
  induction l as [|[b val] l IH]; intros cur H; cbn [crl_aki]; [reflexivity|].
  assert (b = false) as -> by exact (H _ (or_introl eq_refl)). cbn [andb]. apply IH. intros e I. apply H. now right.
Qed.

Lemma crl_aki_app : forall a b cur, crl_aki (a ++ b) cur = crl_aki b (crl_aki a cur).
Proof. induction a as [|[i val] a IH]; intros b cur; cbn [crl_aki app]; [reflexivity|apply IH]. Qed.

Lemma names_issuer_read : forall l k, names_issuer l k -> crl_aki (crl_exts l) [] = k.
Proof.
  intros l k (before & after & E & N & L). rewrite E, crl_aki_app, (crl_aki_skip before).
  2: { intros e I. apply N, in_or_app. now left. }
  cbn [crl_aki]. unfold key_octets at 1. rewrite app_length. cbn [length Nat.add andb].
  replace (Nat.ltb 4 _) with true by (symmetry; apply Nat.ltb_lt; lia).
  rewrite crl_aki_skip; [reflexivity|]. intros e I. apply N, in_or_app. now right.
Qed.

(** What the library writes into a CRL names the key. *)
Lemma created_names : forall k exts1 exts2 b serials body, encode_crl_key k = Some b ->
  (1 <= length k <= 125)%nat -> (forall e, In e (exts1 ++ exts2) -> fst e = false) ->
  names_issuer (mkCrl (exts1 ++ (true, b) :: exts2) serials body) k.
Proof.
  intros k e1 e2 b serials body E L N. exists e1, e2. split; [|now split].
  cbn [crl_exts]. f_equal. f_equal. f_equal.
  assert (encode_crl_key k = Some (put_tlv 0 true 16 (put_tlv 2 false 0 k))) as E2.
  { unfold encode_crl_key, t_crl_key. apply struct_octets. cbn [make_fields]. rewrite make_field_eq.
    destruct k as [|x k]; [cbn in L; lia|]. cbn [left_out p_opt_tag p_omit p_opt p_default is_zero andb orb].
    cbn [make_tag universal p_opt_tag p_set make_body]. unfold wrap, is_cons. cbn [p_opt_tag p_tag p_explicit universal].
    now rewrite app_nil_r. }
  rewrite E2 in E. apply some_eq in E. subst b. clear E2.
  rewrite !put_tlv_low by lia. unfold key_octets.
  assert (forall n, 0 <= n < 128 -> encode_length n = [n]) as PL.
  { intros n H. unfold encode_length. destruct (Z.leb_spec 128 n); [lia|]. change 255 with (2 ^ 8 - 1). now rewrite land_low, Z.mod_small by lia. }
  rewrite (PL (Z.of_nat (length k))) by lia. rewrite PL by (rewrite !app_length; cbn [length]; lia).
  rewrite !app_length. cbn [length app]. do 2 f_equal. lia.
Qed.

(** With other fields behind the key identifier another key is looked up. *)
Lemma key_with_more : forall pre k rest, length pre = 4%nat -> (1 <= length (k ++ rest))%nat ->
  crl_aki [(true, pre ++ k ++ rest)] [] = k ++ rest.
Proof.
  intros pre k rest P L. cbn [crl_aki andb]. rewrite (app_length pre).
  replace (Nat.ltb 4 _) with true by (symmetry; apply Nat.ltb_lt; lia).
  destruct pre as [|a [|b [|c [|d [|e pre]]]]]; cbn in P; try lia. reflexivity.
Qed.

(** An accepted CRL was signed by the valid issuer it names. *)
Section Signed.
Variable sig_ok : cert -> cert -> bool.
Variable crl_sig_ok : cert -> crl -> bool.
Variable dec_tal : bytes -> option tal.
Variable dec_cert : bytes -> option cert.
Variable dec_roa : bytes -> option roa.
Variable dec_mft : bytes -> option mft.
Variable dec_crl : bytes -> option crl.
Variable hex_sha1 : bytes -> bytes.
Notation run := (run sig_ok crl_sig_ok dec_tal dec_cert dec_roa dec_mft dec_crl hex_sha1).

Lemma crl_accepted_signed : forall ops now v l v1 a, run ops (new_validator now) = VRet v ->
  add_crl crl_sig_ok l v = VRet (v1, (true, a)) ->
  let k := crl_aki (crl_exts l) [] in
  exists ic, known_cert v ic /\ c_ski ic = k /\ v_valid v k <> None /\ crl_sig_ok ic l = true.
Proof.
  intros ops now v l v1 a R H k. destruct (inv_run sig_ok crl_sig_ok dec_tal dec_cert dec_roa dec_mft dec_crl hex_sha1 _ _ _ R) as (I & _).
  apply add_crl_cases in H. destruct H as (-> & [[F _]|(_ & p & pc & v3 & O & VV & HO & SG & RL & ->)]); [discriminate|].
  fold k in O, VV. destruct (inv_obj _ _ _ I _ _ O) as (c & HC & E). rewrite HO in HC. inversion HC; subst c.
  exists pc. split; [|auto]. exists p. split; [now rewrite E|]. now apply hobj_cert_at.
Qed.
End Signed.
