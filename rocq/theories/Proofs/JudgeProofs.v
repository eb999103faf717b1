(** Routes judged by a generated list. *)
From Coq Require Import Lia String Permutation.
From Verif.Model Require Import Base NetIP CertRes Roa Str Tal Validator TalText NetText Output Patricia Ov.
From Verif.Spec Require Import Addr Resources Bits Canon Trust OutputSpec OvSpec.
From Verif.Proofs Require Import NetIPProofs NetTextProofs OutputProofs ExportProofs OvProofs.
Open Scope Z_scope.
Arguments dec : simpl never.

Lemma state_determined : forall l rt a b, rfc6811 l rt a -> rfc6811 l rt b -> a = b.
Proof.
  intros l rt a b A B. destruct a, b; cbn in A, B; try reflexivity; exfalso.
  - destruct B as ((v & I & C) & _). exact (A v I C).
  - destruct B as (v & I & C & _). exact (A v I C).
  - destruct A as ((v & I & C) & _). exact (B v I C).
  - destruct B as (v & I & C). exact (proj2 A v I C).
  - destruct A as (v & I & C & _). exact (B v I C).
  - destruct A as (v & I & C). exact (proj2 B v I C).
Qed.

Lemma first_addr_bits : forall w p v i, 0 <= p <= w -> 0 <= i < p ->
  Z.testbit (first_addr w p v) (w - 1 - i) = Z.testbit v (w - 1 - i).
Proof.
  intros w p v i P I. unfold first_addr.
  replace (v - v mod 2 ^ (w - p)) with (v / 2 ^ (w - p) * 2 ^ (w - p)).
  - rewrite Z.mul_pow2_bits by lia. rewrite Z.div_pow2_bits by lia. f_equal. lia.
  - assert (0 < 2 ^ (w - p)) by (apply Z.pow_pos_nonneg; lia).
    pose proof (Z.div_mod v (2 ^ (w - p))). nia.
Qed.

Section Runs.
Variable sig_ok : cert -> cert -> bool.
Variable crl_sig_ok : cert -> crl -> bool.
Variable dec_tal : bytes -> option tal.
Variable dec_cert : bytes -> option cert.
Variable dec_roa : bytes -> option roa.
Variable dec_mft : bytes -> option mft.
Variable dec_crl : bytes -> option crl.
Variable hex_sha1 : bytes -> bytes.
Notation run := (run sig_ok crl_sig_ok dec_tal dec_cert dec_roa dec_mft dec_crl hex_sha1).
Notation anchor := (given_as_anchor dec_cert).
Notation generated_read := (generated_read sig_ok crl_sig_ok dec_tal dec_cert dec_roa dec_mft dec_crl hex_sha1).
Notation exported_all := (exported_all sig_ok crl_sig_ok dec_tal dec_cert dec_roa dec_mft dec_crl hex_sha1).

Lemma generated_proper rs tals filt names paths now d L : produced run rs tals ->
  (forall q, In q rs -> decoded_state (anchor (run_ops q)) (run_state q)) ->
  generate_list filt names paths tals now d = Ret L ->
  forall v, In v (map as_oroa (l_data L)) -> proper (o_prefix v).
Proof.
  intros P D G v I. apply in_map_iff in I. destruct I as (r & <- & I).
  destruct (generated_read _ _ _ _ _ _ _ _ P D G r I) as (j & q & x & e & ip & p & _ & _ & _ & N & SH & GP & _).
  right. exists ip, p. destruct SH as (A & PP & _). split; [assumption|]. split; [assumption|].
  cbn [as_oroa o_prefix]. now rewrite GP, N.
Qed.

Lemma judged_by_valid rs tals filt names paths now d L : produced run rs tals ->
  (forall q, In q rs -> decoded_state (anchor (run_ops q)) (run_state q)) ->
  generate_list filt names paths tals now d = Ret L -> 2 + 2 * Z.of_nat (length (l_data L)) < 2 ^ 32 ->
  exists ov, new_ov (map as_oroa (l_data L)) = TOk ov /\
    forall rt ip p, prefix_is (rt_prefix rt) ip p -> exists m st, ov_validate ov rt = TOk (m, st, false) /\
      (st <> NotFound -> exists q x e, In q rs /\ valid_roa (run_state q) x /\ In e (roa_entries x) /\ entry_covers e ip p) /\
      (st = Valid -> rt_asn rt <> 0 -> exists q x e, In q rs /\ valid_roa (run_state q) x /\ In e (roa_entries x) /\
         entry_covers e ip p /\ p <= re_maxlen e /\ roa_asn x = rt_asn rt).
Proof.
  intros P D G B.
  destruct (ov_rfc6811 (map as_oroa (l_data L)) (generated_proper _ _ _ _ _ _ _ _ P D G)) as (ov & E & V).
  { now rewrite map_length. }
  exists ov. split; [assumption|]. intros rt ip p R. destruct (V rt ip p R) as (m & st & E2 & S & _).
  exists m, st. split; [assumption|].
  assert (K : forall v, In v (map as_oroa (l_data L)) -> covers v rt ->
    exists q x e, In q rs /\ valid_roa (run_state q) x /\ In e (roa_entries x) /\ entry_covers e ip p /\
      o_maxlen v = re_maxlen e /\ (o_asn v <> 0 -> roa_asn x = o_asn v)).
  { intros v I (ip0 & p0 & ip1 & p1 & R0 & R1 & LL & LE & EQ). destruct (prefix_is_fun _ _ _ _ _ R R1) as [<- <-].
    apply in_map_iff in I. destruct I as (r & <- & I).
    destruct (generated_read _ _ _ _ _ _ _ _ P D G r I) as (j & q & x & e & ip2 & p2 & Q & VR & IE & N & SH & GP & ML & _ & _ & AS).
    exists q, x, e. split; [eapply nth_error_In; eassumption|]. split; [assumption|]. split; [assumption|].
    split; [|split].
    - exists ip0, p0. destruct R0 as (A0 & P0 & N0). cbn [as_oroa o_prefix] in N0. rewrite GP in N0. injection N0 as N0.
      split; [assumption|]. split; [assumption|]. split; [lia|assumption].
    - cbn [as_oroa o_maxlen]. assumption.
    - cbn [as_oroa o_asn]. rewrite AS. destruct (_ && _); congruence. }
  split.
  - intros NF. destruct st; [congruence| |]; cbn in S.
    + destruct S as ((v & I & C) & _). destruct (K v I C) as (q & x & e & H). exists q, x, e. tauto.
    + destruct S as (v & I & C & _). destruct (K v I C) as (q & x & e & H). exists q, x, e. tauto.
  - intros -> NZ. destruct S as (v & I & C & (ip1 & p1 & R1 & M) & AS). destruct (K v I C) as (q & x & e & H1 & H2 & H3 & H4 & H5 & H6).
    destruct (prefix_is_fun _ _ _ _ _ R R1) as [<- <-].
    exists q, x, e. repeat split; auto; [congruence|]. rewrite AS. apply H6. congruence.
Qed.

Lemma authorised_is_valid rs tals filt names paths now d L : produced run rs tals ->
  (forall q, In q rs -> decoded_state (anchor (run_ops q)) (run_state q)) ->
  generate_list filt names paths tals now d = Ret L -> 2 + 2 * Z.of_nat (length (l_data L)) < 2 ^ 32 ->
  forall q x ip0 p0 ml, In q rs -> valid_roa (run_state q) x ->
  let e := mkEntry (mkNet ip0 (cidr_mask p0 (addr_bits ip0))) ml in
  In e (roa_entries x) -> plain_addr ip0 -> 0 <= p0 <= addr_bits ip0 -> p0 <= ml <= addr_bits ip0 ->
  0 <= roa_asn x < 2 ^ 32 ->
  wf_list (c_ips (roa_cert x)) -> (forall fam, ~ inherited (c_ips (roa_cert x)) fam) ->
  (forall e, In e (roa_entries x) -> exists fam lo hi, entry_denotes e fam lo hi /\ plain_bounds fam lo hi) ->
  covered (c_ips (roa_cert x)) (length ip0) (first_addr (addr_bits ip0) p0 (addr_val ip0)) (last_addr (addr_bits ip0) p0 (addr_val ip0)) ->
  filt = false \/ p0 <= longest ip0 ->
  exists ov, new_ov (map as_oroa (l_data L)) = TOk ov /\
    forall ip p, plain_addr ip -> p <= addr_bits ip -> length ip0 = length ip -> p0 <= p <= ml ->
      leading_equal (addr_bits ip0) p0 (addr_val ip0) (addr_val ip) ->
      exists m, ov_validate ov (mkRoute (Some (mkNet ip (cidr_mask p (addr_bits ip)))) (roa_asn x)) = TOk (m, Valid, false).
Proof.
  intros P D G B q x ip0 p0 ml Q VR e IE A0 P0 ML AS WF NI DE CV FL.
  destruct (In_nth_error _ _ Q) as (j & QJ).
  pose proof (exported_all _ _ _ _ _ _ _ _ P G j q x ip0 p0 ml QJ VR IE A0 P0 ML WF NI DE CV FL) as EX.
  destruct (ov_rfc6811 (map as_oroa (l_data L)) (generated_proper _ _ _ _ _ _ _ _ P D G)) as (ov & E & V).
  { now rewrite map_length. }
  exists ov. split; [assumption|]. intros ip p A PP LN PR EQ.
  set (rt := mkRoute _ _).
  assert (R : prefix_is (rt_prefix rt) ip p) by (split; [assumption|split; [lia|reflexivity]]).
  destruct (V rt ip p R) as (m & st & E2 & S & _). exists m. rewrite E2.
  enough (st = Valid) as -> by reflexivity.
  apply (state_determined _ _ _ _ S). cbn [rfc6811].
  apply in_map_iff in EX. destruct EX as (r & VE & IR). unfold vrp in VE. injection VE as V1 V2 V3.
  exists (as_oroa r). split; [now apply in_map|].
  destruct (generated_read _ _ _ _ _ _ _ _ P D G r IR) as (j' & q' & x' & e' & ip2 & p2 & _ & _ & _ & N & SH & GP & _ & _ & _ & _).
  destruct (exported_read dec_tal dec_cert dec_roa dec_mft dec_crl hex_sha1 [] (roa_asn x) e ip0 p0 A0 P0 eq_refl ML) as (ip' & X1 & X2 & X3 & X4 & X5 & X6).
  assert (GP' : get_prefix r = Some (mkNet ip' (cidr_mask p0 (addr_bits ip0)))).
  { rewrite <- X1. unfold get_prefix, export_entry. cbn [j_prefix]. now rewrite V1. }
  assert (GA : get_asn2 r = Some (roa_asn x)).
  { transitivity (get_asn2 (export_entry [] (roa_asn x) e)).
    - unfold get_asn2, export_entry. cbn [j_asn]. now rewrite V3.
    - rewrite X6. destruct (Z.leb_spec 0 (roa_asn x)), (Z.ltb_spec (roa_asn x) (2 ^ 32)); try lia. reflexivity. }
  assert (AB : addr_bits ip' = addr_bits ip0) by (unfold addr_bits; now rewrite X2).
  assert (PI : prefix_is (o_prefix (as_oroa r)) ip' p0).
  { cbn [as_oroa o_prefix]. rewrite GP, N in GP'. injection GP' as I1 I2. destruct SH as (A2 & _ & _). subst ip2.
    split; [assumption|]. rewrite AB. split; [assumption|]. rewrite GP, N. f_equal. f_equal. assumption. }
  split; [|split].
  - exists ip', p0, ip, p. split; [assumption|]. split; [assumption|]. split; [congruence|]. split; [lia|].
    rewrite AB, X4. intros i I. rewrite first_addr_bits by lia. exact (EQ i I).
  - exists ip, p. split; [assumption|]. cbn [as_oroa o_maxlen]. rewrite V2. lia.
  - cbn [as_oroa o_asn rt rt_asn]. now rewrite GA.
Qed.
End Runs.
