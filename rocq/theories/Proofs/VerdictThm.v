(** Routes judged by a reader of the exported text. *)
From Coq Require Import List ZArith Lia Bool String.
From Verif.Model Require Import Base Str NetIP CertRes Roa Ber Asn1 GoTime Der Tal Validator Explore ObjDer TalText TalDer FileDecoders NetText Json Output StateFile Patricia Ov X509.
From Verif.Spec Require Import Addr Resources Bits Canon IpExtSpec ContentSpec SignedSpec Trust Discovery CtSpec OutputSpec OvSpec EndSpec JsonSpec StateSpec X509Spec ChainSpec VerdictSpec.
From Verif.Proofs Require Import StrProofs OutputProofs ExportProofs EndThm JudgeProofs JsonEnc StateProofs StateAny ListText X509Thm VerdictProofs.
Import ListNotations.
Open Scope Z_scope.

Lemma forall2_of : forall A B (R : A -> B -> Prop) xs ys, Forall2 R xs ys -> forall y, In y ys -> exists x, In x xs /\ R x y.
Proof.
  intros A B R xs ys F. induction F as [|x y xs ys H F IH]; intros z I; [destruct I|].
  destruct I as [<-|I]; [exists x; split; [left; reflexivity|exact H]|]. destruct (IH z I) as (w & W & K). exists w. split; [right; exact W|exact K].
Qed.
Lemma forall2_to : forall A B (R : A -> B -> Prop) xs ys, Forall2 R xs ys -> forall x, In x xs -> exists y, In y ys /\ R x y.
Proof.
  intros A B R xs ys F. induction F as [|x y xs ys H F IH]; intros z I; [destruct I|].
  destruct I as [<-|I]; [exists y; split; [left; reflexivity|exact H]|]. destruct (IH z I) as (w & W & K). exists w. split; [right; exact W|exact K].
Qed.

Section Chain.
Variable sha256 : bytes -> bytes.
Hypothesis sha_len : forall x, List.length (sha256 x) = 32%nat.
Variable all_versions keep : bool.
Variable points : list extension -> list bytes.
Variable more : bytes -> bool.
Variable other_sig : list Z * bytes -> bytes -> bytes -> bytes -> bool.
Variable excused : bytes -> bool.
Variable strict : bool.
Variable crl_sig_ok : cert -> crl -> bool.
Variable dec_crl : bytes -> option crl.
Variable hex_sha1 : bytes -> bytes.
Variable disk : bytes -> option bytes.
Variable synced : bytes -> bool.
Variable clock : nat -> Z * Z.
Variable strict_manifests : bool.
Variable strict_hash : bool.
Variable add_invalid : bool.
Notation x509 := (x509_cert all_versions keep points more).
Notation signed := (x509_signed all_versions keep sha256 other_sig excused).
Notation dec_cert := (file_cert x509).
Notation explored_all := (explored_all sha256 x509 strict signed crl_sig_ok dec_crl hex_sha1 disk synced clock
  strict_manifests strict_hash add_invalid).
Hypothesis cache : octet_cache disk.
Notation explored_decoded := (explored_decoded sha256 sha_len x509 strict signed crl_sig_ok dec_crl hex_sha1 disk synced clock
  strict_manifests strict_hash add_invalid cache).

Notation rests := (rests all_versions keep sha256 other_sig excused hex_sha1 disk).

Theorem generated_octets : forall xs tals filt names paths now dur, explored_all xs tals ->
  (forall q, In q xs -> plain_anchors disk dec_cert q) -> exists L, generate_list filt names paths tals now dur = Ret L.
Proof using All.
  intros xs tals filt names paths now dur X PA. destruct (explored_decoded _ _ X PA) as (rs & P & M).
  refine (generate_returns _ _ _ _ _ _ _ _ rs tals filt names paths now dur P _). intros k K.
  destruct (forall2_of _ _ _ _ _ M k K) as (q & _ & _ & _ & _ & D). exact D.
Qed.

(** The list handed to the consumer: the generated one, signed or not. *)
Theorem told : forall xs tals filt names paths now dur L L', explored_all xs tals ->
  (forall q, In q xs -> plain_anchors disk dec_cert q) -> generate_list filt names paths tals now dur = Ret L ->
  l_data L' = l_data L -> byte_list L' -> 2 + 2 * Z.of_nat (List.length (l_data L)) < 2 ^ 32 ->
  (exists v l, jdocument 3 v (output_text L') /\ jdocument 3 v (served_text L') /\ reads_as v l) /\
  forall n v l, Z.of_nat n <= 10000 -> jdocument n v (output_text L') \/ jdocument n v (served_text L') -> reads_as v l ->
  exists ov, new_ov l = TOk ov /\
    forall rt ip p, prefix_is (rt_prefix rt) ip p -> exists m st, ov_validate ov rt = TOk (m, st, false) /\
      (st <> NotFound -> exists e asn, rests xs e asn /\ entry_covers e ip p) /\
      (st = Valid -> rt_asn rt <> 0 -> exists e, rests xs e (rt_asn rt) /\ entry_covers e ip p /\ p <= re_maxlen e).
Proof using All.
  intros xs tals filt names paths now dur L L' X PA G EL B BD. destruct (explored_decoded _ _ X PA) as (rs & P & M).
  assert (D : forall k, In k rs -> decoded_state (given_as_anchor dec_cert (run_ops k)) (run_state k)).
  { intros k K. destruct (forall2_of _ _ _ _ _ M k K) as (q & _ & _ & _ & _ & D). exact D. }
  assert (PE : Forall plain_entry (l_data L')).
  { rewrite EL. apply Forall_forall. intros r I.
    destruct (generated_read _ _ _ _ _ _ _ _ _ _ _ _ _ _ _ _ P D G r I) as (j & k & x & e & ip & p & _ & _ & _ & _ & S1 & _ & _ & _ & A & _).
    split; [exact (shows_ascii r ip p S1)|]. rewrite A. apply ascii_app; [|apply dec_ascii]. repeat constructor; cbn; lia. }
  destruct (text_entries L' B PE) as ((v0 & (D1 & D2) & R0) & U). split; [exists v0, (map as_oroa (l_data L')); auto|].
  intros n v l N DV R. rewrite (U n v l N DV R), EL.
  destruct (judged_by_valid _ _ _ _ _ _ _ _ _ _ _ _ _ _ _ _ P D G BD) as (ov & E & V). exists ov. split; [exact E|].
  assert (RE : forall k x e, In k rs -> valid_roa (run_state k) x -> In e (roa_entries x) -> rests xs e (roa_asn x)).
  { intros k x e K VR IE. destruct (forall2_of _ _ _ _ _ M k K) as (q & Q & EV & EX & OL & _). rewrite <- EV in VR.
    destruct (valid_roa_certified sha256 sha_len all_versions keep points more other_sig excused strict crl_sig_ok dec_crl hex_sha1 disk synced clock strict_manifests strict_hash add_invalid cache _ _ _ _ _ EX OL VR)
      as (f & raw & d & F1 & F2 & F3 & F4).
    exists q, f, raw, d, (roa_entries x). repeat (split; [assumption|]). assumption. }
  intros rt ip p RT. destruct (V rt ip p RT) as (m & st & E2 & V1 & V2). exists m, st. split; [exact E2|]. split.
  - intros NF. destruct (V1 NF) as (k & x & e & K & VR & IE & CO). exists e, (roa_asn x). split; [exact (RE _ _ _ K VR IE)|exact CO].
  - intros SV AZ. destruct (V2 SV AZ) as (k & x & e & K & VR & IE & CO & ML & AS). exists e. rewrite <- AS.
    split; [exact (RE _ _ _ K VR IE)|]. split; assumption.
Qed.

(** The converse: what a valid ROA within its certificate authorises is told. *)
Theorem told_all : forall xs tals filt names paths now dur L L', explored_all xs tals ->
  (forall q, In q xs -> plain_anchors disk dec_cert q) -> generate_list filt names paths tals now dur = Ret L ->
  l_data L' = l_data L -> byte_list L' -> 2 + 2 * Z.of_nat (List.length (l_data L)) < 2 ^ 32 ->
  forall q x ip0 p0 ml, In q xs -> valid_roa (m_v (x_mgr q)) x ->
  In (mkEntry (mkNet ip0 (cidr_mask p0 (addr_bits ip0))) ml) (roa_entries x) ->
  plain_addr ip0 -> 0 <= p0 <= addr_bits ip0 -> p0 <= ml <= addr_bits ip0 -> 0 <= roa_asn x < 2 ^ 32 ->
  wf_list (c_ips (roa_cert x)) -> (forall fam, ~ inherited (c_ips (roa_cert x)) fam) ->
  (forall e, In e (roa_entries x) -> exists fam lo hi, entry_denotes e fam lo hi /\ plain_bounds fam lo hi) ->
  covered (c_ips (roa_cert x)) (List.length ip0) (first_addr (addr_bits ip0) p0 (addr_val ip0)) (last_addr (addr_bits ip0) p0 (addr_val ip0)) ->
  filt = false \/ p0 <= longest ip0 ->
  forall n v l, Z.of_nat n <= 10000 -> jdocument n v (output_text L') \/ jdocument n v (served_text L') -> reads_as v l ->
  exists ov, new_ov l = TOk ov /\
    forall ip p, plain_addr ip -> p <= addr_bits ip -> List.length ip0 = List.length ip -> p0 <= p <= ml ->
      leading_equal (addr_bits ip0) p0 (addr_val ip0) (addr_val ip) ->
      exists m, ov_validate ov (mkRoute (Some (mkNet ip (cidr_mask p (addr_bits ip)))) (roa_asn x)) = TOk (m, Valid, false).
Proof using All.
  intros xs tals filt names paths now dur L L' X PA G EL B BD q x ip0 p0 ml Q VR IE A0 P0 ML AS WF NI DE CV FL n v l N DV R.
  destruct (explored_decoded _ _ X PA) as (rs & P & M).
  assert (D : forall k, In k rs -> decoded_state (given_as_anchor dec_cert (run_ops k)) (run_state k)).
  { intros k K. destruct (forall2_of _ _ _ _ _ M k K) as (q' & _ & _ & _ & _ & D). exact D. }
  assert (PE : Forall plain_entry (l_data L')).
  { rewrite EL. apply Forall_forall. intros r I.
    destruct (generated_read _ _ _ _ _ _ _ _ _ _ _ _ _ _ _ _ P D G r I) as (j & k & x' & e & ip & p & _ & _ & _ & _ & S1 & _ & _ & _ & A & _).
    split; [exact (shows_ascii r ip p S1)|]. rewrite A. apply ascii_app; [|apply dec_ascii]. repeat constructor; cbn; lia. }
  destruct (text_entries L' B PE) as (_ & U). rewrite (U n v l N DV R), EL.
  destruct (forall2_to _ _ _ _ _ M q Q) as (k & K & EV & _). rewrite EV in VR.
  exact (authorised_is_valid _ _ _ _ _ _ _ _ _ _ _ _ _ _ _ _ P D G BD k x ip0 p0 ml K VR IE A0 P0 ML AS WF NI DE CV FL).
Qed.
End Chain.
