(** Revocation lists have the form of the grammar; what the check of their
    signature establishes. *)
From Coq Require Import Lia ZifyBool ZifyNat Bool.
From Verif.Model Require Import Base Str NetIP CertRes Ber Asn1 GoTime Der Tal Cms Validator ObjDer TalDer X509.
From Verif.Spec Require Import Addr Bits BerSpec IpExtSpec TimeSpec ContentSpec SignedSpec TalSpec X509Spec ChainSpec.
From Verif.Proofs Require Import NetIPProofs StrProofs BerProofs DerProofs DerBytes DerInside ObjBytes ContentProofs SignedProofs TimeProofs X509Bytes X509Proofs X509Thm.

Lemma extension_typed : forall l v r, bytes_ok l = true -> parse_field t_extension p0 l = Some (v, r) -> exists a, extension_of v = Some a.
Proof.
  intros l v r O H. unfold t_extension in H. destruct (struct_inv _ _ _ _ O H) as (e & c & vs & -> & -> & C & Lc & Oc & F).
  apply fields_cons in F. destruct F as (v1 & c1 & w1 & P1 & F & ->).
  destruct (oid_inv _ _ _ Oc P1) as (e1 & k1 & o1 & -> & -> & C1 & I1). apply bytes_ok_app in Oc as [_ Oc].
  apply fields_cons in F. destruct F as (v2 & c2 & w2 & P2 & F & ->).
  destruct (flag_inv _ _ _ Oc P2) as (e2 & k2 & -> & -> & F2). apply bytes_ok_app in Oc as [_ Oc].
  apply fields_cons in F. destruct F as (v3 & c3 & w3 & P3 & F & ->). cbn [parse_fields] in F. apply some_eq in F. subst w3.
  destruct (octets_inv _ _ _ Oc P3) as (e3 & k3 & -> & -> & C3). eexists. reflexivity.
Qed.

Lemma slice_typed : forall {A} t' (f : govalue -> option A),
  (forall l v r, bytes_ok l = true -> parse_field t' p0 l = Some (v, r) -> exists a, f v = Some a) ->
  forall d v rest, bytes_ok d = true -> parse_field (GSlice t') p0 d = Some (v, rest) -> exists vs, slice_of f v = Some vs.
Proof.
  intros A t' f HF d v rest O E.
  destruct (p0_inv (GSlice t') 16 true d v rest eq_refl ltac:(discriminate) ltac:(discriminate) ltac:(lia) O E)
    as (e & c & h & full & -> & C & Lc & D).
  apply bytes_ok_app in O as [O _]. pose proof (coded_ok _ _ _ C O) as Oc.
  cbn [decode_inner] in D. destruct (many (parse_field t' p0) (length c) c) as [ws|] eqn:M; [|discriminate].
  cbn [opt_map] in D. apply some_eq in D. subst v. cbn [slice_of].
  destruct (many_split (parse_field t' p0) (fun _ v => exists a, f v = Some a))
    with (k := length c) (l := c) (vs := ws) as (es & _ & F2); [|exact Oc|exact M|].
  { intros l a r Ol Hl. destruct (parse_good t' p0 l a r Hl) as (_ & (q & ->) & _). exists q. split; [reflexivity|]. exact (HF _ _ _ Ol Hl). }
  clear - F2. induction F2 as [|x y xs ys (a & Ha) F IH]; [now exists []|]. destruct IH as (vs & IH).
  exists (a :: vs). cbn [map_opt]. now rewrite Ha, IH.
Qed.

Lemma entry_inv : forall l v n r, bytes_ok l = true -> parse_field t_revoked p0 l = Some (v, r) -> revoked_of v = Some n ->
  exists e, l = e ++ r /\ entry_octets e n.
Proof.
  intros l v n r O H R. unfold t_revoked in H. destruct (struct_inv _ _ _ _ O H) as (e & c & vs & -> & -> & C & Lc & Oc & F).
  apply fields_cons in F. destruct F as (v1 & c1 & w1 & P1 & F & ->).
  destruct (big_inv _ _ _ Oc P1) as (e1 & k1 & n1 & -> & -> & C1 & N1). apply bytes_ok_app in Oc as [_ Oc].
  apply fields_cons in F. destruct F as (v2 & c2 & w2 & P2 & F & ->).
  destruct (time_value_inv _ _ _ Oc P2) as (e2 & t2 & -> & -> & T2). apply bytes_ok_app in Oc as [_ Oc].
  apply fields_cons in F. destruct F as (v3 & c3 & w3 & P3 & F & ->). cbn [parse_fields] in F. apply some_eq in F. subst w3.
  cbn [revoked_of] in R. apply some_eq in R. subst n1.
  exists e. split; [reflexivity|]. destruct (maybe_inv None _ _ _ _ P3) as [P|(_ & -> & _)].
  - destruct (slice_typed t_extension extension_of extension_typed _ _ _ Oc P) as (a & S).
    destruct (slice_of_inv t_extension extension_of extension_octets extension_inv _ _ _ _ Oc P S) as (e3 & es & -> & C3 & F3).
    apply (entry_one e e1 e2 e3 c3 k1 n t2 es a); auto.
  - apply (entry_one e e1 e2 [] c2 k1 n t2 [] []); auto.
Qed.

Lemma tbs_list_inv : forall l v r, bytes_ok l = true -> parse_field t_tbs_list p0 l = Some (v, r) ->
  forall sv alg sig x, xcrl_of (VStruct sv [v; alg; VBits sig]) = Some x ->
  exists e, l = e ++ r /\ tbs_list_octets e x /\ xl_sig x = sig /\ alg_of alg = Some (xl_alg x).
Proof.
  intros l v r O H sv alg sig x X. unfold t_tbs_list in H.
  destruct (raw_struct_inv _ _ _ _ O H) as (e & c & vs & -> & -> & C & Lc & Oc & F).
  apply fields_cons in F. destruct F as (v1 & c1 & w1 & P1 & F & ->).
  assert (V1 : exists e1 k1 n1, c = e1 ++ c1 /\ v1 = VInt n1 /\ (coded 2 k1 e1 /\ int_coded k1 n1 \/ e1 = [])).
  { change p_opt_zero with (p_maybe (Some 0)) in P1. destruct (maybe_inv (Some 0) _ _ _ _ P1) as [P|(D & -> & _)].
    - destruct (int_inv _ _ _ Oc P) as (e1 & k1 & n1 & -> & -> & C1 & I1). exists e1, k1, n1. auto.
    - exists [], [], 0. split; [reflexivity|]. split; [|now right]. apply some_eq in D. now subst v1. }
  destruct V1 as (e1 & k1 & n1 & -> & -> & V1). apply bytes_ok_app in Oc as [_ Oc].
  apply fields_cons in F. destruct F as (v2 & c2 & w2 & P2 & F & ->).
  destruct (alg_typed _ _ _ Oc P2) as (a2 & T2). destruct (alg_inv _ _ _ _ Oc P2 T2) as (e2 & -> & A2). apply bytes_ok_app in Oc as [_ Oc].
  apply fields_cons in F. destruct F as (v3 & c3 & w3 & P3 & F & ->).
  destruct (raw_field_inv _ _ _ Oc P3) as (x3 & -> & -> & S3 & _). apply bytes_ok_app in Oc as [_ Oc].
  apply fields_cons in F. destruct F as (v4 & c4 & w4 & P4 & F & ->).
  destruct (time_value_inv _ _ _ Oc P4) as (e4 & t4 & -> & -> & T4). apply bytes_ok_app in Oc as [_ Oc].
  apply fields_cons in F. destruct F as (v5 & c5 & w5 & P5 & F & ->).
  assert (V5 : exists e5 t5, c4 = e5 ++ c5 /\ v5 = VTime t5 /\ (time_value e5 t5 \/ e5 = [])).
  { destruct (maybe_inv None _ _ _ _ P5) as [P|(D & -> & _)].
    - destruct (time_value_inv _ _ _ Oc P) as (e5 & t5 & -> & -> & T5). exists e5, t5. auto.
    - cbn [default_value zero_of p_maybe p_opt] in D. apply some_eq in D. subst v5. eexists [], _. split; [reflexivity|]. split; [reflexivity|now right]. }
  destruct V5 as (e5 & t5 & -> & -> & V5). apply bytes_ok_app in Oc as [_ Oc].
  apply fields_cons in F. destruct F as (v6 & c6 & w6 & P6 & F & ->).
  apply fields_cons in F. destruct F as (v7 & c7 & w7 & P7 & F & ->). cbn [parse_fields] in F. apply some_eq in F. subst w7.
  cbn [xcrl_of] in X. destruct (alg_of alg) as [a|] eqn:TA; [|discriminate].
  destruct (slice_of revoked_of v6) as [rev|] eqn:S6; [|discriminate]. destruct (slice_of extension_of v7) as [exts|] eqn:S7; [|discriminate].
  apply some_eq in X. subst x.
  assert (V6 : exists e6 es, c5 = e6 ++ c6 /\ (coded 48 (concat es) e6 \/ e6 = [] /\ es = []) /\ Forall2 entry_octets es rev).
  { destruct (maybe_inv None _ _ _ _ P6) as [P|(D & -> & _)].
    - destruct (slice_of_inv t_revoked revoked_of entry_octets entry_inv _ _ _ _ Oc P S6) as (e6 & es & -> & C6 & F6). exists e6, es. auto.
    - cbn [default_value zero_of p_maybe p_opt] in D. apply some_eq in D. subst v6. cbn [slice_of map_opt] in S6. apply some_eq in S6. subst rev.
      exists [], []. split; [reflexivity|]. split; [now right|constructor]. }
  destruct V6 as (e6 & es & -> & V6 & F6). apply bytes_ok_app in Oc as [_ Oc].
  destruct (extensions_inv 0 _ _ _ _ ltac:(lia) Oc P7 S7) as (e7 & -> & W7).
  exists e. split; [reflexivity|]. split; [|split; reflexivity].
  apply (tbs_list_one e1 e2 (r_full x3) e4 e5 e6 e7 c7 k1 n1 a2 a t4 t5 es rev exts sig e); auto.
Qed.

Theorem list_grammar : forall d x, bytes_ok d = true -> crl_read d = Some x -> list_octets d x.
Proof.
  intros d x O H. unfold crl_read, unmarshal, t_crl in H.
  destruct (parse_field _ p0 d) as [[v r]|] eqn:E; [|discriminate]. destruct r as [|b r]; [|discriminate].
  destruct (struct_inv _ _ _ _ O E) as (e & c & vs & -> & -> & C & Lc & Oc & F). rewrite app_nil_r in *.
  apply fields_cons in F. destruct F as (v1 & c1 & w1 & P1 & F & ->).
  apply fields_cons in F. destruct F as (v2 & c2 & w2 & P2 & F & ->).
  apply fields_cons in F. destruct F as (v3 & c3 & w3 & P3 & F & ->). cbn [parse_fields] in F. apply some_eq in F. subst w3.
  assert (O1 : bytes_ok c1 = true) by (destruct (parse_good t_tbs_list p0 c v1 c1 P1) as (_ & (q & ->) & _); now apply bytes_ok_app in Oc).
  destruct (alg_typed _ _ _ O1 P2) as (a2 & T2). destruct (alg_inv _ _ _ _ O1 P2 T2) as (e2 & E2 & A2).
  assert (O2 : bytes_ok c2 = true) by (rewrite E2 in O1; now apply bytes_ok_app in O1).
  destruct (bits_inv p0 _ _ _ ltac:(repeat split) eq_refl O2 P3) as (e3 & k3 & b3 & E3 & -> & C3 & _ & B3).
  destruct (tbs_list_inv _ _ _ Oc P1 _ _ _ _ H) as (e1 & E1 & T1 & S1 & TA).
  assert (a2 = xl_alg x) by congruence. subst a2.
  apply (list_one e1 e2 e3 c3 e k3 x); [|exact T1|exact A2|exact C3|now rewrite S1].
  rewrite E1, E2, E3 in C. exact C.
Qed.

Section Lists.
Variable more : bytes -> bool.
Variable sha256 : bytes -> bytes.
Variable other_sig : list Z * bytes -> bytes -> bytes -> bytes -> bool.

(** What is read from a revocation list *)
Theorem crl_octets : forall d l, bytes_ok d = true -> x509_crl more d = Some l ->
  exists x, list_octets d x /\ crl_body l = d /\ crl_serials l = xl_revoked x /\
    Forall2 (fun e a => snd a = e_value e /\ (fst a = true <-> e_id e = authority_key_id)) (xl_exts x) (crl_exts l).
Proof using Type.
  intros d l O H. unfold x509_crl in H. destruct (crl_read d) as [x|] eqn:R; [|discriminate].
  destruct (more d); [discriminate|]. apply some_eq in H. subst l. exists x. split; [now apply list_grammar|].
  cbn [crl_body crl_serials crl_exts]. split; [reflexivity|]. split; [reflexivity|].
  induction (xl_exts x) as [|e es IH]; cbn [map]; constructor; [|exact IH]. cbn [fst snd]. split; [reflexivity|].
  destruct (oid_eqb_spec (e_id e) [2; 5; 29; 35]) as [->|N]; split; auto; discriminate.
Qed.

(** What the check of its signature establishes *)
Theorem crl_signed_octets : forall p l, bytes_ok (c_body p) = true -> bytes_ok (crl_body l) = true ->
  x509_crl_signed sha256 other_sig p l = true ->
  exists y x, certificate_octets (c_body p) y /\ list_octets (crl_body l) x /\
    signed_by sha256 other_sig y (xl_alg x) (xl_tbs x) (xl_sig x).
Proof using Type.
  intros p l Op Ol H. unfold x509_crl_signed in H.
  destruct (x509_read (c_body p)) as [y|] eqn:Ry; [|discriminate]. destruct (crl_read (crl_body l)) as [x|] eqn:Rx; [|discriminate].
  pose proof (certificate_grammar _ _ Op Ry) as Gy. pose proof (list_grammar _ _ Ol Rx) as Gx. exists y, x.
  split; [exact Gy|]. split; [exact Gx|]. destruct (certificate_ok _ _ Gy Op) as (_ & WK & _).
  apply check_signature_spec; [exact WK| |exact H]. destruct Gx as [e1 e2 e3 junk d c x _ _ _ _ (u & _ & _ & _ & W)]. exact W.
Qed.
End Lists.
