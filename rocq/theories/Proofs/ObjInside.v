(** What the decoders take out of an object are parts of its octets. *)
From Coq Require Import Lia Bool ZifyBool ZifyNat.
From Verif.Model Require Import Base Str NetIP CertRes Roa Ber Asn1 GoTime Der Tal Cms Validator ObjDer.
From Verif.Spec Require Import Addr Resources Bits Canon BerSpec CmsSpec ObjSpec.
From Verif.Proofs Require Import StrProofs NetIPProofs BerProofs DerPrim DerProofs DerBytes ObjEncode ObjSign CmsProofs DerInside.

Lemma read_inside : forall A t (f : govalue -> option A) d a, read_as t f d = Some a -> solid t p0 = true ->
  exists v, f v = Some a /\ typed t v /\ inside d v.
Proof.
  intros A t f d a H S. unfold read_as, unmarshal in H. destruct (parse_field t p0 d) as [[v r]|] eqn:E; [|discriminate].
  destruct (parse_good t p0 d v r E) as (T & _ & I). exists v. auto.
Qed.

Lemma parse_raw_inside : forall d r rest, parse_raw d = Some (r, rest) ->
  infix (r_full r) d /\ infix (r_bytes r) (r_full r) /\ exists q, d = q ++ rest.
Proof.
  intros d r rest H. pose proof (raw_reader d) as E. rewrite H in E. cbn [opt_map fst snd] in E. unfold unmarshal in E.
  destruct (parse_good GRaw p0 d _ _ E) as (_ & Q & I). specialize (I eq_refl). destruct I as [X Y]. auto.
Qed.
Lemma read_raw_inside : forall d r, read_as GRaw raw_of d = Some r -> infix (r_full r) d /\ infix (r_bytes r) (r_full r).
Proof.
  intros d r H. destruct (read_inside _ GRaw raw_of d r H eq_refl) as (v & E & _ & I).
  destruct v; try discriminate. apply some_eq in E. subst. exact I.
Qed.

Lemma group_loop_ok : forall f d full k out n ok, bytes_ok d = true -> bytes_ok full = true ->
  group_loop f d full k = Some (out, n, ok) -> bytes_ok out = true.
Proof.
  induction f as [|f IH]; intros d full k out n ok D F H; cbn [group_loop] in H; [discriminate|].
  destruct (parse_octets d) as [[t r]|] eqn:E; [|assert (full = out) by congruence; now subst].
  assert (T : bytes_ok (full ++ t) = true /\ bytes_ok r = true).
  { unfold parse_octets in E. destruct (parse_raw d) as [[x rest]|] eqn:P; [|discriminate].
    destruct (parse_raw_inside _ _ _ P) as (I1 & I2 & q & Eq). destruct (_ && _); [|discriminate].
    assert (r_bytes x = t) by congruence. assert (rest = r) by congruence. subst t r. split.
    - unfold bytes_ok. rewrite forallb_app. apply andb_true_iff. split; [exact F|].
      eapply infix_ok; [|exact D]. eapply infix_trans; eauto.
    - eapply infix_ok; [|exact D]. rewrite Eq. apply infix_suffix. }
  destruct T as [T1 T2]. destruct r as [|x r]; [assert (full ++ t = out) by congruence; now subst|].
  eapply IH; [exact T2|exact T1|exact H].
Qed.
Lemma grouped_ok : forall d out b, bytes_ok d = true -> grouped d = Some (out, b) -> bytes_ok out = true.
Proof.
  intros d out b D H. unfold grouped, bad_format_group in H. destruct (parse_raw d) as [[r rest]|] eqn:P; [|discriminate].
  destruct (r_tag r =? 4).
  - destruct (group_loop _ d [] 0) as [[[full n] ok]|] eqn:G; [|discriminate]. destruct ok; [|discriminate].
    assert (full = out) by congruence. subst. exact (group_loop_ok _ d [] _ _ _ _ D eq_refl G).
  - assert (r_full r = out) by congruence. subst. destruct (parse_raw_inside _ _ _ P) as (I & _). eapply infix_ok; eauto.
Qed.

Lemma slice_all : forall A (f : govalue -> option A) v l, slice_of f v = Some l ->
  exists vs, v = VSlice vs /\ Forall2 (fun v a => f v = Some a) vs l.
Proof.
  intros A f v l H. destruct v as [| | | | | | | | |vs|]; try discriminate. exists vs. split; [reflexivity|].
  cbn [slice_of] in H. revert l H. induction vs as [|v vs IH]; intros l H; cbn [map_opt] in H.
  - apply some_eq in H. subst l. constructor.
  - destruct (f v) as [a|] eqn:E; [|discriminate]. destruct (map_opt f vs) as [as'|]; [|discriminate]. apply some_eq in H. subst l.
    constructor; [exact E|]. now apply IH.
Qed.

(** The parts of a signed object *)
Lemma decode_cms_inside : forall d c, decode_cms d = Some c ->
  infix (r_full (sd_encap (co_data c))) d /\ infix (r_bytes (sd_encap (co_data c))) d /\
  infix (r_bytes (sd_certs (co_data c))) d.
Proof.
  intros d c H. destruct (read_inside _ t_cms cms_of d c H eq_refl) as (v & E & _ & I).
  unfold cms_of in E. destruct v as [| | | | | | | |raw l| |]; try discriminate.
  destruct l as [|v1 [|v2 [|? ?]]]; try discriminate; destruct v1; try discriminate.
  destruct (signed_of v2) as [s|] eqn:S; [|discriminate]. apply some_eq in E. subst c. cbn [co_data].
  cbn [inside all_of] in I. destruct I as (_ & _ & I & _).
  unfold signed_of in S. destruct v2 as [| | | | | | | |raw2 l2| |]; try discriminate.
  destruct l2 as [|w1 [|w2 [|w3 [|w4 [|w5 [|w6 [|? ?]]]]]]]; try discriminate; destruct w1; try discriminate;
    destruct w3; try discriminate; destruct w4; try discriminate; destruct w5; try discriminate.
  destruct (slice_of raw_of w2); [|discriminate]. destruct (slice_of signer_of w6); [|discriminate]. apply some_eq in S. subst s.
  cbn [sd_encap sd_certs]. cbn [inside all_of] in I. destruct I as (_ & _ & _ & [I1 I1'] & [I2 I2'] & _).
  split; [exact I1|]. split; eapply infix_trans; eauto.
Qed.

Lemma inner_octets_inside : forall c content, inner_octets c = Some content ->
  infix content (r_full (sd_encap (co_data c))).
Proof.
  intros c content H. unfold inner_octets in H.
  destruct (read_as t_encap encap_of (r_full (sd_encap (co_data c)))) as [e|] eqn:E; [|discriminate]. cbn [bindopt] in H.
  destruct (read_as GRaw raw_of (r_bytes (en_content e))) as [r|] eqn:R; [|discriminate]. cbn [bindopt] in H.
  apply some_eq in H. subst content. destruct (read_raw_inside _ _ R) as [X Y].
  destruct (read_inside _ t_encap encap_of _ _ E eq_refl) as (v & Ev & _ & I).
  unfold encap_of in Ev. destruct v as [| | | | | | | |raw l| |]; try discriminate.
  destruct l as [|v1 [|v2 [|? ?]]]; try discriminate; destruct v1; try discriminate; destruct v2; try discriminate.
  apply some_eq in Ev. subst e. cbn [en_content] in *. cbn [inside all_of] in I. destruct I as (_ & _ & [I1 I2] & _).
  eapply infix_trans; [exact Y|]. eapply infix_trans; [exact X|]. eapply infix_trans; eauto.
Qed.

Lemma content_ok : forall d c content b, bytes_ok d = true -> decode_cms d = Some c ->
  bindopt (inner_octets c) grouped = Some (content, b) -> bytes_ok content = true.
Proof.
  intros d c content b D H G. destruct (inner_octets c) as [i|] eqn:I; [|discriminate]. cbn [bindopt] in G.
  eapply grouped_ok; [|exact G]. eapply infix_ok; [|exact D].
  eapply infix_trans; [apply (inner_octets_inside _ _ I)|]. now apply decode_cms_inside.
Qed.
